(** C132: the number of stages of a simplified train, and the pressures they are made for. *)
From Coq Require Import Reals List Lia Lra ZArith.
From Verif Require Import Base Stages_Model Stages_Spec Stages_Proofs.
Import ListNotations.
Local Open Scope list_scope.
Local Open Scope R_scope.

(** The number is the fewest stages that are enough. *)
Theorem C132_fewest : forall r periods, 1 < r -> proper_periods periods -> exists n, calculate_number_of_stages r periods = Ok n /\ fewest r (Z.to_nat n) periods.
Proof. exact fewest_proof. Qed.
Print Assumptions C132_fewest.
(** There are stages exactly when the pressure is raised in some period, and a ValueError otherwise. *)
Theorem C132_accepted : forall r periods, 1 < r -> proper_periods periods ->
  ((exists stages, unknown_stages (Some r) periods = Ok stages) <-> exists p, In p periods /\ fst p < snd p) /\
  ((forall p, In p periods -> snd p <= fst p) -> unknown_stages (Some r) periods = Err ValueError).
Proof. exact accepted_proof. Qed.
Print Assumptions C132_accepted.
(** In each period the stages lead from the suction pressure to the discharge pressure, with equal ratios that are at most the given one. *)
Theorem C132_stages : forall r periods stages, 1 < r -> proper_periods periods -> unknown_stages (Some r) periods = Ok stages ->
  fewest r (List.length stages) periods /\
  forall i p, nth_error periods i = Some p -> exists ratio one, Forall2 (fun stage io => nth_error stage i = Some io) stages one /\
    chain ratio (fst p) (snd p) one /\ 0 < ratio /\ ratio <= r /\ (fst p <= snd p -> 1 <= ratio).
Proof. exact stages_proof. Qed.
Print Assumptions C132_stages.

(** From 1 to 8 bar and from 2 to 8 bar with ratios of 2 at most: three stages *)
Example C132_case : proper_periods [(1, 8); (2, 8)] /\ (exists n, calculate_number_of_stages 2 [(1, 8); (2, 8)] = Ok n /\ Z.to_nat n = 3%nat) /\
  exists stages, unknown_stages (Some 2) [(1, 8); (2, 8)] = Ok stages /\ List.length stages = 3%nat.
Proof.
  assert (proper_periods [(1, 8); (2, 8)]) as P by (split; [discriminate|]; intros p [<-|[<-|[]]]; cbn; lra).
  assert (fewest 2 3 [(1, 8); (2, 8)]) as F.
  { split; [intros p [<-|[<-|[]]]; cbn; lra|]. intros m E. specialize (E (1, 8) (or_introl eq_refl)). cbn [fst snd] in E. destruct m as [|[|[|m]]]; cbn [pow] in E; try lra. lia. }
  split; [exact P|]. split.
  - destruct (fewest_proof 2 [(1, 8); (2, 8)] ltac:(lra) P) as (n & E & G). exists n. split; [exact E|]. exact (fewest_unique _ _ _ _ G F).
  - destruct (proj2 (proj1 (accepted_proof 2 [(1, 8); (2, 8)] ltac:(lra) P))) as [stages S]; [exists (1, 8); split; [left; reflexivity|cbn; lra]|]. exists stages. split; [exact S|].
    destruct (stages_proof 2 _ stages ltac:(lra) P S) as [G _]. exact (fewest_unique _ _ _ _ G F).
Qed.

(** "A train is made for any positive pressures" is false: without a period that raises the pressure it is an error ... *)
Theorem C132_equal_pressures_refuted : exists r periods, 1 < r /\ proper_periods periods /\ (forall p, In p periods -> fst p = snd p) /\ unknown_stages (Some r) periods = Err ValueError.
Proof.
  exists 2, [(5, 5)]. split; [lra|]. assert (proper_periods [(5, 5)]) as P by (split; [discriminate|]; intros p [<-|[]]; cbn; lra). split; [exact P|].
  split; [intros p [<-|[]]; reflexivity|]. apply (proj2 (accepted_proof 2 [(5, 5)] ltac:(lra) P)). intros p [<-|[]]. cbn. lra.
Qed.
Print Assumptions C132_equal_pressures_refuted.
(** ... and a ratio of 1, which can be written, divides by zero. *)
Theorem C132_ratio_one_refuted : exists periods, proper_periods periods /\ (exists p, In p periods /\ fst p < snd p) /\ unknown_stages (Some 1) periods = Err ZeroDivisionError.
Proof.
  exists [(1, 2)]. split; [split; [discriminate|]; intros p [<-|[]]; cbn; lra|]. split; [exists (1, 2); split; [left; reflexivity|cbn; lra]|].
  unfold unknown_stages, calculate_number_of_stages, positive, py_log, py_div. cbn [forallb fst snd map py_max fold_left Base.bind].
  destruct (Rlt_dec 0 1); [|lra]. destruct (Rlt_dec 0 2); [|lra]. cbn [andb negb Base.bind]. destruct (Rlt_dec 0 (2 / 1)); [|lra]. cbn [Base.bind]. rewrite ln_1.
  destruct (Req_EM_T 0 0); [reflexivity|lra].
Qed.
Print Assumptions C132_ratio_one_refuted.

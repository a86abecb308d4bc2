(** Property C151: what is only valid with power from shore. *)
From Coq Require Import PeanoNat.
From Verif Require Import QcTac Base Time_Model Time_Spec Num Energy_Model Shore_Model Shore_Spec Shore_Proofs.
Local Open Scope list_scope.

(** A cable loss or a maximum usage is accepted exactly when the category is power from shore at some time. *)
Theorem C151_accepted : forall E (cable_loss max_usage : option E) d,
  (validate_power_from_shore cable_loss max_usage d = Ok tt <-> (cable_loss = None /\ max_usage = None) \/ has_category d PowerFromShore) /\
  (validate_power_from_shore cable_loss max_usage d = Err ValueError <-> (cable_loss <> None \/ max_usage <> None) /\ ~ has_category d PowerFromShore).
Proof. exact accepted_iff. Qed.
Print Assumptions C151_accepted.

(** What is refused could not have changed anything: with that category the cable loss never counts. *)
Theorem C151_refused : forall E (truthy : E -> bool) evaluate e max_usage d target ps power,
  validate_power_from_shore (Some e) max_usage d <> Ok tt -> List.length power = List.length ps -> List.length (evaluate e) = List.length ps -> (forall p, In p ps -> nonempty p) ->
  production truthy evaluate (Some e) d target ps (map Some power) = production truthy evaluate None d target ps (map Some power).
Proof. exact refused_harmless. Qed.
Print Assumptions C151_refused.

(** A cable loss is accepted although there is no power from shore in the time of the run, and it never counts. *)
Theorem C151_before_run_refuted : exists d target ps, (forall E (e : E) m, validate_power_from_shore (Some e) m d = Ok tt) /\ ps <> [] /\ (forall p, In p ps -> nonempty p) /\
  forall power loss, List.length power = List.length ps -> List.length loss = List.length ps -> production (fun _ : unit => true) (fun _ => loss) (Some tt) d target ps (map Some power) = Ok (map Some power).
Proof. exact before_run_refuted. Qed.
Print Assumptions C151_before_run_refuted.

(** ** Cases *)
Definition C151_category : temporal_data category := TDDates (10, OtherCategory 1)%Z [(20, PowerFromShore)]%Z.
Example C151_case : validate_power_from_shore (Some tt) None C151_category = Ok tt /\ validate_power_from_shore (Some tt) None (TDPlain (OtherCategory 1)) = Err ValueError /\
  validate_power_from_shore None (Some tt) (TDDates (10, OtherCategory 1)%Z [(20, OtherCategory 2)]%Z) = Err ValueError.
Proof. repeat split. Qed.
Example C151_case_production : production (fun _ : unit => true) (fun _ => [qc 1 10; qc 1 10]) (Some tt) C151_category (mkPeriod 10 30) [mkPeriod 10 20; mkPeriod 20 30] [Some (qz 5); Some (qz 5)] =
  Ok [Some (qz 5); Some (qc 11 2)].
Proof. vm_compute. do 3 f_equal; try f_equal; try (apply Qc_is_canon; reflexivity). Qed.
Example C151_case_refused : production (fun _ : unit => true) (fun _ => [qc 1 10; qc 1 10]) (Some tt) (TDPlain (OtherCategory 1)) (mkPeriod 10 30) [mkPeriod 10 20; mkPeriod 20 30] (map Some [qz 5; qz 5]) =
  production (fun _ : unit => true) (fun _ => [qc 1 10; qc 1 10]) None (TDPlain (OtherCategory 1)) (mkPeriod 10 30) [mkPeriod 10 20; mkPeriod 20 30] (map Some [qz 5; qz 5]).
Proof. apply C151_refused with (max_usage := None); [discriminate|reflexivity|reflexivity|]. intros p [<-|[<-|[]]]; reflexivity. Qed.

(** Proofs about comparing results: what a comparison does not do. *)
From Coq Require Import String PeanoNat.
From Verif Require Import QcTac Base BaseLemmas Num Time_Model Time_Spec Time_Proofs Simple_Model Simple_Spec Simple_Proofs2 Simple_Proofs3 Simple_Proofs4 Simple_Proofs5.
Local Open Scope list_scope.

Definition two_periods : list period := [mkPeriod 0 10; mkPeriod 10 20].
Definition plain (name : string) (ps : list period) (energy : list num) (power : option (list num)) (emissions : list (string * emission)) : component :=
  mkComponent "genset" "consumer" None name ps (map (fun _ => 1) energy) emissions energy "Sm3/d" power.

Lemma plain_proper : forall name ps energy power, List.length energy = List.length ps -> (forall p, power = Some p -> List.length p = List.length ps) -> proper_component ps (plain name ps energy power []).
Proof.
  intros name ps energy power L P. unfold proper_component, plain. cbn. rewrite map_length. split; [reflexivity|]. split; [exact L|].
  split; [intros b H; apply in_map_iff in H as (_ & <- & _); auto|]. split; [exact L|]. split; [exact P|]. split; [constructor|]. intros n e [].
Qed.
Lemma two_contiguous : contiguous two_periods.
Proof. cbn. unfold nonempty. cbn. lia. Qed.
Lemma single_proper : forall c, proper_component two_periods c -> proper (mkResults two_periods [c]).
Proof.
  intros c P. split; [discriminate|]. split; [exact two_contiguous|]. split; [intros c' [<-|[]]; exact P|]. cbn. constructor; [tauto|constructor].
Qed.

Lemma power_refuted_proof : exists reference changed i, proper reference /\ proper changed /\ present reference i /\ reported changed i Power /\
  exists c r d errs z, delta_profile (fun l => l) reference changed = Ok (c, r, d, errs) /\ In z (r_components d) /\ id_of z = i /\
    forall t w, ~ has_value (r_periods d) z Power t w.
Proof.
  set (a := plain "a" two_periods [Some 1%Qc; Some 1%Qc] None []). set (b := plain "a" two_periods [Some 1%Qc; Some 1%Qc] (Some [Some 1%Qc; Some 1%Qc]) []).
  assert (proper (mkResults two_periods [a])) as PA by (apply single_proper, plain_proper; [reflexivity|discriminate]).
  assert (proper (mkResults two_periods [b])) as PB by (apply single_proper, plain_proper; [reflexivity|intros p [= <-]; reflexivity]).
  exists (mkResults two_periods [a]), (mkResults two_periods [b]), ("genset"%string, "a"%string). split; [exact PA|]. split; [exact PB|].
  split; [exists a; split; [now left|reflexivity]|]. split; [exists b; eexists; split; [now left|split; reflexivity]|].
  assert (spans two_periods 0 20) as S by (apply spans_last; auto). assert (forall l : list string, Permutation l ((fun l => l) l)) as O by reflexivity.
  destruct (overlap_proof (fun l => l) O _ _ 0 20 0 20 PA PB S S) as [Q _]. destruct Q as (c & r & d & errs & E); [cbn; lia|].
  pose proof (components_proof _ O _ _ c r d errs PA PB E) as (_ & _ & _ & _ & _ & ID & _).
  assert (In ("genset"%string, "a"%string) (map id_of (r_components d))) as I.
  { apply ID. split; [left; exists b; split; [now left|reflexivity]|]. intros x y [<-|[]] [<-|[]] _ _. reflexivity. }
  apply in_map_iff in I as (z & EZ & I). exists c, r, d, errs, z. split; [exact E|]. split; [exact I|]. split; [exact EZ|].
  intros t w V. assert (covers (r_periods d) t) as CD by (destruct V as (vs & _ & (i & p & V1 & V2 & _)); exists i, p; auto).
  apply (covered _ O _ _ c r d errs t PA PB E) in CD as [CR CC].
  apply (difference_proof _ O _ _ c r d errs PA PB E t CR CC z I) in V as (_ & v1 & v2 & _ & A & _). rewrite EZ in A.
  inversion A as [x q t' v' [<-|[]] _ (vs & Sx & _)|q t' NP|]; subst; [discriminate Sx|]. apply NP. exists a. split; [now left|reflexivity].
Qed.

Lemma partial_periods_refuted_proof : exists model c0 t v, contiguous (r_periods model) /\ In c0 (r_components model) /\ NoDup (map id_of (r_components model)) /\
  (forall p, In p (c_periods c0) -> In p (r_periods model)) /\ proper_component (c_periods c0) c0 /\
  ~ covers (c_periods c0) t /\
  exists c r d errs z, delta_profile (fun l => l) model model = Ok (c, r, d, errs) /\ In z (r_components r) /\ id_of z = id_of c0 /\
    has_value (r_periods r) z Energy t v /\ v <> Some 0%Qc.
Proof.
  set (a := plain "a" [mkPeriod 10 20] [Some 1%Qc] None []).
  exists (mkResults two_periods [a]), a, 0, (Some 1%Qc). split; [exact two_contiguous|]. split; [now left|]. split; [cbn; constructor; [tauto|constructor]|].
  split; [intros p [<-|[]]; right; now left|]. split; [apply plain_proper; [reflexivity|discriminate]|].
  split; [intros ([|[|k]] & u & E & D); try discriminate; injection E as <-; destruct D; cbn in *; lia|].
  eexists _, _, _, _, _. split; [reflexivity|]. split; [left; reflexivity|]. split; [reflexivity|]. split; [|discriminate].
  eexists. split; [reflexivity|]. exists 0%nat, (mkPeriod 0 10). split; [reflexivity|]. split; [split; cbn; lia|reflexivity].
Qed.

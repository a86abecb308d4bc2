(** The reason for a failure is so (C82). *)
From Coq Require Import List Bool ZArith Lia.
From Verif Require Import QcTac Base Num Search_Model Stream_Model Train_Model Train_Spec Train_Spec2 Train_Proofs3 Train_Proofs9.
From Verif Require Compressor_Model.
Import ListNotations.
Local Open Scope Qc_scope.

Lemma not_within : forall x, sr_within x = false -> ~ in_capacity x.
Proof. intros x W [K|K]; unfold sr_within in W; rewrite K in W; [discriminate|]. destruct (sr_flag x); discriminate. Qed.

Lemma stage_failure_says : forall l f, stage_failure l = Some f ->
  (f = AboveMaximumFlow /\ Exists too_much l) \/ (f = BelowMinimumFlow /\ Exists too_little l).
Proof.
  induction l as [|x l IH]; intros f; cbn [stage_failure]; [discriminate|]. destruct (sr_within x) eqn:W.
  - intros H. destruct (IH f H) as [[-> E]|[-> E]]; [left|right]; (split; [reflexivity|right; exact E]).
  - apply not_within in W. destruct (sr_flag x) eqn:F; intros H; try (injection H as <-);
      try (destruct (IH f H) as [[-> E]|[-> E]]; [left|right]; (split; [reflexivity|right; exact E])).
    all: first [left; split; [reflexivity|left; split; [exact W|auto]]; fail | right; split; [reflexivity|left; split; [exact W|auto]]].
Qed.

Lemma flagged_power : forall t r, flagged t r ->
  if tr_above_power r then too_powerful t r else ~ (exists limit, tn_max_power t = Some limit /\ limit <> 0 /\ limit < ev_power (Running r)).
Proof.
  unfold flagged. intros t r ->. unfold above_power. destruct (tn_max_power t) as [p|] eqn:P; [|intros (l & L & _); discriminate].
  destruct (Qceqb p 0) eqn:Z.
  - apply Qceqb_eq in Z. subst p. intros (l & [= <-] & N & _). apply N. reflexivity.
  - destruct (Qcltb p _) eqn:L.
    + apply Qcltb_lt in L. exists p. split; [exact P|exact L].
    + apply Qcltb_ge in L. intros (l & [= <-] & _ & K). cbn [ev_power] in K. unfold tr_power in K. exact (Qcle_not_lt _ _ L K).
Qed.

Lemma evaluate_failure : forall e t c s r s', evaluate_constraints e t c s = (Return (Running r), s') -> explained t c r (ev_failure (Running r)).
Proof.
  intros e t c s r s' H. destruct (evaluate_finished _ _ _ _ _ _ H) as (rate & v & _ & (_ & T & _) & Pw).
  cbn [ev_failure]. unfold tr_failure. destruct (stage_failure (tr_stages r)) as [f|] eqn:F.
  - destruct (stage_failure_says _ _ F) as [[-> E]|[-> E]]; exact E.
  - unfold truthful in T. destruct (tr_status r); try contradiction; try exact T.
    + right. exact T.
    + left. exact T.
    + destruct T as [T _]. destruct (tr_above_power r) eqn:A.
      * intros Pc. generalize (flagged_power t r (Pw Pc)). rewrite A. trivial.
      * split; [exact T|]. intros Pc. generalize (flagged_power t r (Pw Pc)). rewrite A. trivial.
Qed.

Lemma evaluate_fails : forall e t c s r s', evaluate_constraints e t c s = (Return (Running r), s') -> ev_valid (Running r) = false -> power_controlled t c ->
  Exists (fun x => ~ in_capacity x) (tr_stages r) \/ outlet_low c r \/ outlet_high c r \/ inlet_short r \/ middle_low t c r \/ middle_high t c r \/ too_powerful t r.
Proof.
  intros e t c s r s' H V P. destruct (evaluate_invalid _ _ _ _ _ _ H V) as [K|[K|K]]; [auto| |].
  - destruct (evaluate_finished _ _ _ _ _ _ H) as (rate & v & _ & (_ & T & _) & _). unfold truthful in T.
    destruct (tr_status r); try contradiction; unfold outlet_low, outlet_high, inlet_short, middle_low, middle_high; auto 9.
  - destruct (evaluate_finished _ _ _ _ _ _ H) as (rate & v & _ & _ & Pw). generalize (flagged_power t r (Pw P)). rewrite K. auto 9.
Qed.

(** ** The speeds of a train *)
Lemma fold_max : forall l x, (forall y, In y (x :: l) -> y <= fold_left Qcmax l x) /\ In (fold_left Qcmax l x) (x :: l).
Proof.
  induction l as [|a l IH]; intros x; cbn [fold_left]; [split; [intros y [<-|[]]; apply Qcle_refl|now left]|].
  destruct (IH (Qcmax x a)) as (H1 & H2). split.
  - intros y [<-|[<-|Hy]]; [| |apply H1; now right]; (eapply Qcle_trans; [|apply H1; now left]); clear; qc_cases; qc_lra.
  - destruct H2 as [H2|H2]; [|right; now right]. rewrite <- H2. unfold Qcmax. match goal with |- context [if ?b then _ else _] => destruct b end; cbn; auto.
Qed.
Lemma fold_min : forall l x, (forall y, In y (x :: l) -> fold_left Qcmin l x <= y) /\ In (fold_left Qcmin l x) (x :: l).
Proof.
  induction l as [|a l IH]; intros x; cbn [fold_left]; [split; [intros y [<-|[]]; apply Qcle_refl|now left]|].
  destruct (IH (Qcmin x a)) as (H1 & H2). split.
  - intros y [<-|[<-|Hy]]; [| |apply H1; now right]; (eapply Qcle_trans; [apply H1; now left|]); clear; qc_cases; qc_lra.
  - destruct H2 as [H2|H2]; [|right; now right]. rewrite <- H2. unfold Qcmin. match goal with |- context [if ?b then _ else _] => destruct b end; cbn; auto.
Qed.
Lemma speed_range_proof : forall t lo hi, min_speed t = Return lo -> max_speed t = Return hi ->
  (forall v, lo <= v /\ v <= hi <-> forall st, In st (tn_stages t) -> tc_min_speed (st_chart st) <= v /\ v <= tc_max_speed (st_chart st)) /\
  (exists st, In st (tn_stages t) /\ lo = tc_min_speed (st_chart st)) /\ (exists st, In st (tn_stages t) /\ hi = tc_max_speed (st_chart st)).
Proof.
  intros t lo hi. unfold min_speed, max_speed. destruct (tn_stages t) as [|a l]; [discriminate|]. cbn [map]. intros E1 E2. injection E1 as <-. injection E2 as <-.
  destruct (fold_max (map (fun st => tc_min_speed (st_chart st)) l) (tc_min_speed (st_chart a))) as (A1 & A2).
  destruct (fold_min (map (fun st => tc_max_speed (st_chart st)) l) (tc_max_speed (st_chart a))) as (B1 & B2).
  set (lo := fold_left _ _ _) in *. set (hi := fold_left Qcmin _ _) in *. clearbody lo hi.
  assert (exists st, In st (a :: l) /\ lo = tc_min_speed (st_chart st)) as (s1 & I1 & E1)
    by (apply (in_map_iff (fun st => tc_min_speed (st_chart st)) (a :: l)) in A2; destruct A2 as (st & Q & Hin); eauto).
  assert (exists st, In st (a :: l) /\ hi = tc_max_speed (st_chart st)) as (s2 & I2 & E2)
    by (apply (in_map_iff (fun st => tc_max_speed (st_chart st)) (a :: l)) in B2; destruct B2 as (st & Q & Hin); eauto).
  split; [|split; [exists s1; auto|exists s2; auto]]. intros v. split.
  - intros (L & H) st Hin. split.
    + eapply Qcle_trans; [|exact L]. apply A1. apply (in_map (fun st => tc_min_speed (st_chart st)) (a :: l) st Hin).
    + eapply Qcle_trans; [exact H|]. apply B1. apply (in_map (fun st => tc_max_speed (st_chart st)) (a :: l) st Hin).
  - intros H. rewrite E1, E2. split; [apply H|apply H]; assumption.
Qed.

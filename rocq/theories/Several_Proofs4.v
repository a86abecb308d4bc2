(** C121: equal pressure ratios over sections with a shaft each. *)
From Coq Require Import List Bool ZArith Lia.
From Verif Require Import QcTac Base Num Search_Model Stream_Model Stream_Spec Process_Model Solver_Model Solver_Spec Solver_Proofs Several_Spec Several_Proofs.
Import ListNotations.
Local Open Scope list_scope.
Local Open Scope Qc_scope.

Lemma Forall2_of_nth : forall A B (R : A -> B -> Prop) l m, length l = length m ->
  (forall i a b, nth_error l i = Some a -> nth_error m i = Some b -> R a b) -> Forall2 R l m.
Proof.
  intros A B R. induction l as [|a l IH]; intros [|b m] L H; try discriminate L; constructor.
  - exact (H O a b eq_refl eq_refl).
  - apply IH; [cbn [length] in L; lia|]. intros i x y X Y. exact (H (Datatypes.S i) x y X Y).
Qed.
Lemma Forall2_at : forall A B (R : A -> B -> Prop) l m i b, Forall2 R l m -> nth_error m i = Some b -> exists a, nth_error l i = Some a /\ R a b.
Proof.
  intros A B R l m i b F. revert i b. induction F as [|x y l m X F IH]; intros [|i] b E; try discriminate E.
  - injection E as <-. exists x. auto.
  - exact (IH i b E).
Qed.
Lemma Forall2_at1 : forall A B (R : A -> B -> Prop) l m i a, Forall2 R l m -> nth_error l i = Some a -> exists b, nth_error m i = Some b /\ R a b.
Proof.
  intros A B R l m i a F. revert i a. induction F as [|x y l m X F IH]; intros [|i] a E; try discriminate E.
  - injection E as <-. exists y. auto.
  - exact (IH i a E).
Qed.

(** After a success the gas leaves section i at the inlet pressure times the ratio to the power i, and the last section at the target. *)
Theorem equal_ratio_met_proof : forall ph nth_root secs target inlet h sol h', secs <> [] -> s_pressure inlet <> 0 ->
  (forall sec p, In sec secs -> well_equipped ph sec (mk_constraint p (fc_abs_tol target))) -> leave_alone own secs ->
  multi_shaft_equal_ratio ph nth_root secs [target] inlet h = (Return sol, h') -> success sol = true ->
  exists streams, flows ph h' secs inlet streams /\
    (forall i out, (Datatypes.S i < length secs)%nat -> nth_error streams i = Some out ->
       Qcabs (s_pressure out - s_pressure inlet * power (nth_root (fc_value target / s_pressure inlet) (length secs)) (Datatypes.S i)) <= fc_abs_tol target) /\
    (exists out, nth_error streams (length secs - 1) = Some out /\ meets target out).
Proof.
  intros ph nth_root secs target inlet h sol h' NE P0 Q L H OK.
  assert (LS : (0 < length secs)%nat) by (destruct secs; [congruence|cbn [length]; lia]).
  unfold multi_shaft_equal_ratio in H. destruct secs as [|s0 secs0] eqn:ES; [congruence|]. rewrite <- ES in *.
  destruct (Qceqb (s_pressure inlet) 0) eqn:E0; [apply Qceqb_eq in E0; contradiction|]. cbv zeta in H.
  set (n := length secs) in *. set (ratio := nth_root (fc_value target / s_pressure inlet) n) in *.
  set (ts := equal_ratio_targets n ratio target (s_pressure inlet)) in *.
  assert (LR : length (rolling_targets n ratio (fc_abs_tol target) (s_pressure inlet)) = n) by apply rolling_length.
  assert (RL : forall A (l : list A), length (removelast l) = (length l - 1)%nat).
  { intros A l. induction l as [|a [|b l] IH]; [reflexivity|reflexivity|]. cbn [removelast length] in *. lia. }
  assert (RN : forall A (l : list A) i, (Datatypes.S i < length l)%nat -> nth_error (removelast l) i = nth_error l i).
  { intros A l. induction l as [|a [|b l] IH]; intros i I; cbn [length] in I; try lia. destruct i as [|i]; [reflexivity|].
    cbn [removelast nth_error] in *. apply IH. cbn [length]. lia. }
  assert (LT : length ts = n) by (unfold ts, equal_ratio_targets; rewrite app_length, RL, LR; cbn [length]; lia).
  assert (TI : forall i, (Datatypes.S i < n)%nat -> nth_error ts i = Some (mk_constraint (s_pressure inlet * power ratio (Datatypes.S i)) (fc_abs_tol target))).
  { intros i I. unfold ts, equal_ratio_targets. rewrite nth_error_app1 by (rewrite RL, LR; lia). rewrite RN by (rewrite LR; lia).
    apply rolling_nth. lia. }
  assert (TL : nth_error ts (n - 1) = Some target).
  { unfold ts, equal_ratio_targets. rewrite nth_error_app2 by (rewrite RL, LR; lia). rewrite RL, LR, Nat.sub_diag. reflexivity. }
  assert (F : Forall2 (well_equipped ph) secs ts).
  { apply Forall2_of_nth; [now rewrite LT|]. intros i sec t A B. apply nth_error_In in A.
    assert (T : t = mk_constraint (fc_value t) (fc_abs_tol target)).
    { destruct (Nat.eq_dec i (n - 1)) as [->|D].
      - rewrite TL in B. injection B as <-. now destruct target.
      - assert (i < n)%nat by (rewrite <- LT; apply nth_error_Some; congruence). rewrite TI in B by lia. now injection B as <-. }
    rewrite T. now apply Q. }
  destruct (shaft_targets_proof ph secs ts inlet h sol h' F L H OK) as (streams & FL & M).
  exists streams. split; [exact FL|]. split.
  - intros i out I E. destruct (Forall2_at _ _ _ _ _ _ _ M E) as (t & T & X). rewrite (TI i I) in T. injection T as <-. exact X.
  - destruct (Forall2_at1 _ _ _ _ _ _ _ M TL) as (out & O & X). exists out. auto.
Qed.

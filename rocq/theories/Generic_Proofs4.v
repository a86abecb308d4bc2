(** Generic charts from a design point; what goes wrong without throttling. *)
From Coq Require Import PeanoNat.
From Verif Require Import QcTac BaseLemmas Num Interp_Model Interp_Spec Time_Proofs Interp_Proofs Chart_Model Chart_Spec
  Chart_Proofs Chart_Proofs2 Pump_Proofs Compressor_Model Compressor_Spec Compressor_Proofs Compressor_Proofs2 Compressor_Proofs3
  Compressor_Proofs4 Compressor_Proofs5 Compressor_Proofs6 Compressor_Proofs7 Search_Model Search_Proofs Generic_Model Generic_Spec Base Generic_Proofs Generic_Proofs2
  Generic_Proofs3.
Local Open Scope list_scope.
Local Open Scope Qc_scope.

Theorem design_proof : forall rate head e, 0 < rate -> 0 < head -> 0 <= e -> e <= 1 ->
  exists cs, from_design_point rate head e = Ok cs /\ design_chart rate head e cs /\ regular_chart cs.
Proof.
  intros rate head e A B E0 E1. exists [slow_of rate head e; fast_of rate head e].
  split; [now apply from_design_ok|]. split; [reflexivity|now apply generic_regular].
Qed.

(** below the smallest head of the chart, the rate is limited by the slowest curve *)
Lemma low_exceeds : forall a b e q h c, 0 < a -> 0 < b -> 0 <= e -> e <= 1 ->
  evaluate_capacity [slow_of a b e; fast_of a b e] false q h = Ok c -> h < b * q9 409004665 -> a * max_rate_75 < q -> ca_rate_exceeds c = true.
Proof.
  intros a b e q h c A B E0 E1 E Lh Lq. destruct (no_choking_total a b e A B E0 E1 q h) as (c' & m & M & f & E' & _ & VM & Xr & _).
  rewrite E in E'. injection E' as <-. rewrite Xr. apply Qcltb_lt.
  assert (M = a * max_rate_75) as ->; [|pose proof (max_ge m q); qc_lra].
  assert (forall x y, In (x, y) ((p_head (slow_right a b e), p_rate (slow_right a b e)) :: map swap (quantity p_head (fast_of a b e))) ->
    (x = b * q9 409004665 /\ y = a * max_rate_75) \/ b * q9 409004665 < x) as Pt.
  { intros x y [H|H]; [injection H as <- <-; now left|]. right. exact (slow_below a b e B x y H). }
  destruct VM as [[[(u & yu & Hu & Lu) _] _]|(u & Hu & C)].
  - destruct (Pt _ _ Hu) as [[-> _]|Z]; exfalso; qc_lra.
  - destruct C as [[C1 C2]|[C1 C2]].
    + destruct (Pt _ _ Hu) as [[_ ->]|Z]; auto. pose proof (C2 _ _ (or_introl eq_refl)) as X. cbn [p_head slow_right fst snd] in X.
      change (p_head (slow_right a b e)) with (b * q9 409004665) in X. exfalso. qc_lra.
    + destruct (Pt _ _ Hu) as [[-> _]|Z]; exfalso; qc_lra.
Qed.

(** ** rates and heads *)
Definition rates_example : list Qc := [qz 22; qz 65].
Definition heads_example : list Qc := [qz 30; qz 2].
Definition eff_example : Qc := qc 3 4.
Lemma example_greatest : greatest rates_example (qz 65) /\ greatest heads_example (qz 30).
Proof.
  split; (split; [cbn; auto|]); intros x [<-|[<-|[]]]; vm_compute; discriminate.
Qed.
Lemma example_eff : 0 <= eff_example /\ eff_example <= 1. Proof. split; vm_compute; discriminate. Qed.

Lemma example_not_above : forall R H, 1 <= R -> 1 <= H -> above_curve rates_example heads_example eff_example (qz 65 / max_rate_105) (qz 30 / max_head_105) R H = Ok false.
Proof.
  intros R H L1 L2. destruct example_greatest as [Gq Gh]. destruct example_eff as [E0 E1].
  assert (0 < qz 65) as Q0 by reflexivity. assert (0 < qz 30) as H0 by reflexivity.
  assert (0 < R) as R0 by qc_lra. assert (0 < H) as H0' by qc_lra.
  assert (0 < R * (qz 65 / max_rate_105)) as A by (apply mul_pos; auto; reflexivity). assert (0 < H * (qz 30 / max_head_105)) as B by (apply mul_pos; auto; reflexivity).
  destruct (result_ok rates_example heads_example eff_example (qz 65) (qz 30) E0 E1 Q0 H0 R H R0 H0') as (l & E & F).
  unfold above_curve. rewrite E. cbn [bind]. clear E. f_equal.
  inversion F as [|p1 c1 l1 m1 F1 Fr]; subst. inversion Fr as [|p2 c2 l2 m2 F2 Fn]; subst. inversion Fn; subst. cbn [fst snd] in F1, F2.
  assert (ca_head_exceeds c1 = false) as X1.
  { apply (left_not_above _ _ _ A B E0 E1 _ _ _ F1).
    - apply (head_fits heads_example (qz 30) H0); auto; [apply Gh|now left].
    - replace (R * (qz 65 / max_rate_105) * q9 878913798) with ((qz 65 / max_rate_105) * q9 878913798 * R) by ring.
      assert (qz 22 <= qz 65 / max_rate_105 * q9 878913798) as Y by (vm_compute; discriminate).
      assert (0 <= qz 65 / max_rate_105 * q9 878913798 * (R - 1)) by (apply mul_nn; [vm_compute; discriminate|qc_lra]). qc_lra. }
  assert (ca_head_exceeds c2 = false) as X2.
  { destruct (no_choking_total _ _ _ A B E0 E1 (qz 65) (qz 2)) as (c & m & M & f & E & Vf & _ & _ & Xh). rewrite F2 in E. injection E as <-.
    rewrite Xh. apply Qcltb_ge. apply Qcle_trans with (H * (qz 30 / max_head_105) * min_head_105).
    - replace (H * (qz 30 / max_head_105) * min_head_105) with ((qz 30 / max_head_105) * min_head_105 * H) by ring.
      assert (qz 2 <= qz 30 / max_head_105 * min_head_105) as Y by (vm_compute; discriminate).
      assert (0 <= qz 30 / max_head_105 * min_head_105 * (H - 1)) by (apply mul_nn; [vm_compute; discriminate|qc_lra]). qc_lra.
    - apply (value_at_bounds _ _ _ _ (H * (qz 30 / max_head_105) * max_head_105) Vf). intros x y Hxy.
      assert (In (y, x) (map swap (quantity p_head (fast_of (R * (qz 65 / max_rate_105)) (H * (qz 30 / max_head_105)) eff_example)))) as H' by (apply in_map_iff; exists (x, y); auto).
      apply (swapped_point _ _ _ A B E0 E1) in H' as (u & v & H' & -> & _) || apply swapped_point in H' as (u & v & H' & -> & _). revert H'. unfold unified_105. cbn [map fst snd In].
      intros H'. repeat (destruct H' as [H'|H']; [injection H' as _ <-; split; apply scale_le; auto; vm_compute; discriminate|]). destruct H'. }
  cbn. rewrite X1, X2, !andb_false_r. reflexivity.
Qed.

Theorem input_refuted : exists rates heads e cs q h c, List.length rates = List.length heads /\
  (forall n, from_values n rates heads e = Ok (Some cs)) /\ In (q, h) (combine rates heads) /\
  evaluate_capacity cs false q h = Ok c /\ ca_exceeds c = true.
Proof.
  destruct example_greatest as [Gq Gh]. destruct example_eff as [E0 E1].
  assert (0 < qz 65) as Q0 by reflexivity. assert (0 < qz 30) as H0 by reflexivity. assert (0 < (1 : Qc)) as P1 by reflexivity.
  set (sr := qz 65 / max_rate_105). set (sh := qz 30 / max_head_105).
  assert (exists R, 1 <= R /\ R <= 1 + change_in_rate /\ forall n, unified_design rates_example heads_example eff_example sr sh n = Ok (Some (R, 1))) as (R & L1 & L2 & D).
  { assert (forall n R, 1 <= R -> increase rates_example heads_example eff_example sr sh n R 1 = Ok (Some (R, 1))) as Inc.
    { intros n R L. destruct n; cbn [increase]; unfold sr, sh; rewrite (example_not_above R 1 L (Qcle_refl 1)); reflexivity. }
    assert (0 < change_in_rate) as CR by reflexivity.
    unfold unified_design. destruct (below_ok rates_example heads_example eff_example (qz 65) (qz 30) E0 E1 Q0 H0 1 1 P1 P1) as (below & Eb).
    fold sr sh in Eb. rewrite Eb. cbn [bind]. destruct below.
    - destruct (maximize_ok 0 (1 + change_in_rate - 1) (fun x => not_r (below_wall rates_example heads_example eff_example sr sh (1 + change_in_rate - x) 1))) as (x & E & A & B & _).
      { qc_lra. }
      { intros x A B. apply not_ok. apply (below_ok rates_example heads_example eff_example (qz 65) (qz 30) E0 E1 Q0 H0); auto. qc_lra. }
      exists (1 + change_in_rate - x). split; [qc_lra|]. split; [qc_lra|]. intros n. rewrite E. cbn [bind]. apply Inc. qc_lra.
    - exists 1. split; [apply Qcle_refl|]. split; [qc_lra|]. intros n. unfold sr, sh. rewrite (example_not_above 1 1 (Qcle_refl 1) (Qcle_refl 1)). reflexivity. }
  assert (0 < R * sr) as A by (apply mul_pos; [qc_lra|reflexivity]). assert (0 < 1 * sh) as B by reflexivity.
  destruct (no_choking_total (R * sr) (1 * sh) eff_example A B E0 E1 (qz 65) (qz 2)) as (c & _ & _ & _ & E & _).
  exists rates_example, heads_example, eff_example, [slow_of (R * sr) (1 * sh) eff_example; fast_of (R * sr) (1 * sh) eff_example], (qz 65), (qz 2), c.
  split; [reflexivity|]. split.
  { intros n. unfold from_values. rewrite (qc_max_greatest _ _ Gq), (qc_max_greatest _ _ Gh). cbn [bind]. fold sr sh. rewrite D. cbn [bind].
    rewrite from_design_ok by auto. reflexivity. }
  split; [cbn; auto|]. split; [exact E|].
  assert (ca_rate_exceeds c = true) as X.
  { apply (low_exceeds _ _ _ _ _ _ A B E0 E1 E).
    - reflexivity.
    - replace (R * sr * max_rate_75) with (sr * max_rate_75 * R) by ring.
      assert (sr * max_rate_75 * (1 + change_in_rate) < qz 65) as Y by reflexivity.
      assert (0 <= sr * max_rate_75 * (1 + change_in_rate - R)) by (apply mul_nn; [vm_compute; discriminate|qc_lra]). qc_lra. }
  clear - E X. unfold evaluate_capacity in E.
  destruct (minimum_rate_no_choking_at _ _) as [m|]; cbn [bind] in E; [|discriminate].
  destruct (minimum_head_at _ _) as [k|]; cbn [bind] in E; [|discriminate].
  destruct (maximum_rate_no_choking_at _ _) as [M|]; cbn [bind] in E; [|discriminate].
  destruct (maximum_head_at _ _) as [g|]; cbn [bind] in E; [|discriminate].
  injection E as <-. cbn [ca_rate_exceeds ca_exceeds] in *. rewrite X. reflexivity.
Qed.

(** The capacity of generic charts without throttling. *)
From Coq Require Import PeanoNat.
From Verif Require Import QcTac BaseLemmas Num Interp_Model Interp_Spec Time_Proofs Interp_Proofs Chart_Model Chart_Spec
  Chart_Proofs Chart_Proofs2 Pump_Proofs Compressor_Model Compressor_Spec Compressor_Proofs Compressor_Proofs2 Compressor_Proofs3
  Compressor_Proofs4 Compressor_Proofs5 Compressor_Proofs6 Compressor_Proofs7 Search_Model Generic_Model Base Generic_Proofs.
Local Open Scope list_scope.
Local Open Scope Qc_scope.

Lemma cons_value : forall p pts x y c yc, value_at (p :: pts) x y -> fst p < c -> In (c, yc) pts -> c <= x -> value_at pts x y.
Proof.
  intros [a b] pts x y c yc V L Hc Lx. cbn [fst] in L. destruct V as [[[_ (u & yu & Hu & Lu)] I]|(u & Hu & C)].
  - left. assert (in_range pts x) as Rg.
    { split; [exists c, yc; auto|]. destruct Hu as [E|Hu]; [injection E as <- <-; exfalso; qc_lra|exists u, yu; auto]. }
    split; auto. destruct I as [[E|I]|(s & ys & t & yt & Hs & Ht & L1 & L2 & N & E)].
    + injection E as <- <-. exfalso. qc_lra.
    + now left.
    + right. exists s, ys, t, yt. split; [|split; [|split; [|split; [|split]]]]; auto.
      * destruct Hs as [E'|Hs]; auto. injection E' as <- <-. destruct (N c yc (or_intror Hc)) as [X|X]; exfalso; qc_lra.
      * destruct Ht as [E'|Ht]; auto. injection E' as <- <-. exfalso. qc_lra.
      * intros d yd Hd. apply (N d yd). now right.
  - destruct C as [[C1 C2]|[C1 C2]].
    + pose proof (C2 c yc (or_intror Hc)). exfalso. qc_lra.
    + right. exists u. split.
      * destruct Hu as [E|Hu]; auto. injection E as <- <-. pose proof (C2 c yc (or_intror Hc)). exfalso. qc_lra.
      * right. split; auto. intros d yd Hd. apply (C2 d yd). now right.
Qed.

(** to the right of the fastest curve means above it *)
Lemma right_is_above : forall c rate head h m p, proper_curve c -> NoDup (cv_rate c) -> StronglySorted (fun a b => b < a) (cv_head c) ->
  left_end c p -> head <= p_head p ->
  value_at (quantity p_head c) rate h -> value_at (map swap (quantity p_head c)) head m -> h < head -> m < rate.
Proof.
  intros c rate head h m p P N S Lp Lh Vh Vm L.
  destruct (right_end_last c P) as (q & _ & Rq).
  destruct (swapped_bounds c head m p q Vm Lp Rq) as [B1 B2].
  pose proof (quantity_rising p_head c (proj1 (proj2 P)) N) as R. pose proof (falling_of c S) as F.
  destruct (Qclt_le_dec m rate) as [|X]; auto. exfalso.
  destruct (Qclt_le_dec rate (p_rate p)) as [Y|Y].
  { rewrite (left_of c rate h p) in L; auto; [qc_lra|now apply Qclt_le_weak]. }
  assert (in_range (quantity p_head c) rate) as Rr.
  { split; [exists (p_rate p), (p_head p)|exists (p_rate q), (p_head q)]; (split; [|auto; qc_lra]); unfold quantity; apply in_map_iff; eexists; (split; [reflexivity|]); [apply Lp|apply Rq]. }
  destruct Vh as [[_ Ih]|(b & Hb & C)].
  2:{ destruct Rr as [(u & yu & Hu & Lu) (v & yv & Hv & Lv)]. destruct C as [[C1 C2]|[C1 C2]]; [apply C2 in Hu|apply C2 in Hv]; qc_lra. }
  destruct Vm as [[_ Im]|(b & Hb & C)].
  - apply inverse in Im; auto.
    assert (in_range (quantity p_head c) m) as Rm.
    { split; [exists (p_rate p), (p_head p)|exists (p_rate q), (p_head q)]; (split; [|auto]); unfold quantity; apply in_map_iff; eexists; (split; [reflexivity|]); [apply Lp|apply Rq]. }
    destruct (Qcle_lt_or_eq _ _ X) as [Z|Z].
    + pose proof (falls _ _ _ _ _ R F Rr Rm Z Ih Im). qc_lra.
    + subst m. apply interpolates_np in Im, Ih; auto. rewrite Im in Ih. injection Ih as ->. qc_lra.
  - apply in_map_iff in Hb as ([u v] & E & Hb). unfold swap in E. cbn in E. injection E as <- <-. destruct C as [[C1 C2]|[C1 C2]].
    + assert (v <= h) as W; [|qc_lra]. destruct (bounded_list (map snd (quantity p_head c))) as (lo & hi & B).
      apply (value_at_bounds (quantity p_head c) rate h v hi); [left; auto|].
      intros a ya Ha. split; [apply (C2 ya a); apply in_map_iff; exists (a, ya); auto|apply B; change ya with (snd (a, ya)); now apply in_map].
    + pose proof (C2 (p_head p) (p_rate p)) as W. assert (p_head p <= v) by (apply W; apply in_map_iff; exists (p_rate p, p_head p); split; auto; unfold quantity; apply in_map_iff; exists p; split; auto; apply Lp).
      qc_lra.
Qed.

(** ** the check without throttling *)
Section Chart.
Variables a b e : Qc.
Hypothesis A : 0 < a.
Hypothesis B : 0 < b.
Hypothesis E0 : 0 <= e.
Hypothesis E1 : e <= 1.
Local Notation slow := (slow_of a b e).
Local Notation fast := (fast_of a b e).
Local Notation cs := [slow; fast].

Lemma fast_falls : StronglySorted (fun x y => y < x) (cv_head fast).
Proof. destruct (generic_regular a b e A B E0 E1) as (_ & H & _). now apply H. Qed.

Lemma swapped_point : forall h m, In (h, m) (map swap (quantity p_head fast)) <-> exists x y, In (x, y) unified_105 /\ h = b * y /\ m = a * x.
Proof.
  intros h m. unfold quantity, fast_of, scaled. cbn [cv_points]. rewrite !map_map. split.
  - intros H. apply in_map_iff in H as ([x y] & E & H). unfold swap in E. cbn in E. injection E as <- <-. exists x, y. auto.
  - intros (x & y & H & -> & ->). apply in_map_iff. exists (x, y). auto.
Qed.
Lemma slow_below : forall h m, In (h, m) (map swap (quantity p_head fast)) -> p_head (slow_right a b e) < h.
Proof.
  intros h m H. apply swapped_point in H as (x & y & H & -> & _). cbn. apply scale_lt; auto. revert H.
  unfold unified_105. cbn [map fst snd In].
  intros H. repeat (destruct H as [H|H]; [injection H as _ <-; reflexivity|]). destruct H.
Qed.

Lemma no_choking_value : forall h, exists m, maximum_rate_no_choking_at cs h = Ok m /\
  value_at ((p_head (slow_right a b e), p_rate (slow_right a b e)) :: map swap (quantity p_head fast)) h m.
Proof.
  intros h. destruct (generic_regular a b e A B E0 E1) as (P & Fa & _). destruct (generic_ends a b e A E0 E1) as (_ & SR & FL & _).
  destruct (slow_proper a b e A E0 E1) as [P0 N0]. destruct (fast_proper a b e A E0 E1) as [P1 N1].
  unfold maximum_rate_no_choking_at, slow_curve, fast_curve. cbn [hd_error last_opt last of_option bind]. unfold curve_max_rate.
  replace (last_opt (cv_rate slow)) with (Some (p_rate (slow_right a b e))) by reflexivity.
  replace (last_opt (cv_head slow)) with (Some (p_head (slow_right a b e))) by reflexivity. cbn [of_option bind].
  set (h0 := p_head (slow_right a b e)). set (r0 := p_rate (slow_right a b e)).
  assert (rising (by_head fast)) as R.
  { unfold by_head. apply sort_rising. rewrite swap_combine, map_map.
    replace (map (fun x => fst (swap x)) (quantity p_head fast)) with (cv_head fast).
    - apply sorted_NoDup. apply fast_falls.
    - unfold quantity, cv_head, swap. rewrite map_map. reflexivity. }
  assert (forall p, In p (by_head fast) <-> In p (map swap (quantity p_head fast))) as Q.
  { intros p. rewrite <- swap_combine. unfold by_head. split; intros H; eapply Permutation_in; try exact H; [apply Permutation_sym|]; apply sort_perm. }
  assert (forall x y, In (x, y) (by_head fast) -> h0 < x) as L by (intros x y H; apply Q in H; exact (slow_below x y H)).
  generalize dependent (by_head fast). intros bh R Q L.
  destruct (bounded_list (r0 :: map snd bh)) as (lo & hi & Bd).
  destruct (interp1d_ends_bounds (h0 :: map fst bh) (r0 :: map snd bh) h lo hi) as (m & Em & _); auto; [cbn; now rewrite !map_length|discriminate|].
  exists m. split; auto. apply value_at_perm with ((h0, r0) :: bh).
  - intros p. split; (intros [H|H]; [now left|right; now apply Q]).
  - replace ((h0, r0) :: bh) with (combine (h0 :: map fst bh) (r0 :: map snd bh)) by (cbn; now rewrite combine_fst_snd).
    apply interp1d_ends_value; auto; [cbn; now rewrite !map_length|]. cbn [combine]. rewrite combine_fst_snd. split; auto.
    intros [x y] H. now apply L in H.
Qed.

Lemma no_choking_total : forall q h, exists c m M f, evaluate_capacity cs false q h = Ok c /\
  value_at (quantity p_head fast) q f /\
  value_at ((p_head (slow_right a b e), p_rate (slow_right a b e)) :: map swap (quantity p_head fast)) h M /\
  ca_rate_exceeds c = Qcltb M (Qcmax m q) /\ ca_head_exceeds c = Qcltb f h.
Proof.
  intros q h. destruct (generic_regular a b e A B E0 E1) as (P & _).
  assert (exists m, minimum_rate_no_choking_at cs h = Ok m) as (m & Em).
  { unfold minimum_rate_no_choking_at, slow_curve, fast_curve. cbn [hd_error last_opt last of_option bind].
    replace (hd_error (cv_head fast)) with (Some (p_head (fast_left a b e))) by reflexivity.
    unfold curve_min_rate. replace (hd_error (cv_rate fast)) with (Some (p_rate (fast_left a b e))) by reflexivity. cbn [of_option bind].
    set (ys := rev (cv_rate slow) ++ _). destruct (bounded_list ys) as (lo & hi & Bd).
    destruct (interp1d_ends_bounds (rev (cv_head slow) ++ [p_head (fast_left a b e)]) ys h lo hi) as (m & E & _); [| |exact Bd|exists m; exact E].
    - unfold ys. rewrite !app_length, !rev_length. unfold cv_head, cv_rate. rewrite !map_length. reflexivity.
    - destruct (rev (cv_head slow)); discriminate. }
  destruct (minimum_head_value cs (Qcmax m q) P) as (k & Ek & _).
  destruct (no_choking_value h) as (M & EM & VM).
  destruct (maximum_head_value cs q fast P eq_refl) as (f & Ef & Vf).
  eexists. exists m, M, f. split.
  { unfold evaluate_capacity. rewrite Em. cbn [bind]. rewrite Ek. cbn [bind]. rewrite EM. cbn [bind]. rewrite Ef. cbn [bind]. reflexivity. }
  cbn. auto.
Qed.

Lemma max_ge : forall x y : Qc, y <= Qcmax x y. Proof. intros x y. destruct (max_cases x y) as [(-> & H)|(-> & H)]; auto. apply Qcle_refl. Qed.

(** a point above the fastest curve is reported as such *)
Lemma above_reported : forall q h c, evaluate_capacity cs false q h = Ok c -> h <= b * max_head_105 ->
  ca_head_exceeds c = true -> ca_rate_exceeds c = true.
Proof.
  intros q h c E L X. destruct (no_choking_total q h) as (c' & m & M & f & E' & Vf & VM & Xr & Xh). rewrite E in E'. injection E' as <-.
  rewrite Xh in X. apply Qcltb_lt in X. rewrite Xr. apply Qcltb_lt.
  destruct (generic_ends a b e A E0 E1) as (_ & SR & FL & FR). destruct (fast_proper a b e A E0 E1) as [P1 N1].
  assert (b * min_head_105 <= f) as Lf.
  { apply (value_at_bounds (quantity p_head fast) q f (b * min_head_105) (b * max_head_105)); auto. intros x y H.
    assert (In (y, x) (map swap (quantity p_head fast))) as H' by (apply in_map_iff; exists (x, y); auto).
    apply swapped_point in H' as (u & v & H' & -> & _). revert H'. unfold unified_105. cbn [map fst snd In].
    intros H'. repeat (destruct H' as [H'|H']; [injection H' as _ <-; split; apply scale_le; auto; vm_compute; discriminate|]). destruct H'. }
  apply cons_value with (c := b * min_head_105) (yc := a * max_rate_105) in VM.
  - pose proof (right_is_above fast q h f M (fast_left a b e) P1 N1 fast_falls FL L Vf VM X) as Y. pose proof (max_ge m q). qc_lra.
  - cbn. apply scale_lt; auto. reflexivity.
  - apply swapped_point. exists max_rate_105, min_head_105. split; auto. cbn. tauto.
  - qc_lra.
Qed.
(** a point left of the curve is not above it *)
Lemma left_not_above : forall q h c, evaluate_capacity cs false q h = Ok c -> h <= b * max_head_105 -> q <= a * q9 878913798 -> ca_head_exceeds c = false.
Proof.
  intros q h c E L Lq. destruct (no_choking_total q h) as (c' & m & M & f & E' & Vf & _ & _ & Xh). rewrite E in E'. injection E' as <-.
  rewrite Xh. apply Qcltb_ge. destruct (generic_ends a b e A E0 E1) as (_ & _ & FL & _). destruct (fast_proper a b e A E0 E1) as [P1 N1].
  rewrite (left_of fast q f (fast_left a b e)); auto.
Qed.

(** with throttling, everything up to the end and not above the fastest curve is within the capacity *)
Lemma choked_ok : forall q h c, evaluate_capacity cs false q h = Ok c -> ca_head_exceeds c = false -> q <= a * max_rate_105 ->
  exists d, evaluate_capacity cs true q h = Ok d /\ ca_exceeds d = false.
Proof.
  intros q h c E X Lq. destruct (no_choking_total q h) as (c' & m & M & f & E' & Vf & _ & _ & Xh). rewrite E in E'. injection E' as <-.
  rewrite Xh in X. apply Qcltb_ge in X. clear Xh E M m.
  pose proof (generic_regular a b e A B E0 E1) as RC.
  destruct (generic_ends a b e A E0 E1) as (SL & SR & FL & FR). destruct (fast_proper a b e A E0 E1) as [P1 N1]. destruct (slow_proper a b e A E0 E1) as [P0 N0].
  destruct (capacity_proof cs q h RC) as (d & m & k & g & r & E & Fm & Er & _ & Vk & Eh & _ & Vg & (c1 & p & S1 & Rp & ->) & Xi).
  exists d. split; auto. apply Xi. injection S1 as <-. rewrite (right_point _ _ _ N1 Rp FR) in *.
  pose proof (flow_line_bound cs h m fast (fast_left a b e) RC Fm eq_refl FL) as Lm. destruct Vg as (c1 & S1 & Vg). injection S1 as <-.
  assert (a * q9 878913798 < a * max_rate_105) as LR by (apply scale_lt; auto; reflexivity).
  change (p_rate (fast_left a b e)) with (a * q9 878913798) in *. change (p_rate (fast_right a b e)) with (a * max_rate_105) in *.
  assert (f = g) as <-.
  { destruct (max_cases m q) as [(Y & Z)|(Y & _)]; rewrite Er, Y in Vg.
    - rewrite (left_of fast q f (fast_left a b e)), (left_of fast m g (fast_left a b e)); auto. change (q <= a * q9 878913798). qc_lra.
    - eapply value_at_unique; [apply quantity_rising; [apply P1|exact N1]|exact Vf|exact Vg]. }
  split.
  - rewrite Er. destruct (max_cases m q) as [(-> & _)|(-> & _)]; [qc_lra|auto].
  - rewrite Eh. assert (k <= f) as Lk; [|destruct (max_cases k h) as [(-> & _)|(-> & _)]; auto].
    assert (b * min_head_105 <= f) as Lf.
    { apply (value_at_bounds (quantity p_head fast) q f (b * min_head_105) (b * max_head_105)); auto. intros x y H.
      assert (In (y, x) (map swap (quantity p_head fast))) as H' by (apply in_map_iff; exists (x, y); auto).
      apply swapped_point in H' as (u & v & H' & -> & _). revert H'. unfold unified_105. cbn [map fst snd In].
      intros H'. repeat (destruct H' as [H'|H']; [injection H' as _ <-; split; apply scale_le; auto; vm_compute; discriminate|]). destruct H'. }
    assert (forall x y, In (x, y) (quantity p_head slow) -> b * q9 409004665 <= y /\ y <= b * min_head_105) as Bs.
    { intros x y H. unfold quantity, slow_of, scaled in H. cbn [cv_points] in H. rewrite map_map in H. apply in_map_iff in H as ([u v] & E2 & H). cbn in E2.
      injection E2 as _ <-. revert H. unfold unified_75. cbn [map fst snd In].
      intros H'. repeat (destruct H' as [H'|H']; [injection H' as _ <-; split; apply scale_le; auto; vm_compute; discriminate|]). destruct H'. }
    destruct Vk as (c0 & c1 & p0 & p1 & S0 & S1 & L0 & L1 & H). injection S0 as <-. injection S1 as <-. rewrite (right_point _ _ _ N1 L1 FR) in H.
    destruct H as [(_ & V)|(_ & V)]; (eapply value_at_bounds with (lo := b * q9 409004665) (hi := b * min_head_105) in V; [qc_lra|]).
    + intros x y H. apply in_app_or in H as [H|[H|[]]]; [now apply (Bs x)|]. injection H as _ <-. cbn. split; [|apply Qcle_refl].
      apply scale_le; auto. vm_compute. discriminate.
    + intros x y H. now apply (Bs x).
Qed.

(** the end of the chart is on the stone wall only at its smallest head *)
Lemma end_exceeds : forall q h c, evaluate_capacity cs false q h = Ok c -> a * max_rate_105 <= q -> ca_rate_exceeds c = false -> h = b * min_head_105.
Proof.
  intros q h c E Lq X. destruct (no_choking_total q h) as (c' & m & M & f & E' & _ & VM & Xr & _). rewrite E in E'. injection E' as <-.
  rewrite Xr in X. apply Qcltb_ge in X. pose proof (max_ge m q) as Y. assert (a * max_rate_105 <= M) as L by qc_lra. clear - VM L A B.
  assert (forall x y, In (x, y) ((p_head (slow_right a b e), p_rate (slow_right a b e)) :: map swap (quantity p_head fast)) ->
    (x = b * min_head_105 /\ y = a * max_rate_105) \/ y < a * max_rate_105) as Pt.
  { intros x y [H|H].
    - injection H as _ <-. right. cbn. apply scale_lt; auto. reflexivity.
    - apply swapped_point in H as (u & v & H & -> & ->). revert H. unfold unified_105. cbn [map fst snd In].
      intros H'. repeat (destruct H' as [H'|H']; [injection H' as <- <-; first [right; apply scale_lt; auto; reflexivity | left; split; reflexivity]|]). destruct H'. }
  destruct VM as [[_ [H|(u & yu & v & yv & Hu & Hv & L1 & L2 & _ & ->)]]|(u & Hu & C)].
  - destruct (Pt _ _ H) as [[-> _]|Z]; auto. qc_lra.
  - exfalso. destruct (weight_ok u v h L1 L2) as (W1 & W2 & _). revert L W1 W2. generalize ((h - u) / (v - u)). intros w L W1 W2.
    assert (yu <= a * max_rate_105) as U1 by (destruct (Pt _ _ Hu) as [[_ ->]|Z]; [apply Qcle_refl|now apply Qclt_le_weak]).
    assert (yv <= a * max_rate_105) as U2 by (destruct (Pt _ _ Hv) as [[_ ->]|Z]; [apply Qcle_refl|now apply Qclt_le_weak]).
    assert (yu < a * max_rate_105 \/ yv < a * max_rate_105) as U3.
    { destruct (Pt _ _ Hu) as [[-> _]|Z]; auto. destruct (Pt _ _ Hv) as [[-> _]|Z]; auto. exfalso. qc_lra. }
    replace (yu + (yv - yu) * w) with ((1 - w) * yu + w * yv) in L by ring.
    assert (0 <= (1 - w) * (a * max_rate_105 - yu)) by (apply mul_nn; qc_lra). assert (0 <= w * (a * max_rate_105 - yv)) by (apply mul_nn; qc_lra).
    destruct U3 as [U|U].
    + assert (0 < (1 - w) * (a * max_rate_105 - yu)) by (apply mul_pos; qc_lra). qc_lra.
    + assert (0 < w * (a * max_rate_105 - yv)) by (apply mul_pos; qc_lra). qc_lra.
  - destruct (Pt _ _ Hu) as [[-> _]|Z]; [|exfalso; qc_lra]. exfalso. destruct C as [[C1 C2]|[C1 C2]].
    + pose proof (C2 (p_head (slow_right a b e)) (p_rate (slow_right a b e)) (or_introl eq_refl)) as X. cbn in X. 
      assert (b * q9 409004665 < b * min_head_105) by (apply scale_lt; auto; reflexivity). qc_lra.
    + assert (In (b * max_head_105, a * q9 878913798) (map swap (quantity p_head fast))) as H by (apply swapped_point; eexists _, _; split; [|split; reflexivity]; cbn; tauto).
      pose proof (C2 _ _ (or_intror H)) as X. assert (b * min_head_105 < b * max_head_105) by (apply scale_lt; auto; reflexivity). qc_lra.
Qed.
End Chart.

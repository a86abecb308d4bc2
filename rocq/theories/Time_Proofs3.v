(** Proofs about resampling periods to a reporting frequency. *)
From Verif Require Import Base BaseLemmas Time_Model Time_Spec Time_Proofs Time_Proofs2.
From Coq Require Import PeanoNat.

Lemma candidate_year_ok : forall y off, 0 <= off <= 366 ->
  In y (candidate_years (days_before_year y + off)).
Proof.
  intros y off H. unfold candidate_years, days_before_year. cbv zeta.
  set (q := (_ * 400 / 146097)).
  assert (y - 2 <= q <= y).
  { subst q. split; [apply Z.div_le_lower_bound|apply Z.lt_succ_r, Z.div_lt_upper_bound]; try lia;
    Z.to_euclidean_division_equations; lia. }
  cbn. lia.
Qed.

Lemma days_before_month_bounds : forall y m, 1 <= m <= 12 -> 0 <= days_before_month y m <= 366.
Proof.
  intros y m H. unfold days_before_month, days_before_month_common.
  repeat match goal with |- context [if ?b then _ else _] => destruct b end; lia.
Qed.

Lemma day_is_year_start_iff : forall day, day_is_year_start day = true <-> exists y, day = date_day y 1 1.
Proof.
  intros day; unfold day_is_year_start. rewrite existsb_exists. split.
  - intros (y & _ & E). exists y. lia.
  - intros (y & ->). exists y. split; [|lia].
    unfold date_day. rewrite Z.sub_diag, Z.add_0_r.
    apply candidate_year_ok. apply days_before_month_bounds. lia.
Qed.

Lemma day_is_month_start_iff : forall day,
  day_is_month_start day = true <-> exists y m, 1 <= m <= 12 /\ day = date_day y m 1.
Proof.
  intros day; unfold day_is_month_start. rewrite existsb_exists. split.
  - intros (y & _ & E). apply existsb_exists in E as (m & Hm & E). exists y, m. split; [|lia].
    cbn in Hm. lia.
  - intros (y & m & Hm & ->). exists y. split.
    + unfold date_day. rewrite Z.sub_diag, Z.add_0_r.
      apply candidate_year_ok. now apply days_before_month_bounds.
    + apply existsb_exists. exists m. split; [cbn; lia|lia].
Qed.

Lemma on_offset_boundary : forall f day, f <> FreqNone ->
  (on_offset f day = true <-> frequency_boundary f (86400 * day)).
Proof.
  intros f day Hf. destruct f; cbn [on_offset frequency_boundary]; [contradiction| | |].
  - rewrite day_is_year_start_iff. split; intros (y & H); exists y; lia.
  - rewrite day_is_month_start_iff. split; intros (y & m & H); exists y, m; lia.
  - split; eauto.
Qed.

Lemma frequency_boundary_midnight : forall f t, frequency_boundary f t -> exists day, t = 86400 * day.
Proof.
  intros [] t; cbn [frequency_boundary]; [tauto| | |auto].
  - intros (y & ->); eauto.
  - intros (y & m & _ & ->); eauto.
Qed.

Lemma zseq_In : forall a n x, In x (zseq a n) <-> a <= x < a + Z.of_nat n.
Proof.
  intros a n x; unfold zseq. rewrite in_map_iff. split.
  - intros (i & <- & H). apply in_seq in H. lia.
  - intros H. exists (Z.to_nat (x - a)). split; [lia|]. apply in_seq. lia.
Qed.

Lemma date_range_In : forall A B f t, f <> FreqNone -> A <= B + 1 ->
  (In t (date_range (86400 * A) (86400 * B) f) <->
   86400 * A <= t <= 86400 * B /\ frequency_boundary f t).
Proof.
  intros A B f t Hf L. unfold date_range.
  assert (day_seconds = 86400) as -> by reflexivity.
  replace (86400 * A / 86400) with A by (Z.to_euclidean_division_equations; lia).
  replace (86400 * B / 86400) with B by (Z.to_euclidean_division_equations; lia).
  replace (86400 * A mod 86400) with 0 by (Z.to_euclidean_division_equations; lia).
  cbv zeta. rewrite filter_In, in_map_iff. split.
  - intros ((d & <- & Hd) & Hle). apply filter_In in Hd as [Hd Ho]. apply zseq_In in Hd.
    apply on_offset_boundary in Ho; [|assumption].
    replace (d * 86400 + 0) with (86400 * d) in * by lia. split; [lia|assumption].
  - intros (Hb & Hf'). destruct (frequency_boundary_midnight _ _ Hf') as (d & ->). split; [|lia].
    exists d. split; [lia|]. apply filter_In. split; [apply zseq_In; lia|]. now apply on_offset_boundary.
Qed.

Lemma sorted_set_In : forall l x, In x (sorted_set l) <-> In x l.
Proof.
  intros l x; unfold sorted_set. split; intros H.
  - apply (Permutation_in _ (Permutation_sym (sort_perm _ _ _))) in H. now apply nodup_In in H.
  - apply (Permutation_in _ (sort_perm _ _ _)). now apply nodup_In.
Qed.

Lemma sorted_set_increasing : forall l, increasing (sorted_set l).
Proof.
  intros l. assert (NoDup (sorted_set l)) as Hnd.
  { eapply Permutation_NoDup; [apply sort_perm|]. apply NoDup_nodup. }
  assert (Sorted (fun a b => Z.leb a b = true) (sorted_set l)) as Hs.
  { apply sort_Sorted. intros; lia. }
  induction Hs as [|a m Hs IH Hh]; [exact I|]. inversion Hnd as [|? ? Hni Hnd']; subst.
  split; [|now apply IH]. destruct m as [|b m]; auto.
  inversion Hh as [|? ? E]; subst. assert (a <> b) by (intros ->; apply Hni; now left). lia.
Qed.

Lemma start_end_dates_In : forall f A B is ie t, f <> FreqNone -> A < B ->
  (In t (create_start_and_end_dates_for_periods f (86400 * A) (86400 * B) is ie) <->
   (is = true /\ t = 86400 * A) \/ (ie = true /\ t = 86400 * B) \/
   (86400 * A < t < 86400 * B /\ frequency_boundary f t)).
Proof.
  intros f A B is ie t Hf L. unfold create_start_and_end_dates_for_periods. cbv zeta.
  rewrite sorted_set_In.
  assert (day_seconds = 86400) as -> by reflexivity.
  replace (86400 * A + 86400) with (86400 * (A + 1)) by lia.
  replace (86400 * B - 86400) with (86400 * (B - 1)) by lia.
  assert (forall d, clear_time (86400 * d) = 86400 * d) as Hc.
  { intros d. unfold clear_time. change day_seconds with 86400.
    Z.to_euclidean_division_equations; lia. }
  rewrite !Hc.
  assert (In t (map clear_time (date_range (86400 * (A + 1)) (86400 * (B - 1)) f)) <->
          86400 * A < t < 86400 * B /\ frequency_boundary f t) as Hm.
  { rewrite in_map_iff. split.
    - intros (u & <- & Hu). apply date_range_In in Hu as [Hu1 Hu2]; [|assumption|lia].
      destruct (frequency_boundary_midnight _ _ Hu2) as (d & ->). rewrite Hc. split; [lia|assumption].
    - intros (Hu1 & Hu2). destruct (frequency_boundary_midnight _ _ Hu2) as (d & ->).
      exists (86400 * d). split; [apply Hc|]. apply date_range_In; [assumption|lia|]. split; [lia|assumption]. }
  destruct is, ie; cbn [In]; rewrite Hm; intuition (auto; discriminate).
Qed.

Theorem resample_dates_proof : forall f A B include_start include_end, f <> FreqNone -> A < B ->
  let dates := create_start_and_end_dates_for_periods f (86400 * A) (86400 * B) include_start include_end in
  increasing dates /\
  forall t, In t dates <->
   (include_start = true /\ t = 86400 * A) \/ (include_end = true /\ t = 86400 * B) \/
   (86400 * A < t < 86400 * B /\ frequency_boundary f t).
Proof.
  intros f A B is ie Hf L; cbv zeta. split; [apply sorted_set_increasing|].
  intros t; now apply start_end_dates_In.
Qed.

Lemma spans_of_dates : forall a b ts, increasing (a :: b :: ts) ->
  spans (consecutive (a :: b :: ts)) a (last ts b).
Proof.
  intros a b ts H. rewrite consecutive_cons2. unfold spans.
  exists (mkPeriod a b), (last (mkPeriod a b :: consecutive (b :: ts)) (mkPeriod a b)), (consecutive (b :: ts)).
  repeat split; auto. rewrite <- consecutive_cons2. apply consecutive_last.
Qed.

Lemma last_In : forall A (l : list A) d, In (last l d) (d :: l).
Proof.
  induction l as [|a l IH]; intros d; [now left|]. rewrite last_shift. specialize (IH a). right; auto.
Qed.

Theorem resample_periods_proof : forall (ps : list period) f A B,
  spans ps (86400 * A) (86400 * B) -> A < B -> f <> FreqNone ->
  exists ps', resample_periods ps f true true = Ok ps' /\
    contiguous ps' /\
    spans ps' (86400 * A) (86400 * B) /\
    forall t, is_boundary ps' t <->
      t = 86400 * A \/ t = 86400 * B \/ (86400 * A < t < 86400 * B /\ frequency_boundary f t).
Proof.
  intros ps f A B (p & q & rest & -> & Hl & Hs & He) L Hf.
  set (dates := create_start_and_end_dates_for_periods f (86400 * A) (86400 * B) true true).
  destruct (resample_dates_proof f A B true true Hf L) as [Hinc HIn]. fold dates in Hinc, HIn.
  exists (consecutive dates).
  assert (exists a b ts, dates = a :: b :: ts /\ a = 86400 * A /\ last ts b = 86400 * B) as (a & b & ts & E & Ea & Eb).
  { assert (In (86400 * A) dates) as I1 by (apply HIn; auto).
    assert (In (86400 * B) dates) as I2 by (apply HIn; auto).
    assert (forall t, In t dates -> 86400 * A <= t <= 86400 * B) as Hb.
    { intros t Ht. apply HIn in Ht. lia. }
    destruct dates as [|a [|b ts]]; [contradiction|destruct I1 as [I1|[]], I2 as [I2|[]]; lia|].
    exists a, b, ts. split; auto.
    destruct (increasing_cons _ _ Hinc) as [Hinc' Hlt].
    split.
    - destruct I1 as [E|I1]; [lia|]. specialize (Hlt _ I1). pose proof (Hb a (or_introl eq_refl)). lia.
    - assert (forall (l : list Z) x y, increasing (x :: l) -> In y (x :: l) -> y <= last l x) as Hlast.
      { induction l as [|z l IH]; intros x y H Hy.
        - destruct Hy as [<-|[]]. cbn. lia.
        - destruct (increasing_cons _ _ H) as [H' Hlt']. rewrite last_shift.
          destruct Hy as [<-|Hy]; [|apply IH; auto].
          specialize (Hlt' z (or_introl eq_refl)). specialize (IH z z H' (or_introl eq_refl)). lia. }
      assert (In (86400 * B) (b :: ts)) as I2' by (destruct I2 as [E|I2]; [pose proof (Hlt b (or_introl eq_refl)); pose proof (Hb b (or_intror (or_introl eq_refl))); lia|assumption]).
      pose proof (Hlast ts b _ Hinc' I2'). pose proof (Hb (last ts b) (or_intror (last_In _ ts b))). lia. }
  split.
  { unfold resample_periods. destruct f; try contradiction;
    (cbn [periods_period last_opt bind p_start p_end]; rewrite last_shift in Hl; rewrite Hl, Hs, He;
     fold dates; rewrite E; cbn [create_periods app]; now rewrite app_nil_r). }
  assert (contiguous (consecutive dates)) as Hc by now apply consecutive_contiguous.
  split; [assumption|]. split.
  - rewrite E, <- Ea, <- Eb. rewrite E in Hinc. now apply spans_of_dates.
  - intros t. rewrite <- (dates_of_In _ _ Hc). rewrite E, consecutive_dates, <- E, HIn. intuition.
Qed.

Lemma resample_none_proof : forall ps is ie, resample_periods ps FreqNone is ie = Ok ps.
Proof. reflexivity. Qed.

(** a start that is not at midnight is moved to the midnight before it *)
Lemma resample_off_midnight_refuted_proof :
  exists ps ps' s e, contiguous ps /\ spans ps s e /\
    resample_periods ps FreqMonth true true = Ok ps' /\ ~ spans ps' s e.
Proof.
  exists [mkPeriod 3600 8640000], [mkPeriod 0 2678400; mkPeriod 2678400 5097600; mkPeriod 5097600 7776000; mkPeriod 7776000 8640000], 3600, 8640000.
  split; [cbn; unfold nonempty; cbn; lia|].
  split; [exists (mkPeriod 3600 8640000), (mkPeriod 3600 8640000), []; repeat split|].
  split; [vm_compute; reflexivity|].
  intros (p & q & rest & E & _ & Hs & _). injection E as <- _. cbn in Hs. lia.
Qed.

Lemma is_leap_iff : forall y, is_leap y = true <-> gregorian_leap y.
Proof.
  intros y. unfold is_leap, gregorian_leap.
  rewrite andb_true_iff, orb_true_iff, negb_true_iff, !Z.eqb_eq, Z.eqb_neq.
  rewrite !Z.mod_divide by lia. tauto.
Qed.

Theorem calendar_proof :
  date_day 1 1 1 = 0 /\
  (forall y m d, date_day y m (d + 1) = date_day y m d + 1) /\
  (forall y m len, month_length y m len -> m < 12 -> date_day y (m + 1) 1 = date_day y m 1 + len) /\
  (forall y, date_day (y + 1) 1 1 = date_day y 12 1 + 31).
Proof.
  split; [reflexivity|]. split; [intros; unfold date_day; lia|]. split.
  - intros y m len H Hm. unfold date_day, days_before_month.
    destruct H as [[H ->]|[[H ->]|[(-> & H & ->)|(-> & H & ->)]]].
    + cbn [In] in H. destruct H as [<-|[<-|[<-|[<-|[<-|[<-|[<-|[]]]]]]]]; try lia;
        cbn [days_before_month_common Z.add Z.eqb Z.ltb Z.compare Pos.add Pos.succ Pos.eqb Pos.compare Pos.compare_cont andb];
        destruct (is_leap y); lia.
    + cbn [In] in H. destruct H as [<-|[<-|[<-|[<-|[]]]]];
        cbn [days_before_month_common Z.add Z.eqb Z.ltb Z.compare Pos.add Pos.succ Pos.eqb Pos.compare Pos.compare_cont andb];
        destruct (is_leap y); lia.
    + apply is_leap_iff in H. rewrite H. cbn. lia.
    + rewrite <- is_leap_iff in H. destruct (is_leap y); [congruence|]. cbn. lia.
  - intros y. unfold date_day, days_before_month. change (days_before_month_common 12) with 334.
    change (days_before_month_common 1) with 0. change (2 <? 12) with true. change (2 <? 1) with false.
    unfold days_before_year. replace (y + 1 - 1) with y by lia. cbv zeta.
    unfold is_leap. cbn [andb].
    assert (forall n, 0 < n -> y / n = (y - 1) / n + (if y mod n =? 0 then 1 else 0)) as Hd.
    { intros n Hn. destruct (Z.eqb_spec (y mod n) 0) as [E|E].
      - pose proof (Z.div_mod y n ltac:(lia)). rewrite E in H.
        assert ((y - 1) / n = y / n - 1); [|lia].
        symmetry. apply Z.div_unique with (n - 1); [lia|]. nia.
      - pose proof (Z.div_mod y n ltac:(lia)). pose proof (Z.mod_pos_bound y n Hn).
        assert (y / n = (y - 1) / n); [|lia].
        apply Z.div_unique with (y mod n - 1); [lia|]. nia. }
    rewrite (Hd 4), (Hd 100), (Hd 400) by lia.
    assert (y mod 400 = 0 -> y mod 100 = 0) by (Z.to_euclidean_division_equations; lia).
    assert (y mod 100 = 0 -> y mod 4 = 0) by (Z.to_euclidean_division_equations; lia).
    destruct (Z.eqb_spec (y mod 4) 0), (Z.eqb_spec (y mod 100) 0), (Z.eqb_spec (y mod 400) 0); cbn; lia.
Qed.

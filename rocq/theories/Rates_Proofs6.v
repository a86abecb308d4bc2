From Coq Require Import PeanoNat.
From Verif Require Import QcTac Base BaseLemmas Num Time_Model Time_Spec Time_Proofs Time_Proofs2 Time_Proofs3 Units_Model Units_Proofs Rates_Model Rates_Spec Rates_Proofs Rates_Proofs2 Rates_Proofs3 Rates_Proofs4.
Local Open Scope Z_scope.

(** ** C15: boolean series *)
Lemma fold_max_spec : forall l d, In (fold_left Z.max l d) (d :: l) /\ forall x, In x (d :: l) -> x <= fold_left Z.max l d.
Proof.
  induction l as [|y l IH]; intros d; cbn [fold_left].
  - split; [now left|]. intros x [<-|[]]. lia.
  - destruct (IH (Z.max d y)) as [I1 I2]. split.
    + destruct I1 as [E|I1]; [|right; now right]. rewrite <- E. destruct (Z.max_spec d y) as [[_ ->]|[_ ->]]; cbn; auto.
    + intros x [<-|[<-|Hx]].
      * specialize (I2 _ (or_introl eq_refl)). lia.
      * specialize (I2 _ (or_introl eq_refl)). lia.
      * apply I2. now right.
Qed.
Lemma max_date_Ok : forall cond dates x, In x dates -> cond x = true ->
  exists m, max_date cond dates = Ok m /\ In m dates /\ cond m = true /\ forall y, In y dates -> cond y = true -> y <= m.
Proof.
  intros cond dates x Hx Hc. unfold max_date. assert (In x (filter cond dates)) as Hf by now apply filter_In.
  destruct (filter cond dates) as [|d ds] eqn:E; [destruct Hf|].
  destruct (fold_max_spec ds d) as [F1 F2]. exists (fold_left Z.max ds d). split; auto.
  rewrite <- E in F1. apply filter_In in F1 as [F1 F1']. do 2 (split; auto).
  intros y Hy Hcy. apply F2. rewrite <- E. now apply filter_In.
Qed.
Lemma max_date_Err : forall cond dates, (forall x, In x dates -> cond x = false) -> max_date cond dates = Err ValueError.
Proof.
  intros cond dates H. unfold max_date. destruct (filter cond dates) as [|d ds] eqn:E; auto.
  assert (In d (filter cond dates)) as Hd by (rewrite E; now left). apply filter_In in Hd as [Hd Hc].
  rewrite H in Hc; auto. discriminate.
Qed.


Lemma boolean_value : forall s q p ps, s_periods s = p :: ps -> contiguous (p :: ps) ->
  length (s_values s) = length (s_periods s) -> nonempty q -> p_start p <= p_start q ->
  exists v, boolean_resample_value (dates_of (s_periods s)) (s_values s) q = Ok v /\
    (v = true <-> all_overlapping_true s q).
Proof.
  intros s q p ps Es Hc L Hq Hp. unfold nonempty in Hq. rewrite Es in *.
  assert (In (p_start p) (dates_of (p :: ps))) as H0 by (rewrite dates_of_eq; now left).
  destruct (max_date_Ok (fun d => d <=? p_start q) (dates_of (p :: ps)) (p_start p)) as (ds & E1 & I1 & C1 & M1); auto;
    [now apply Z.leb_le|].
  destruct (max_date_Ok (fun d => d <? p_end q) (dates_of (p :: ps)) (p_start p)) as (de & E2 & I2 & C2 & M2); auto;
    [apply Z.ltb_lt; lia|].
  apply Z.leb_le in C1. apply Z.ltb_lt in C2.
  apply In_nth_error in I1 as [i Hi]. apply In_nth_error in I2 as [j Hj].
  pose proof (dates_of_increasing _ Hc) as Hinc. pose proof (increasing_NoDup _ Hinc) as Hnd.
  unfold boolean_resample_value. rewrite E1. cbn [bind].
  rewrite (index_of_nth _ Z.eqb ds _ i); auto; [|apply Z.eqb_eq]. cbn [of_option bind].
  rewrite E2. cbn [bind]. rewrite (index_of_nth _ Z.eqb de _ j); auto; [|apply Z.eqb_eq]. cbn [of_option bind].
  eexists. split; [reflexivity|].
  assert (forall l r, nth_error (p :: ps) l = Some r -> 0 < overlap r q <-> (i <= l < j + 1)%nat) as Hov.
  { intros l r Hl. destruct (dates_of_nth _ _ _ Hc Hl) as [D1 D2].
    pose proof (contiguous_nonempty _ _ Hc (nth_error_In _ _ Hl)) as Hn. unfold nonempty in Hn.
    assert (0 < overlap r q <-> p_start r < p_end q /\ p_start q < p_end r) as -> by (unfold overlap; lia).
    split.
    - intros [A B]. split.
      + destruct (Nat.le_gt_cases i l) as [|G]; auto. exfalso.
        assert (p_end r <= ds) by (eapply (increasing_nth_le _ (S l) i); eauto; lia). lia.
      + destruct (Nat.le_gt_cases l j) as [|G]; [lia|]. exfalso.
        assert (de < p_start r) by (eapply (increasing_nth_lt _ j l); eauto; lia).
        assert (p_start r <= de) by (apply M2; [eapply nth_error_In; eauto|now apply Z.ltb_lt]). lia.
    - intros [A B]. split.
      + assert (p_start r <= de) by (eapply (increasing_nth_le _ l j); eauto; lia). lia.
      + destruct (Z.lt_ge_cases (p_start q) (p_end r)) as [|G]; auto. exfalso.
        assert (p_end r <= ds) by (apply M1; [eapply nth_error_In; eauto|now apply Z.leb_le]).
        assert (ds < p_end r) by (eapply (increasing_nth_lt _ i (S l)); eauto; lia). lia. }
  rewrite forallb_forall. unfold all_overlapping_true. rewrite Es. split.
  - intros H l r b Hl Hb Ho. apply (Hov _ _ Hl) in Ho. apply H.
    apply (nth_error_In _ (l - i)). rewrite nth_error_slice.
    replace (l - i <? j + 1 - i)%nat with true by (symmetry; apply Nat.ltb_lt; lia).
    replace (i + (l - i))%nat with l by lia. exact Hb.
  - intros H b Hb. apply In_nth_error in Hb as [l Hb]. rewrite nth_error_slice in Hb.
    destruct (l <? j + 1 - i)%nat eqn:El; [|discriminate]. apply Nat.ltb_lt in El.
    destruct (nth_error_lt _ (p :: ps) (i + l)) as [r Hr].
    { rewrite <- L. apply nth_error_Some. congruence. }
    eapply H; eauto. apply (Hov _ _ Hr). lia.
Qed.

Theorem boolean_resample_proof : forall s f is ie p new, well_formed s -> f <> FreqNone ->
  nth_error (s_periods s) 0 = Some p ->
  (is = true -> exists day, p_start p = 86400 * day) ->
  resample_periods (s_periods s) f is ie = Ok new ->
  exists vs, boolean_resample s f is ie = Ok (mkSeries new vs (s_unit s)) /\ length vs = length new /\
    forall k q, nth_error new k = Some q ->
      exists v, nth_error vs k = Some v /\ (v = true <-> all_overlapping_true s q).
Proof.
  intros s f is ie p new (Hc & Hne & L) Hf Hp Hmid H.
  destruct (s_periods s) as [|p' ps] eqn:Es; [congruence|]. injection Hp as ->.
  assert (forall q, In q new -> nonempty q /\ p_start p <= p_start q) as Hnew.
  { destruct new as [|q0 qs]; [intros q []|].
    destruct (resample_grid _ _ _ _ _ _ _ Hf Hc H) as (d & e & ds & Eq & Hi & H1 & H2 & H3 & H4 & H5).
    assert (p_start p <= d) as Hd.
    { destruct is; [|auto]. destruct (Hmid eq_refl) as [day Eday]. rewrite Eday in *.
      assert (clear_time (86400 * day) = 86400 * day); [|lia].
      unfold clear_time, day_seconds. Z.to_euclidean_division_equations. lia. }
    rewrite Eq. pose proof (consecutive_contiguous _ Hi) as Hcc. intros q Hq.
    split; [now apply (contiguous_nonempty _ _ Hcc)|].
    apply In_nth_error in Hq as [k Hk]. destruct (dates_of_nth _ _ _ Hcc Hk) as [D _].
    rewrite consecutive_dates in D.
    assert (In (p_start q) (d :: e :: ds)) as HI by (eapply nth_error_In; eauto). pose proof (increasing_ge _ _ _ Hi HI). lia. }
  assert (exists vs, mapM (boolean_resample_value (dates_of (s_periods s)) (s_values s)) new = Ok vs /\ length vs = length new /\
    forall k q, nth_error new k = Some q ->
      exists v, nth_error vs k = Some v /\ (v = true <-> all_overlapping_true s q)) as (vs & Em & Lv & Hv).
  { rewrite <- Es in L. clear H. induction new as [|q new IH].
    - exists []. split; [reflexivity|]. split; [reflexivity|]. intros [|k] q Hq; discriminate.
    - destruct IH as (vs & Em & Lv & Hv); [intros; apply Hnew; now right|].
      destruct (Hnew q (or_introl eq_refl)) as [Hn Hs].
      destruct (boolean_value s q p ps Es Hc L Hn Hs) as (v & Ev & Hvv).
      exists (v :: vs). cbn [mapM]. rewrite Ev. cbn [bind]. rewrite Em. cbn [bind length].
      split; [reflexivity|]. split; [now rewrite Lv|]. intros [|k] q' Hq; [injection Hq as <-; now exists v|now apply Hv]. }
  exists vs. split; [|split; auto]. unfold boolean_resample. rewrite Es in Em.
  destruct f; [congruence| | |];
  (rewrite Es, H; cbn [bind]; unfold s_all_dates; rewrite Es, all_dates_of; cbn [bind]; rewrite Em; cbn [bind];
   unfold make_series; now rewrite Lv, Nat.eqb_refl).
Qed.

(** a series that starts inside a day cannot be resampled with its start included *)
Theorem boolean_resample_refuted_proof : forall p ps vs u f ie day,
  contiguous (p :: ps) -> f <> FreqNone -> 86400 * day < p_start p < 86400 * (day + 1) ->
  forall q qs, resample_periods (p :: ps) f true ie = Ok (q :: qs) ->
  boolean_resample (mkSeries (p :: ps) vs u) f true ie = Err ValueError.
Proof.
  intros p ps vs u f ie day Hc Hf Hd q qs H.
  assert (p_start q < p_start p) as Hlt.
  { destruct (resample_grid _ _ _ _ _ _ _ Hf Hc H) as (d & e & ds & Eq & Hi & H1 & H2 & H3 & H4 & H5).
    rewrite consecutive_cons2 in Eq. injection Eq as -> _. cbn [p_start].
    specialize (H1 eq_refl).
    assert (clear_time (p_start p) < p_start p); [|specialize (H5 eq_refl); lia].
    unfold clear_time, day_seconds. Z.to_euclidean_division_equations. lia. }
  unfold boolean_resample. destruct f; [congruence| | |];
  (cbn [s_periods]; rewrite H; cbn [bind]; unfold s_all_dates; cbn [s_periods]; rewrite all_dates_of; cbn [bind mapM];
   unfold boolean_resample_value at 1; rewrite max_date_Err; [reflexivity|];
   intros x Hx; apply Z.leb_gt; apply (dates_bounds p ps x Hc) in Hx; lia).
Qed.

(** ** C16: resampling a series of values that hold until the next one *)
Lemma ffill_nth : forall V (l : list (option V)) prev k o, nth_error (ffill_from prev l) k = Some o ->
  (exists j v, (j <= k)%nat /\ nth_error l j = Some (Some v) /\ o = Some v /\
     forall j', (j < j' <= k)%nat -> nth_error l j' = Some None) \/
  ((forall j, (j <= k)%nat -> nth_error l j = Some None) /\ o = prev).
Proof.
  intros V l; induction l as [|x l IH]; intros prev k o H; [destruct k; discriminate|].
  destruct x as [v|].
  - destruct k as [|k]; cbn in H.
    + injection H as <-. left. exists 0%nat, v. repeat split; auto. lia.
    + destruct (IH _ _ _ H) as [(j & w & Hj & Hn & -> & Hl)|[Hl ->]].
      * left. exists (S j), w. repeat split; auto; [lia|]. intros [|j'] Hj'; [lia|]. cbn. apply Hl. lia.
      * left. exists 0%nat, v. repeat split; auto; [lia|]. intros [|j'] Hj'; [lia|]. cbn. apply Hl. lia.
  - destruct k as [|k]; cbn in H.
    + injection H as <-. right. split; auto. intros j Hj. assert (j = 0)%nat as -> by lia. reflexivity.
    + destruct (IH _ _ _ H) as [(j & w & Hj & Hn & -> & Hl)|[Hl ->]].
      * left. exists (S j), w. repeat split; auto; [lia|]. intros [|j'] Hj'; [lia|]. cbn. apply Hl. lia.
      * right. split; auto. intros [|j] Hj; [reflexivity|]. cbn. apply Hl. lia.
Qed.
Lemma ffill_length : forall V (l : list (option V)) prev, length (ffill_from prev l) = length l.
Proof. intros V l; induction l as [|[v|] l IH]; intros prev; cbn; auto. Qed.

Lemma nth_error_combine : forall A B (l : list A) (m : list B) k a b,
  nth_error (combine l m) k = Some (a, b) <-> nth_error l k = Some a /\ nth_error m k = Some b.
Proof.
  intros A B l; induction l as [|x l IH]; intros [|y m] [|k] a b; cbn; split; try (intros [? ?]); intros; try discriminate; try congruence; try easy.
  - split; congruence.
  - now apply IH.
  - now apply IH.
Qed.
Lemma combine_fst : forall A B (l : list A) (m : list B), length m = length l -> map fst (combine l m) = l.
Proof. intros A B l; induction l as [|x l IH]; intros [|y m] H; try discriminate; auto. cbn. f_equal. apply IH. now injection H. Qed.

Lemma starts_NoDup : forall ps, contiguous ps -> NoDup (start_dates ps).
Proof.
  intros [|p ps] H; [constructor|]. pose proof (increasing_NoDup _ (dates_of_increasing _ H)) as N.
  rewrite dates_of_eq in N. apply NoDup_remove_1 in N. now rewrite app_nil_r in N.
Qed.


Lemma reindex_nth : forall V (s : series V) new k q, contiguous (s_periods s) -> length (s_values s) = length (s_periods s) ->
  nth_error new k = Some q ->
  exists o, nth_error (reindex (start_dates (s_periods s)) (s_values s) (start_dates new)) k = Some o /\
    forall v, o = Some v <-> starts_at s (p_start q) v.
Proof.
  intros V s new k q Hc L Hq. unfold reindex, start_dates at 2. rewrite !nth_error_map, Hq. cbn [option_map].
  eexists. split; [reflexivity|]. intros v. split.
  - intros H. apply dict_get_In in H; [|apply Z.eqb_eq]. apply In_nth_error in H as [i Hi].
    apply nth_error_combine in Hi as [H1 H2]. unfold start_dates in H1. rewrite nth_error_map in H1.
    destruct (nth_error (s_periods s) i) as [p|] eqn:Ep; [|discriminate]. injection H1 as E. now exists i, p.
  - intros (i & p & Hp & Hv & <-). apply dict_get_NoDup; [apply Z.eqb_eq| |].
    + rewrite combine_fst; [now apply starts_NoDup|]. unfold start_dates. now rewrite map_length.
    + apply (nth_error_In _ i). apply nth_error_combine. split; auto. unfold start_dates. now rewrite nth_error_map, Hp.
Qed.

Theorem series_resample_proof : forall V (s : series V) f is ie new, well_formed s -> f <> FreqNone ->
  resample_periods (s_periods s) f is ie = Ok new ->
  exists vs, series_resample s f is ie = Ok (mkSeries new vs (s_unit s)) /\ length vs = length new /\
    forall k q, nth_error new k = Some q ->
      (exists j r v, (j <= k)%nat /\ nth_error new j = Some r /\ starts_at s (p_start r) v /\ nth_error vs k = Some (Some v) /\
         forall j' r', (j < j' <= k)%nat -> nth_error new j' = Some r' -> forall w, ~ starts_at s (p_start r') w) \/
      (nth_error vs k = Some None /\
         forall j' r', (j' <= k)%nat -> nth_error new j' = Some r' -> forall w, ~ starts_at s (p_start r') w).
Proof.
  intros V s f is ie new (Hc & Hne & L) Hf H.
  set (R := reindex (start_dates (s_periods s)) (s_values s) (start_dates new)).
  assert (length R = length new) as LR by (unfold R, reindex, start_dates; now rewrite !map_length).
  exists (ffill R). assert (length (ffill R) = length new) as LF by (unfold ffill; now rewrite ffill_length).
  split; [|split; [exact LF|]].
  { unfold series_resample. destruct f; [congruence| | |]; (rewrite H; cbn [bind]; unfold make_series; fold R; now rewrite LF, Nat.eqb_refl). }
  intros k q Hq. destruct (nth_error_lt _ (ffill R) k) as [o Ho]; [rewrite LF; apply nth_error_Some; congruence|].
  assert (forall j r, nth_error new j = Some r -> nth_error R j = Some None -> forall w, ~ starts_at s (p_start r) w) as Hno.
  { intros j r Hr Hn w Hw. destruct (reindex_nth V s new j r Hc L Hr) as (o' & E & Ho'). fold R in E.
    apply Ho' in Hw. congruence. }
  destruct (ffill_nth _ _ _ _ _ Ho) as [(j & v & Hj & Hv & -> & Hl)|[Hl ->]].
  - left. destruct (nth_error_lt _ new j) as [r Hr].
    { rewrite <- LR. apply nth_error_Some. congruence. }
    exists j, r, v. split; auto. split; auto. split.
    + destruct (reindex_nth V s new j r Hc L Hr) as (o' & E & Ho'). fold R in E. apply Ho'. congruence.
    + split; auto. intros j' r' Hj' Hr'. apply (Hno j'); auto.
  - right. split; auto. intros j' r' Hj' Hr'. apply (Hno j'); auto.
Qed.

(** the value in force at the start of a new period, provided the original period in force starts on the new grid *)
Theorem series_resample_in_force_proof : forall V (s : series V) f is ie new vs u, well_formed s -> f <> FreqNone ->
  resample_periods (s_periods s) f is ie = Ok new ->
  series_resample s f is ie = Ok (mkSeries new vs u) ->
  u = s_unit s /\ length vs = length new /\
  forall k q i p v, nth_error new k = Some q -> nth_error (s_periods s) i = Some p -> nth_error (s_values s) i = Some v ->
    In_period (p_start q) p -> (exists r, In r new /\ p_start r = p_start p) ->
    nth_error vs k = Some (Some v).
Proof.
  intros V s f is ie new vs u Wf Hf Hn Hr.
  destruct (series_resample_proof V s f is ie new Wf Hf Hn) as (vs' & E & L & Hk). rewrite Hr in E.
  assert (vs = vs') as <- by congruence. split; [congruence|]. split; [exact L|].
  intros k q i p v Hq Hp Hv Hin (r & Hrn & Er).
  destruct Wf as (Hc & Hne & Lv). destruct (s_periods s) as [|p0 ps] eqn:Es; [congruence|].
  destruct new as [|q0 qs]; [destruct k; discriminate|].
  destruct (resample_grid _ _ _ _ _ _ _ Hf Hc Hn) as (d & e & ds & Eq & Hi & _).
  pose proof (consecutive_contiguous _ Hi) as Hcn. rewrite <- Eq in Hcn. unfold In_period in Hin.
  apply In_nth_error in Hrn as [j Hj].
  assert (j <= k)%nat as Hjk.
  { destruct (Nat.le_gt_cases j k) as [|G]; auto. exfalso.
    assert (p_end q <= p_start r) by (eapply contiguous_order; eauto).
    pose proof (contiguous_nonempty _ _ Hcn (nth_error_In _ _ Hq)) as N. unfold nonempty in N. lia. }
  assert (forall m rm w, (j <= m <= k)%nat -> nth_error (q0 :: qs) m = Some rm -> starts_at s (p_start rm) w -> m = j /\ w = v) as Huniq.
  { intros m rm w Hm Hrm (i' & p' & Hp' & Hw & Es'). rewrite Es in Hp'.
    assert (p_start r <= p_start rm) as A.
    { destruct (Nat.eq_dec j m) as [->|]; [replace rm with r by congruence; lia|].
      assert (p_end r <= p_start rm) by (eapply (contiguous_order _ j m); eauto; lia).
      pose proof (contiguous_nonempty _ _ Hcn (nth_error_In _ _ Hj)) as N. unfold nonempty in N. lia. }
    assert (p_start rm <= p_start q) as B.
    { destruct (Nat.eq_dec m k) as [->|]; [replace rm with q by congruence; lia|].
      assert (p_end rm <= p_start q) by (eapply (contiguous_order _ m k); eauto; lia).
      pose proof (contiguous_nonempty _ _ Hcn (nth_error_In _ _ Hrm)) as N. unfold nonempty in N. lia. }
    assert (i' = i) as ->.
    { apply (contiguous_unique _ (p_start rm) i' i p' p Hc Hp' Hp); unfold In_period; [|lia].
      pose proof (contiguous_nonempty _ _ Hc (nth_error_In _ _ Hp')) as N. unfold nonempty in N. lia. }
    split; [|congruence].
    assert (p' = p) as -> by congruence.
    apply (contiguous_unique _ (p_start rm) m j rm r Hcn Hrm Hj); unfold In_period.
    - pose proof (contiguous_nonempty _ _ Hcn (nth_error_In _ _ Hrm)) as N. unfold nonempty in N. lia.
    - pose proof (contiguous_nonempty _ _ Hcn (nth_error_In _ _ Hj)) as N. unfold nonempty in N. lia. }
  assert (starts_at s (p_start r) v) as Hsr by (exists i, p; rewrite Es; auto).
  destruct (Hk k q Hq) as [(j0 & r0 & v0 & Hj0 & Hr0 & Hs0 & Hres & Hlast)|[Hres Hnone]].
  - destruct (Nat.le_gt_cases j j0) as [G|G].
    + destruct (Huniq j0 r0 v0) as [_ ->]; auto.
    + elim (Hlast j r ltac:(lia) Hj v Hsr).
  - elim (Hnone j r Hjk Hj v Hsr).
Qed.

(** a change that does not fall on the new grid is lost *)
Theorem series_resample_refuted_proof : exists (s : series Z) new vs k q v,
  well_formed s /\ resample_periods (s_periods s) FreqYear true true = Ok new /\
  series_resample s FreqYear true true = Ok (mkSeries new vs (s_unit s)) /\
  nth_error new k = Some q /\ value_at s (p_start q) v /\ nth_error vs k = Some (Some 1) /\ v = 2.
Proof.
  (* 2020-01-01, 2020-07-01, 2022-01-01 *)
  pose (d0 := 86400 * date_day 2020 1 1). pose (d1 := 86400 * date_day 2020 7 1). pose (d2 := 86400 * date_day 2022 1 1).
  exists (mkSeries [mkPeriod d0 d1; mkPeriod d1 d2] [1; 2] KILO).
  eexists. eexists. exists 1%nat. eexists. exists 2.
  split. { repeat split; try discriminate; cbn; unfold nonempty; vm_compute; reflexivity. }
  split; [vm_compute; reflexivity|]. split; [vm_compute; reflexivity|].
  split; [reflexivity|]. split; [|split; reflexivity].
  exists 1%nat. eexists. split; [reflexivity|]. split; [reflexivity|].
  unfold In_period. vm_compute. split; [discriminate|reflexivity].
Qed.

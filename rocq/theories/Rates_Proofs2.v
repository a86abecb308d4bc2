From Coq Require Import PeanoNat.
From Verif Require Import QcTac Base BaseLemmas Num Time_Model Time_Spec Time_Proofs Time_Proofs2 Time_Proofs3 Units_Model Units_Proofs Rates_Model Rates_Spec Rates_Proofs.
Local Open Scope Z_scope.

Lemma all_dates_of : forall p ps, all_dates (p :: ps) = Ok (dates_of (p :: ps)).
Proof. intros p ps. rewrite dates_of_eq, last_shift. reflexivity. Qed.

Lemma periods_period_eq : forall p ps, periods_period (p :: ps) = Ok (mkPeriod (p_start p) (p_end (last ps p))).
Proof. reflexivity. Qed.

Lemma resample_grid : forall p ps f is ie q qs, f <> FreqNone -> contiguous (p :: ps) ->
  resample_periods (p :: ps) f is ie = Ok (q :: qs) ->
  exists d e ds, q :: qs = consecutive (d :: e :: ds) /\ increasing (d :: e :: ds) /\
    (is = true -> d <= p_start p) /\ (is = false -> p_start p <= d) /\ p_start p < e /\
    clear_time (p_start p) <= d /\ (is = true -> d <= clear_time (p_start p)).
Proof.
  intros p ps f is ie q qs Hf Hc H.
  assert (p_start p < p_end (last ps p)) as Hlt.
  { pose proof (contiguous_nonempty _ _ Hc (or_introl eq_refl)) as Hn. unfold nonempty in Hn.
    pose proof (nth_error_last _ ps p) as Hl. rewrite last_shift in Hl.
    destruct ps as [|x ps]; [exact Hn|].
    assert (p_end p <= p_start (last (x :: ps) p)) as Ho
      by (eapply (contiguous_order _ 0 (length (x :: ps)) p); eauto; cbn; lia).
    pose proof (contiguous_nonempty _ _ Hc (nth_error_In _ _ Hl)) as Hn'. unfold nonempty in Hn'. lia. }
  unfold resample_periods in H. destruct f; [congruence| | |];
  (rewrite periods_period_eq in H; cbn [bind p_start p_end] in H;
   match type of H with context [create_periods ?D _ _] => destruct D as [|d [|e ds]] eqn:E end;
   [discriminate|discriminate|];
   rewrite create_periods_consecutive in H; unfold extended in H; rewrite app_nil_r in H; cbn [app] in H;
   assert (q :: qs = consecutive (d :: e :: ds)) as H' by congruence; clear H; apply grid_bounds in E as (Hi & H1 & H2 & H3 & H4 & H5); [|exact Hlt];
   exists d, e, ds; repeat split; auto; apply Hi).
Qed.

Lemma consecutive_runsum : forall ps vs ts x acc, contiguous ps -> increasing (x :: ts) ->
  runsum acc (map (prorated ps vs) (consecutive (x :: ts))) =
  map (fun t => (acc + (before ps (map nan_zero vs) t - before ps (map nan_zero vs) x))%Qc) ts.
Proof.
  intros ps vs ts; induction ts as [|t ts IH]; intros x acc Hc Hi; [reflexivity|].
  rewrite consecutive_cons2. cbn [map runsum]. destruct Hi as [Hx Hi].
  rewrite prorated_before by (auto; lia). f_equal. rewrite IH by auto.
  apply map_ext. intros y. ring.
Qed.

Lemma increasing_ge : forall ts x y, increasing (x :: ts) -> In y (x :: ts) -> x <= y.
Proof. intros ts x y H [->|Hy]; [lia|]. apply increasing_cons in H as [_ H]. apply H in Hy. lia. Qed.

Lemma cumulative_resample_core : forall p ps vs u f is ie q qs,
  contiguous (p :: ps) -> length vs = length (p :: ps) -> f <> FreqNone ->
  resample_periods (p :: ps) f is ie = Ok (q :: qs) ->
  cumulative_resample (mkSeries (p :: ps) (map Some (runsum 0 vs)) u) f is ie =
  Ok (mkSeries (q :: qs) (map Some (runsum 0 (map (prorated (p :: ps) (map Some vs)) (q :: qs)))) u).
Proof.
  intros p ps vs u f is ie q qs Hc L Hf H.
  destruct (resample_grid _ _ _ _ _ _ _ Hf Hc H) as (d & e & ds & Eq & Hi & H1 & H2 & H3 & _).
  assert (all_dates (q :: qs) = Ok (d :: e :: ds)) as Ed
    by (rewrite all_dates_of, Eq, consecutive_dates; reflexivity).
  assert (map nan_zero (map Some vs) = vs) as En by (rewrite map_map; apply map_id).
  assert (forall t, interp_time (known_points (dates_of (p :: ps)) (Some 0%Qc :: map Some (runsum 0 vs))) t
                    = if t <? p_start p then None else Some (0 + before (p :: ps) vs t)%Qc) as Hint.
  { intros t. change (Some 0%Qc :: map Some (runsum 0 vs)) with (map Some (0%Qc :: runsum 0 vs)).
    rewrite known_points_some. rewrite interp_cumulative; auto. discriminate. }
  rewrite Eq. rewrite consecutive_runsum by auto. rewrite En. rewrite <- Eq.
  assert (forall t, In t (e :: ds) -> (t <? p_start p) = false) as Hge.
  { intros t Ht. apply Z.ltb_ge. destruct Hi as [_ Hi]. pose proof (increasing_ge _ _ _ Hi Ht). lia. }
  assert (length (q :: qs) = length (e :: ds)) as Ll.
  { apply (f_equal (@length _)) in Eq. rewrite Eq. clear. revert d e. induction ds as [|x ds IH]; intros d e; [reflexivity|].
    rewrite consecutive_cons2. cbn [length]. f_equal. apply IH. }
  unfold cumulative_resample, s_all_dates. cbn [s_periods s_values s_unit].
  destruct f; [congruence| | |];
  (rewrite all_dates_of; cbn [bind]; rewrite H; cbn [bind]; rewrite Ed; cbn [bind]; cbv zeta;
   remember (e :: ds) as rest eqn:Er; cbn [map];
   rewrite (map_ext_in (interp_time _) (fun t => Some (0 + before (p :: ps) vs t)%Qc) rest)
     by (intros t Ht; rewrite Hint, Hge; auto);
   destruct is;
   [ unfold make_series; rewrite map_length, Ll, Nat.eqb_refl; do 2 f_equal; rewrite map_map; apply map_ext;
     intros t; f_equal; rewrite (before_early (p :: ps) vs d); auto; try ring
   | rewrite Hint; replace (d <? p_start p) with false by (symmetry; apply Z.ltb_ge; auto);
     unfold make_series; rewrite !map_length, Ll, Nat.eqb_refl; do 2 f_equal; rewrite !map_map; apply map_ext;
     intros t; cbn [nsub num_lift2]; f_equal; ring ]).
Qed.

Lemma prorated_nan_zero : forall ps vs q, prorated ps (map Some (map nan_zero vs)) q = prorated ps vs q.
Proof.
  unfold prorated, qsum. induction ps as [|p ps IH]; intros [|v vs] q; cbn; auto. rewrite IH. reflexivity.
Qed.

(** C10 *)
Theorem volumes_resample_proof : forall s f is ie q qs,
  well_formed s -> f <> FreqNone -> resample_periods (s_periods s) f is ie = Ok (q :: qs) ->
  volumes_resample s f is ie =
  Ok (mkSeries (q :: qs) (map (fun r => Some (prorated (s_periods s) (s_values s) r)) (q :: qs)) (s_unit s)).
Proof.
  intros [ps vs u] f is ie q qs (Hc & Hne & L) Hf H. cbn [s_periods s_values s_unit] in *.
  destruct ps as [|p ps]; [congruence|].
  unfold volumes_resample, volumes_cumulative, make_series. cbn [s_periods s_values s_unit].
  unfold compute_cumulative. rewrite nancumsum_length, L, Nat.eqb_refl. cbn [bind].
  rewrite nancumsum_runsum. rewrite (cumulative_resample_core _ _ _ _ _ _ _ q qs); auto.
  2: now rewrite map_length.
  cbn [bind]. unfold cumulative_to_volumes. cbn [s_periods s_values s_unit].
  rewrite np_diff_runsum. unfold make_series. rewrite !map_length, Nat.eqb_refl.
  do 2 f_equal. rewrite map_map. apply map_ext. intros r. f_equal. apply prorated_nan_zero.
Qed.

Lemma runsum_of_diffs : forall l acc, length (np_diff (Some acc :: map Some l)) = length l /\
  forall d, np_diff (Some acc :: map Some l) = d -> exists v, d = map Some v /\ l = runsum acc v.
Proof.
  induction l as [|x l IH]; intros acc.
  - split; [reflexivity|]. intros d <-. exists []. auto.
  - change (np_diff (Some acc :: map Some (x :: l))) with (Some (x - acc)%Qc :: np_diff (Some x :: map Some l)).
    destruct (IH x) as [IH1 IH2]. split; [cbn [length]; now rewrite IH1|]. intros d <-.
    destruct (IH2 _ eq_refl) as (v & Ev & El). exists ((x - acc)%Qc :: v). split; [cbn [map]; now rewrite Ev|].
    cbn [runsum]. replace (acc + (x - acc))%Qc with x by ring. now rewrite <- El.
Qed.

Theorem cumulative_resample_proof : forall s f is ie q qs c vols,
  well_formed s -> s_values s = map Some c -> f <> FreqNone ->
  resample_periods (s_periods s) f is ie = Ok (q :: qs) ->
  cumulative_to_volumes s = Ok vols ->
  exists s', cumulative_resample s f is ie = Ok s' /\ s_periods s' = q :: qs /\ s_unit s' = s_unit s /\
    length (s_values s') = length (q :: qs) /\
    forall k, (k < length (q :: qs))%nat ->
      nth_error (s_values s') k =
      Some (Some (qsum (map (prorated (s_periods s) (s_values vols)) (firstn (S k) (q :: qs))))).
Proof.
  intros [ps vs u] f is ie q qs c vols (Hc & Hne & L) Hv Hf H Hvol. cbn [s_periods s_values s_unit] in *. subst vs.
  destruct ps as [|p ps]; [congruence|].
  destruct (runsum_of_diffs c 0%Qc) as [_ Hd]. destruct (Hd _ eq_refl) as (v & Ev & ->).
  unfold cumulative_to_volumes, make_series in Hvol. cbn [s_periods s_values s_unit] in Hvol. rewrite Ev in Hvol.
  destruct (Nat.eqb _ _); [|discriminate]. injection Hvol as <-. cbn [s_values].
  rewrite map_length, runsum_length in L.
  eexists. split; [apply cumulative_resample_core; eauto|]. cbn [s_periods s_values s_unit].
  repeat split; auto; [rewrite map_length, runsum_length, map_length; reflexivity|].
  intros k Hk. rewrite nth_error_map, runsum_nth by (rewrite map_length; exact Hk).
  cbn [option_map]. do 2 f_equal. rewrite firstn_map. ring.
Qed.

(** conservation *)
Lemma prorated_split : forall ps vs ts x, contiguous ps -> increasing (x :: ts) ->
  qsum (map (prorated ps vs) (consecutive (x :: ts))) = prorated ps vs (mkPeriod x (last ts x)).
Proof.
  intros ps vs ts; induction ts as [|t ts IH]; intros x Hc Hi.
  - cbn [consecutive map qsum fold_right last]. rewrite prorated_before by (auto; lia). unfold qsum; cbn. ring.
  - rewrite consecutive_cons2, last_shift. cbn [map]. unfold qsum. cbn [fold_right]. fold (qsum (map (prorated ps vs) (consecutive (t :: ts)))).
    destruct Hi as [Hx Hi]. rewrite IH by auto.
    assert (t <= last ts t) by (eapply increasing_ge; [exact Hi|]; apply last_In).
    rewrite !prorated_before by (auto; lia). ring.
Qed.

Lemma prorated_whole : forall ps vs q, length vs = length ps ->
  (forall p, In p ps -> nonempty p /\ p_start q <= p_start p /\ p_end p <= p_end q) ->
  prorated ps vs q = qsum (map nan_zero vs).
Proof.
  unfold prorated, qsum. induction ps as [|p ps IH]; intros [|v vs] q L H; try discriminate; auto.
  cbn [map2 map fold_right]. rewrite IH; [|now injection L|intros; apply H; now right].
  destruct (H p (or_introl eq_refl)) as (Hn & H1 & H2). unfold nonempty in Hn.
  replace (overlap p q) with (seconds p) by (unfold overlap, seconds; lia).
  assert (qz (seconds p) <> 0%Qc) by (apply qz_nonzero; unfold seconds; lia).
  field. assumption.
Qed.

Lemma contiguous_within : forall ps a b, contiguous ps -> spans ps a b ->
  forall p, In p ps -> nonempty p /\ a <= p_start p /\ p_end p <= b.
Proof.
  intros ps a b Hc (p0 & q0 & rest & -> & E & <- & <-) p Hp.
  split; [now apply (contiguous_nonempty _ _ Hc)|].
  apply In_nth_error in Hp as [k Hk]. pose proof (nth_error_last _ rest p0) as Hl. rewrite E in Hl.
  split.
  - destruct k as [|k]; [injection Hk as ->; lia|].
    assert (p_end p0 <= p_start p) by (eapply (contiguous_order _ 0 (S k)); eauto; try reflexivity; lia).
    pose proof (contiguous_nonempty _ _ Hc (or_introl eq_refl)) as Hn. unfold nonempty in Hn. lia.
  - assert (k <= length rest)%nat by (assert (k < length (p0 :: rest))%nat by (apply nth_error_Some; congruence); cbn in *; lia).
    destruct (Nat.eq_dec k (length rest)) as [->|]; [rewrite Hl in Hk; injection Hk as ->; lia|].
    assert (p_end p <= p_start q0) by (eapply (contiguous_order _ k (length rest)); eauto; lia).
    pose proof (contiguous_nonempty _ _ Hc (nth_error_In _ _ Hl)) as Hn. unfold nonempty in Hn. lia.
Qed.

Theorem volumes_conserved_proof : forall s f A B,
  well_formed s -> f <> FreqNone -> A < B -> spans (s_periods s) (86400 * A) (86400 * B) ->
  exists s' v v', volumes_resample s f true true = Ok s' /\
    contiguous (s_periods s') /\ spans (s_periods s') (86400 * A) (86400 * B) /\
    s_values s' = map Some v' /\ v = map nan_zero (s_values s) /\ qsum v' = qsum v.
Proof.
  intros s f A B Hw Hf HAB Hsp.
  destruct (resample_periods_proof _ _ _ _ Hsp HAB Hf) as (new & En & Hcn & Hsn & _).
  destruct new as [|q qs]; [destruct Hsn as (? & ? & ? & ? & _); discriminate|].
  pose proof (volumes_resample_proof _ _ _ _ _ _ Hw Hf En) as Ev.
  destruct Hw as (Hc & Hne & L).
  do 2 eexists. exists (map (prorated (s_periods s) (s_values s)) (q :: qs)).
  split; [exact Ev|]. cbn [s_periods s_values].
  split; [exact Hcn|]. split; [exact Hsn|]. split; [now rewrite map_map|]. split; [reflexivity|].
  destruct (s_periods s) as [|p ps] eqn:Es; [congruence|].
  destruct (resample_grid _ _ _ _ _ _ _ Hf Hc En) as (d & e & ds & Eq & Hi & _).
  rewrite Eq. rewrite prorated_split by auto.
  apply prorated_whole; auto. intros r Hr.
  destruct (contiguous_within _ _ _ Hc Hsp r Hr) as (Hn & H1 & H2). split; auto. cbn [p_start p_end].
  destruct Hsn as (p0 & q0 & rest & E0 & El & Es0 & Ee0). injection E0 as <- <-.
  rewrite Eq in El.
  assert (p_start q = d) as Esd by (rewrite consecutive_cons2 in Eq; injection Eq as -> _; reflexivity).
  rewrite last_shift. rewrite (last_default _ _ _ _ (mkPeriod d e)) in El || idtac.
  assert (p_end q0 = last ds e).
  { rewrite <- El. rewrite consecutive_cons2. rewrite (last_default _ _ _ _ (mkPeriod d e)).
    rewrite <- consecutive_cons2. apply consecutive_last. }
  lia.
Qed.

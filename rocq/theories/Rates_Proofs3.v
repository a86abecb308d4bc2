From Coq Require Import PeanoNat.
From Verif Require Import QcTac Base BaseLemmas Num Time_Model Time_Spec Time_Proofs Time_Proofs2 Time_Proofs3 Units_Model Units_Proofs Rates_Model Rates_Spec Rates_Proofs Rates_Proofs2.
Local Open Scope Z_scope.

Ltac some2 := match goal with |- Some (Some ?a) = Some (Some ?b) => let E := fresh in cut (a = b); [intros E; rewrite E; reflexivity|] end.

Lemma np_broadcast_same : forall A B C (f : A -> B -> C) l m, length l = length m -> np_broadcast f l m = Ok (map2 f l m).
Proof. intros. unfold np_broadcast. now rewrite H, Nat.eqb_refl. Qed.
Lemma map2_length_eq : forall A B C (f : A -> B -> C) l m, length l = length m -> length (map2 f l m) = length l.
Proof. intros. rewrite map2_length, H. apply Nat.min_id. Qed.
Lemma map2_ext : forall A B C (f g : A -> B -> C) l m, (forall a b, f a b = g a b) -> map2 f l m = map2 g l m.
Proof. intros A B C f g l m H. revert m; induction l as [|a l IH]; intros [|b m]; cbn; auto. now rewrite H, IH. Qed.

Lemma to_stream_day_value_spec : forall r reg, to_stream_day_value r reg =
  match reg with
  | Some g => if Qc_eq_dec g 0 then Some 0%Qc else option_map (fun x => x / g)%Qc r
  | None => None end.
Proof.
  intros r [g|]; unfold to_stream_day_value, nonzero, ndiv, Qceqb; [|now destruct r].
  destruct (Qc_eq_dec g 0); cbn; [reflexivity|]. destruct r; cbn; auto. 
Qed.

Lemma to_calendar_day_eq : forall s, rate_well_formed s ->
  rate_to_calendar_day s = Ok (mkRate (r_periods s) (calendar_rates s) (r_unit s) CALENDAR_DAY (r_regularity s)).
Proof.
  intros [ps vs u ty reg] (Hc & Hne & L1 & L2). cbn in *. unfold rate_to_calendar_day, calendar_rates. cbn.
  destruct ty; [|reflexivity]. unfold rates_to_calendar_day. rewrite np_broadcast_same by congruence. cbn [bind].
  unfold make_rate. rewrite map2_length_eq by congruence. rewrite L1, L2, !Nat.eqb_refl. reflexivity.
Qed.
Lemma to_stream_day_eq : forall s, rate_well_formed s ->
  rate_to_stream_day s = Ok (mkRate (r_periods s) (stream_rates s) (r_unit s) STREAM_DAY (r_regularity s)).
Proof.
  intros [ps vs u ty reg] (Hc & Hne & L1 & L2). cbn in *. unfold rate_to_stream_day, stream_rates. cbn.
  destruct ty; [reflexivity|]. unfold rates_to_stream_day. rewrite np_broadcast_same by congruence. cbn [bind].
  unfold make_rate. rewrite map2_length_eq by congruence. rewrite L1, L2, !Nat.eqb_refl.
  rewrite (map2_ext _ _ _ _ _ _ _ to_stream_day_value_spec). reflexivity.
Qed.
Lemma calendar_rates_length : forall s, rate_well_formed s -> length (calendar_rates s) = length (r_periods s).
Proof.
  intros s (_ & _ & L1 & L2). unfold calendar_rates. destruct (r_type s); auto.
  rewrite map2_length_eq; [exact L1|exact (eq_trans L1 (eq_sym L2))].
Qed.
Lemma stream_rates_length : forall s, rate_well_formed s -> length (stream_rates s) = length (r_periods s).
Proof.
  intros s (_ & _ & L1 & L2). unfold stream_rates. destruct (r_type s); auto.
  rewrite map2_length_eq; [exact L1|exact (eq_trans L1 (eq_sym L2))].
Qed.

(** C09 *)
Lemma nth_error_lt : forall A (l : list A) k, (k < length l)%nat -> exists x, nth_error l k = Some x.
Proof. intros A l k H. apply nth_error_Some in H. destruct (nth_error l k); eauto. congruence. Qed.

Theorem conversion_round_trip_proof : forall s, rate_well_formed s ->
  exists c st, rate_to_calendar_day s = Ok c /\ rate_to_stream_day s = Ok st /\
    rate_well_formed c /\ rate_well_formed st /\
    (exists cs, rate_to_stream_day c = Ok cs /\ forall k g, nth_error (r_regularity s) k = Some (Some g) -> g <> 0%Qc ->
        r_type s = STREAM_DAY -> nth_error (r_values cs) k = nth_error (r_values s) k) /\
    (exists sc, rate_to_calendar_day st = Ok sc /\ forall k g, nth_error (r_regularity s) k = Some (Some g) -> g <> 0%Qc ->
        r_type s = CALENDAR_DAY -> nth_error (r_values sc) k = nth_error (r_values s) k) /\
    (forall k, nth_error (r_regularity s) k = Some (Some 0%Qc) -> r_type s = CALENDAR_DAY ->
        nth_error (r_values st) k = Some (Some 0%Qc)) /\
    (forall k, nth_error (r_regularity s) k = Some (Some 0%Qc) -> r_type s = STREAM_DAY ->
        forall x, nth_error (r_values s) k = Some (Some x) -> nth_error (r_values c) k = Some (Some 0%Qc)).
Proof.
  intros s Hw. pose proof Hw as (Hc & Hne & L1 & L2).
  pose proof (calendar_rates_length _ Hw) as Lc. pose proof (stream_rates_length _ Hw) as Ls.
  rewrite to_calendar_day_eq, to_stream_day_eq by assumption.
  do 2 eexists. split; [reflexivity|]. split; [reflexivity|].
  assert (rate_well_formed (mkRate (r_periods s) (calendar_rates s) (r_unit s) CALENDAR_DAY (r_regularity s))) as W1
    by (repeat split; auto).
  assert (rate_well_formed (mkRate (r_periods s) (stream_rates s) (r_unit s) STREAM_DAY (r_regularity s))) as W2
    by (repeat split; auto).
  split; [exact W1|]. split; [exact W2|].
  split; [|split; [|split]].
  - rewrite to_stream_day_eq by assumption. eexists; split; [reflexivity|]. intros k g Hg Hz Ht. cbn [r_values].
    unfold stream_rates, calendar_rates. cbn [r_type r_values r_regularity]. rewrite Ht.
    rewrite !nth_error_map2, Hg. destruct (nth_error (r_values s) k) as [[x|]|] eqn:Ex; cbn; auto.
    + destruct (Qc_eq_dec g 0); [congruence|]. cbn. some2. field. auto.
    + destruct (Qc_eq_dec g 0); [congruence|]. reflexivity.
  - rewrite to_calendar_day_eq by assumption. eexists; split; [reflexivity|]. intros k g Hg Hz Ht. cbn [r_values].
    unfold stream_rates, calendar_rates. cbn [r_type r_values r_regularity]. rewrite Ht.
    rewrite !nth_error_map2, Hg. destruct (nth_error (r_values s) k) as [[x|]|] eqn:Ex; cbn; auto;
    destruct (Qc_eq_dec g 0); try congruence; cbn; auto. some2. field. auto.
  - intros k Hg Ht. cbn [r_values]. unfold stream_rates. rewrite Ht, nth_error_map2, Hg.
    destruct (nth_error_lt _ (r_values s) k) as [x ->].
    + rewrite L1, <- L2. apply nth_error_Some. congruence.
    + now destruct (Qc_eq_dec 0 0).
  - intros k Hg Ht x Hx. cbn [r_values]. unfold calendar_rates. rewrite Ht, nth_error_map2, Hg, Hx. cbn.
    do 2 f_equal. ring.
Qed.

Lemma days_period : forall p, days (p_start p) (p_end p) = (qz (seconds p) / qz 86400)%Qc.
Proof. reflexivity. Qed.

Lemma rates_to_volumes_eq : forall rs ps, length rs = length ps ->
  rates_to_volumes rs ps = Ok (map2 rate_volume rs ps).
Proof.
  intros rs ps L. unfold rates_to_volumes. rewrite np_broadcast_same by now rewrite map_length.
  f_equal. clear L. revert ps; induction rs as [|r rs IH]; intros [|p ps]; cbn; auto.
  rewrite <- IH. now destruct r.
Qed.

Theorem volumes_either_proof : forall s vu, rate_well_formed s -> rate_to_volume (r_unit s) = Ok vu ->
  rate_to_volumes s =
    Ok (mkSeries (r_periods s)
          (map2 rate_volume (calendar_rates s) (r_periods s)) vu) /\
  forall st v v' k g, rate_to_stream_day s = Ok st -> rate_to_volumes s = Ok v -> rate_to_volumes st = Ok v' ->
    nth_error (r_regularity s) k = Some (Some g) -> g <> 0%Qc ->
    nth_error (s_values v') k = nth_error (s_values v) k.
Proof.
  intros s vu Hw Hu. pose proof Hw as (Hc & Hne & L1 & L2).
  pose proof (calendar_rates_length _ Hw) as Lc. pose proof (stream_rates_length _ Hw) as Ls.
  assert (forall s, rate_well_formed s -> rate_to_volume (r_unit s) = Ok vu ->
    rate_to_volumes s =
    Ok (mkSeries (r_periods s)
          (map2 rate_volume (calendar_rates s) (r_periods s)) vu)) as G.
  { clear. intros s Hw Hu. pose proof (calendar_rates_length _ Hw) as Lc.
    unfold rate_to_volumes. rewrite to_calendar_day_eq by assumption. cbn [bind r_values].
    rewrite rates_to_volumes_eq by assumption. cbn [bind]. rewrite Hu. cbn [bind]. unfold make_series.
    rewrite map2_length_eq by assumption. now rewrite Lc, Nat.eqb_refl. }
  split; [auto|]. intros st v v' k g Est Ev Ev' Hg Hz.
  rewrite to_stream_day_eq in Est by assumption. injection Est as <-.
  rewrite G in Ev by auto. injection Ev as <-.
  rewrite G in Ev'; [|repeat split; auto|exact Hu]. injection Ev' as <-. cbn [s_values r_periods].
  rewrite !nth_error_map2.
  assert (nth_error (calendar_rates (mkRate (r_periods s) (stream_rates s) (r_unit s) STREAM_DAY (r_regularity s))) k
          = nth_error (calendar_rates s) k) as ->; [|reflexivity].
  unfold calendar_rates, stream_rates. cbn [r_type r_values r_regularity]. destruct (r_type s); auto.
  rewrite !nth_error_map2, Hg. destruct (nth_error (r_values s) k) as [[x|]|]; auto;
  destruct (Qc_eq_dec g 0); try congruence; cbn; auto. some2. field; auto.
Qed.

(** C11 *)
Lemma volume_in_prorated : forall ps rs q, length rs = length ps -> contiguous ps ->
  prorated ps (map2 rate_volume rs ps) q = volume_in ps rs q.
Proof.
  unfold prorated, volume_in, qsum. induction ps as [|p ps IH]; intros [|r rs] q L Hc; try discriminate; auto.
  destruct Hc as (Hp & _ & Hc). unfold nonempty in Hp.
  assert (qz (seconds p) <> 0%Qc) by (apply qz_nonzero; unfold seconds; lia).
  assert (qz 86400 <> 0%Qc) by (apply qz_nonzero; lia).
  cbn [map2 fold_right]. rewrite IH by (auto; now injection L). destruct r as [x|]; cbn [option_map nan_zero].
  - cbn [rate_volume option_map nan_zero]. f_equal. field. split; assumption.
  - cbn [rate_volume option_map nan_zero]. unfold Qcdiv. ring.
Qed.

Lemma resampled_volumes_eq : forall p ps rs u f is ie q qs,
  contiguous (p :: ps) -> length rs = length (p :: ps) -> f <> FreqNone ->
  resample_periods (p :: ps) f is ie = Ok (q :: qs) ->
  resampled_volumes rs (p :: ps) u f is ie =
  Ok (mkSeries (q :: qs) (map (fun r => Some (volume_in (p :: ps) rs r)) (q :: qs)) u).
Proof.
  intros p ps rs u f is ie q qs Hc L Hf H. unfold resampled_volumes, cumulative_from_daily_rates.
  destruct rs as [|r0 rs0]; [discriminate|]. remember (r0 :: rs0) as rs eqn:Ers.
  rewrite rates_to_volumes_eq by assumption. cbn [bind].
  set (vols := map2 _ rs (p :: ps)).
  assert (length vols = length (p :: ps)) as Lv by (unfold vols; rewrite map2_length_eq; auto).
  unfold compute_cumulative. unfold make_series at 1. rewrite nancumsum_length, Lv, Nat.eqb_refl. cbn [bind].
  rewrite nancumsum_runsum. rewrite (cumulative_resample_core _ _ _ _ _ _ _ q qs); auto; [|now rewrite map_length].
  cbn [bind]. unfold cumulative_to_volumes. cbn [s_periods s_values s_unit].
  rewrite np_diff_runsum. unfold make_series. rewrite !map_length, Nat.eqb_refl.
  do 2 f_equal. rewrite map_map. apply map_ext. intros r. f_equal. rewrite prorated_nan_zero.
  unfold vols. now apply volume_in_prorated.
Qed.

Lemma date_diffs_consecutive : forall ts x, date_diffs (x :: ts) = map (fun q => days (p_start q) (p_end q)) (consecutive (x :: ts)).
Proof.
  induction ts as [|t ts IH]; intros x; [reflexivity|]. rewrite consecutive_cons2. cbn [map].
  rewrite <- IH. reflexivity.
Qed.

Lemma average_volume : forall ps rs q, p_start q < p_end q ->
  (volume_in ps rs q / days (p_start q) (p_end q))%Qc = average ps rs q.
Proof.
  intros ps rs q H. rewrite days_period. unfold average, volume_in.
  assert (qz (seconds q) <> 0%Qc) by (apply qz_nonzero; unfold seconds; lia).
  assert (qz 86400 <> 0%Qc) by (apply qz_nonzero; lia).
  assert (qsum (map2 (fun p r => nan_zero r * (qz (overlap p q) / qz 86400))%Qc ps rs) =
          qsum (map2 (fun p r => nan_zero r * qz (overlap p q))%Qc ps rs) / qz 86400)%Qc as ->.
  { unfold qsum. revert rs; induction ps as [|p ps IH]; intros [|r rs]; cbn [map2 fold_right]; try (field; assumption).
    rewrite IH. field. assumption. }
  field. repeat split; assumption.
Qed.

Lemma mapM_map_Ok : forall A B (f : A -> result B) g l, (forall x, In x l -> f x = Ok (g x)) -> mapM f l = Ok (map g l).
Proof.
  intros A B f g l H; induction l as [|x l IH]; cbn; auto. rewrite H by now left. cbn. rewrite IH; auto.
  intros; apply H; now right.
Qed.

Lemma volumes_to_rate_eq : forall d e ds (g : period -> Qc) u ru reg, increasing (d :: e :: ds) ->
  volume_to_rate u = Ok ru -> length reg = length (consecutive (d :: e :: ds)) ->
  volumes_to_rate (mkSeries (consecutive (d :: e :: ds)) (map (fun r => Some (g r)) (consecutive (d :: e :: ds))) u) reg =
  Ok (mkRate (consecutive (d :: e :: ds)) (map (fun r => Some (g r / days (p_start r) (p_end r))%Qc) (consecutive (d :: e :: ds)))
         ru CALENDAR_DAY reg).
Proof.
  intros d e ds g u ru reg Hi Hu L. unfold volumes_to_rate, s_all_dates. cbn [s_periods s_values s_unit].
  assert (all_dates (consecutive (d :: e :: ds)) = Ok (d :: e :: ds)) as ->.
  { rewrite consecutive_cons2, all_dates_of, <- consecutive_cons2, consecutive_dates. reflexivity. }
  cbn [bind]. rewrite date_diffs_consecutive.
  pose proof (consecutive_contiguous _ Hi) as Hc.
  set (l := consecutive (d :: e :: ds)) in *.
  assert (zip (map (fun r => Some (g r) : num) l) (map (fun q => days (p_start q) (p_end q)) l) =
          map (fun r => (Some (g r) : num, days (p_start r) (p_end r))) l) as ->.
  { unfold zip. clear. induction l as [|x l IH]; cbn; auto. now rewrite IH. }
  assert (mapM (fun vd : num * Qc => py_div (fst vd) (snd vd)) (map (fun r => (Some (g r) : num, days (p_start r) (p_end r))) l)
          = Ok (map (fun r => Some (g r / days (p_start r) (p_end r))%Qc : num) l)) as ->.
  { assert (forall r, In r l -> nonempty r) as Hn by (intros r Hr; eapply contiguous_nonempty; eauto).
    clear - Hn. induction l as [|x l IH]; [reflexivity|]. cbn [map mapM fst snd].
    unfold py_div at 1. replace (Qceqb (days (p_start x) (p_end x)) 0) with false.
    - cbn [bind option_map]. rewrite IH by (intros; apply Hn; now right). reflexivity.
    - symmetry. apply Qceqb_neq. specialize (Hn x (or_introl eq_refl)). unfold nonempty in Hn.
      unfold days. intros E. assert (qz 86400 <> 0%Qc) by (apply qz_nonzero; lia).
      assert (qz (p_end x - p_start x) <> 0%Qc) as W by (apply qz_nonzero; lia). apply W.
      transitivity (qz (p_end x - p_start x) / qz 86400 * qz 86400)%Qc; [field; assumption|]. rewrite E. ring. }
  cbn [bind]. rewrite Hu. cbn [bind]. unfold make_rate. rewrite map_length, L, !Nat.eqb_refl. reflexivity.
Qed.

Definition reg_of (s : rate_series) (q : period) : Qc :=
  ratio (volume_in (r_periods s) (calendar_rates s) q) (volume_in (r_periods s) (stream_rates s) q).

Lemma rate_resample_eq : forall s f is ie q qs vu,
  rate_well_formed s -> f <> FreqNone -> resample_periods (r_periods s) f is ie = Ok (q :: qs) ->
  rate_to_volume (r_unit s) = Ok vu ->
  rate_resample s f is ie =
  Ok (mkRate (q :: qs)
       (map (fun r => match r_type s with
                      | CALENDAR_DAY => Some (average (r_periods s) (calendar_rates s) r)
                      | STREAM_DAY => to_stream_day_value (Some (average (r_periods s) (calendar_rates s) r)) (Some (reg_of s r))
                      end) (q :: qs))
       (r_unit s) (r_type s) (map (fun r => Some (reg_of s r)) (q :: qs))).
Proof.
  intros s f is ie q qs vu Hw Hf H Hu. pose proof Hw as (Hc & Hne & L1 & L2).
  pose proof (calendar_rates_length _ Hw) as Lc. pose proof (stream_rates_length _ Hw) as Ls.
  destruct (volumes_either_proof s vu Hw Hu) as [Ev _].
  pose proof (proj1 (rate_volume_unit_proof _ _) Hu) as Hru.
  destruct (r_periods s) as [|p ps] eqn:Eps; [congruence|].
  destruct (resample_grid _ _ _ _ _ _ _ Hf Hc H) as (d & e & ds & Eq & Hi & _).
  assert (contiguous (q :: qs)) as Hcn by (rewrite Eq; now apply consecutive_contiguous).
  assert (forall u r, r = calendar_rates s \/ r = stream_rates s ->
    resampled_volumes r (p :: ps) u f is ie = Ok (mkSeries (q :: qs) (map (fun x => Some (volume_in (p :: ps) r x)) (q :: qs)) u)) as R.
  { intros u r Hr. apply resampled_volumes_eq; auto. destruct Hr as [->| ->]; auto. }
  assert (map (fun cs => new_regularity_value (fst cs) (snd cs))
           (zip (map (fun x => Some (volume_in (p :: ps) (calendar_rates s) x)) (q :: qs))
                (map (fun x => Some (volume_in (p :: ps) (stream_rates s) x)) (q :: qs)))
          = map (fun r => Some (reg_of s r)) (q :: qs)) as Ereg.
  { generalize (q :: qs) as l. induction l as [|x l IH]; [reflexivity|]. cbn [map zip combine]. f_equal; [|exact IH].
    cbn [fst snd]. unfold new_regularity_value, nonzero, reg_of, ratio. rewrite Eps. unfold Qceqb.
    destruct (Qc_eq_dec (volume_in (p :: ps) (stream_rates s) x) 0); cbn [negb]; [reflexivity|].
    unfold ndiv. unfold Qceqb. destruct (Qc_eq_dec _ _); [congruence|reflexivity]. }
  unfold rate_resample.
  destruct f; [congruence| | |];
  (rewrite Ev; cbn [bind]; rewrite to_calendar_day_eq, to_stream_day_eq by assumption;
   cbn [bind r_values s_unit]; rewrite Eps; rewrite !R by auto; cbn [bind s_values]; cbv zeta; rewrite Ereg;
   rewrite Eq; rewrite (volumes_to_rate_eq d e ds _ vu (r_unit s)) by (auto; now rewrite map_length);
   cbn [bind]; rewrite <- Eq;
   rewrite (map_ext_in (fun r => Some (volume_in (p :: ps) (calendar_rates s) r / days (p_start r) (p_end r))%Qc)
                       (fun r => Some (average (p :: ps) (calendar_rates s) r)))
     by (intros r Hr; f_equal; apply average_volume; exact (contiguous_nonempty _ _ Hcn Hr));
   destruct (r_type s); [|reflexivity];
   unfold rate_to_stream_day; cbn [r_type r_values r_regularity r_periods r_unit]; unfold rates_to_stream_day;
   rewrite np_broadcast_same by (now rewrite !map_length); cbn [bind]; unfold make_rate;
   rewrite map2_length_eq by (now rewrite !map_length); rewrite !map_length, !Nat.eqb_refl; cbn [andb];
   do 2 f_equal; generalize (q :: qs) as l; induction l as [|x l IH]; [reflexivity|]; cbn [map map2]; now rewrite IH).
Qed.

Lemma volume_average : forall ps rs q, p_start q < p_end q ->
  volume_in ps rs q = (average ps rs q * (qz (seconds q) / qz 86400))%Qc.
Proof.
  intros ps rs q H. rewrite <- average_volume by assumption. rewrite days_period.
  assert (qz (seconds q) <> 0%Qc) by (apply qz_nonzero; unfold seconds; lia).
  assert (qz 86400 <> 0%Qc) by (apply qz_nonzero; lia). field. split; assumption.
Qed.

Theorem rate_resample_proof : forall s f is ie q qs vu,
  rate_well_formed s -> f <> FreqNone -> resample_periods (r_periods s) f is ie = Ok (q :: qs) ->
  rate_to_volume (r_unit s) = Ok vu ->
  exists s', rate_resample s f is ie = Ok s' /\
    r_periods s' = q :: qs /\ r_unit s' = r_unit s /\ r_type s' = r_type s /\ rate_well_formed s' /\
    forall k r, nth_error (q :: qs) k = Some r ->
      let vcal := volume_in (r_periods s) (calendar_rates s) r in
      let vstr := volume_in (r_periods s) (stream_rates s) r in
      nth_error (r_regularity s') k = Some (Some (ratio vcal vstr)) /\
      (r_type s = CALENDAR_DAY \/ vstr <> 0%Qc \/ vcal = 0%Qc ->
       nth_error (calendar_rates s') k = Some (Some (average (r_periods s) (calendar_rates s) r))) /\
      (vcal <> 0%Qc \/ vstr = 0%Qc ->
       nth_error (stream_rates s') k = Some (Some (average (r_periods s) (stream_rates s) r))).
Proof.
  intros s f is ie q qs vu Hw Hf H Hu.
  eexists. split; [eapply rate_resample_eq; eauto|]. cbn [r_periods r_unit r_type].
  pose proof Hw as (Hc & Hne & L1 & L2).
  assert (contiguous (q :: qs)) as Hcn.
  { destruct (r_periods s) as [|p ps]; [congruence|].
    destruct (resample_grid _ _ _ _ _ _ _ Hf Hc H) as (d & e & ds & Eq & Hi & _).
    rewrite Eq; now apply consecutive_contiguous. }
  do 3 (split; [reflexivity|]).
  split; [split; [exact Hcn|split; [discriminate|split; apply map_length]]|].
  intros k r Hk. cbv zeta. cbn [r_regularity].
  pose proof (contiguous_nonempty _ _ Hcn (nth_error_In _ _ Hk)) as Hn. unfold nonempty in Hn.
  assert (qz (seconds r) <> 0%Qc) as Hs by (apply qz_nonzero; unfold seconds; lia).
  assert (qz 86400 <> 0%Qc) as Hd by (apply qz_nonzero; lia).
  pose proof (volume_average (r_periods s) (calendar_rates s) r Hn) as Vc.
  pose proof (volume_average (r_periods s) (stream_rates s) r Hn) as Vs.
  set (vcal := volume_in (r_periods s) (calendar_rates s) r) in *.
  set (vstr := volume_in (r_periods s) (stream_rates s) r) in *.
  set (ac := average (r_periods s) (calendar_rates s) r) in *.
  set (as_ := average (r_periods s) (stream_rates s) r) in *.
  assert (reg_of s r = ratio vcal vstr) as Er by reflexivity.
  assert (vcal = 0%Qc -> ac = 0%Qc) as Zc.
  { intros E. rewrite E in Vc. transitivity (ac * (qz (seconds r) / qz 86400) * qz 86400 / qz (seconds r))%Qc;
    [field; split; assumption|]. rewrite <- Vc. unfold Qcdiv; ring. }
  assert (vstr = 0%Qc -> as_ = 0%Qc) as Zs.
  { intros E. rewrite E in Vs. transitivity (as_ * (qz (seconds r) / qz 86400) * qz 86400 / qz (seconds r))%Qc;
    [field; split; assumption|]. rewrite <- Vs. unfold Qcdiv; ring. }
  split; [rewrite nth_error_map, Hk; reflexivity|]. 
  unfold calendar_rates at 1, stream_rates at 1. cbn [r_type r_values r_regularity].
  assert (vcal <> 0%Qc -> vstr <> 0%Qc -> ac / (vcal / vstr) = as_)%Qc as Q.
  { intros N1 N2. assert (ac <> 0%Qc) as N3 by (intros E; apply N1; rewrite Vc, E; ring).
    rewrite Vc, Vs. rewrite Vs in N2. assert (as_ <> 0%Qc) by (intros E; apply N2; rewrite E; ring).
    field. repeat split; assumption. }
  assert (vcal <> 0%Qc -> vstr <> 0%Qc -> (vcal / vstr)%Qc <> 0%Qc) as N.
  { intros N1 N2 E. apply N1. transitivity (vcal / vstr * vstr)%Qc; [field; assumption|]. rewrite E. ring. }
  split; intros Hcase; destruct (r_type s);
    rewrite ?nth_error_map2, !nth_error_map, Hk; cbn [option_map]; rewrite ?Er, ?to_stream_day_value_spec; fold ac;
    unfold ratio; try reflexivity;
    destruct (Qc_eq_dec vstr 0) as [E1|E1]; destruct (Qc_eq_dec 0 0) as [E0|E0]; try congruence;
    cbn [option_map nmul num_lift2].
  - destruct Hcase as [?|[?|E]]; [discriminate|congruence|]. do 2 f_equal. rewrite Zc by assumption. ring.
  - destruct (Qc_eq_dec (vcal / vstr) 0) as [E2|E2]; cbn [num_lift2 nmul]; do 2 f_equal.
    + destruct (Qc_eq_dec vcal 0) as [E3|E3]; [|elim (N E3 E1 E2)]. rewrite Zc by assumption. ring.
    + assert (vcal <> 0%Qc) by (intros E; apply E2; rewrite E; unfold Qcdiv; ring). field. repeat split; assumption.
  - do 2 f_equal. symmetry. auto.
  - destruct Hcase as [E|E]; [|congruence].
    destruct (Qc_eq_dec (vcal / vstr) 0) as [E2|E2]; [elim (N E E1 E2)|]. do 2 f_equal. auto.
  - do 2 f_equal. symmetry. auto.
  - destruct Hcase as [E|E]; [|congruence].
    destruct (Qc_eq_dec (vcal / vstr) 0) as [E2|E2]; [elim (N E E1 E2)|]. do 2 f_equal. auto.
Qed.

(** with non-negative rates and regularities nothing is lost *)

Lemma qz_nonneg : forall z, 0 <= z -> (0 <= qz z)%Qc.
Proof. intros z H. change 0%Qc with (qz 0). exact (proj1 (qz_le 0 z) H). Qed.
Lemma overlap_nonneg : forall p q, 0 <= overlap p q.
Proof. intros. unfold overlap. lia. Qed.
Lemma term_nonneg : forall x p q, (0 <= x -> 0 <= x * (qz (overlap p q) / qz 86400))%Qc.
Proof.
  intros x p q H. pose proof (qz_nonneg _ (overlap_nonneg p q)) as Ho.
  unfold Qcdiv. assert (0 <= / qz 86400)%Qc as H2 by (vm_compute; discriminate).
  set (o := qz (overlap p q)) in *. set (d := (/ qz 86400)%Qc) in *. 
  assert (0 <= o * d)%Qc by qc_nra. qc_nra.
Qed.
Lemma volume_zero_cal : forall ps vs regs q, length vs = length ps -> length regs = length ps ->
  num_nonneg vs -> volume_in ps vs q = 0%Qc -> volume_in ps (map2 nmul vs regs) q = 0%Qc.
Proof.
  unfold volume_in, qsum. induction ps as [|p ps IH]; intros [|v vs] [|g regs] q L1 L2 H E; try discriminate; auto.
  cbn [map2 fold_right] in *.
  assert (0 <= fold_right Qcplus 0 (map2 (fun p r => nan_zero r * (qz (overlap p q) / qz 86400)) ps vs))%Qc as N.
  { clear - H. assert (num_nonneg vs) as H' by (intros x Hx; apply H; now right). clear H. revert vs H'.
    clear v. induction ps as [|p ps IH]; intros [|v vs] H'; cbn [map2 fold_right]; try apply Qcle_refl.
    specialize (IH vs (fun x Hx => H' x (or_intror Hx))).
    assert (0 <= nan_zero v)%Qc as Hv by (destruct v as [x|]; cbn; [apply H'; now left|apply Qcle_refl]).
    pose proof (term_nonneg _ p q Hv). qc_lra. }
  assert (0 <= nan_zero v)%Qc as Hv by (destruct v as [x|]; cbn; [apply H; now left|apply Qcle_refl]).
  pose proof (term_nonneg _ p q Hv) as T.
  rewrite IH; auto; [|intros x Hx; apply H; now right|qc_lra].
  assert (nan_zero v * (qz (overlap p q) / qz 86400) = 0)%Qc as E0 by qc_lra.
  destruct v as [x|], g as [g|]; cbn [nmul num_lift2 nan_zero] in *; try ring.
  replace (x * g * (qz (overlap p q) / qz 86400))%Qc with (g * (x * (qz (overlap p q) / qz 86400)))%Qc by ring.
  rewrite E0. ring.
Qed.

Theorem rate_resample_volumes_proof : forall s f is ie q qs vu,
  rate_well_formed s -> f <> FreqNone -> resample_periods (r_periods s) f is ie = Ok (q :: qs) ->
  rate_to_volume (r_unit s) = Ok vu -> (r_type s = STREAM_DAY -> num_nonneg (r_values s)) ->
  exists s' v', rate_resample s f is ie = Ok s' /\ rate_to_volumes s' = Ok v' /\
    s_periods v' = q :: qs /\ s_unit v' = vu /\
    s_values v' = map (fun r => Some (volume_in (r_periods s) (calendar_rates s) r)) (q :: qs).
Proof.
  intros s f is ie q qs vu Hw Hf H Hu Hnn.
  destruct (rate_resample_proof _ _ _ _ _ _ _ Hw Hf H Hu) as (s' & E & Ep & Eu & Et & Hw' & Hk).
  exists s'. rewrite <- Eu in Hu. destruct (volumes_either_proof s' vu Hw' Hu) as [Ev _].
  eexists. split; [exact E|]. split; [exact Ev|]. cbn [s_periods s_unit s_values].
  rewrite Ep. split; [reflexivity|]. split; [reflexivity|].
  pose proof Hw' as (Hc' & _). rewrite Ep in Hc'.
  apply list_ext_nth. intros k. rewrite nth_error_map2, nth_error_map.
  destruct (nth_error (q :: qs) k) as [r|] eqn:Ek; [|destruct (nth_error (calendar_rates s') k); reflexivity].
  destruct (Hk k r Ek) as (_ & Hc & _). rewrite Hc.
  - cbn [option_map rate_volume]. do 2 f_equal. symmetry. apply volume_average. exact (contiguous_nonempty _ _ Hc' (nth_error_In _ _ Ek)).
  - destruct (r_type s) eqn:Ty; [|now left]. right.
    destruct (Qc_eq_dec (volume_in (r_periods s) (stream_rates s) r) 0) as [E0|E0]; [right|now left].
    unfold calendar_rates, stream_rates in *. rewrite Ty in *.
    destruct Hw as (_ & _ & L1 & L2). apply volume_zero_cal; auto.
Qed.

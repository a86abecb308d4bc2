(** C09-C17: volumes and rates over time. *)
From Coq Require Import PeanoNat.
From Verif Require Import QcTac Base BaseLemmas Num Time_Model Time_Spec Units_Model Rates_Model Rates_Spec.
From Verif Require Import Rates_Proofs Rates_Proofs2 Rates_Proofs3 Rates_Proofs4 Rates_Proofs5 Rates_Proofs6.
Local Open Scope Z_scope.

(** dates of the examples *)
Definition d2020 := 86400 * date_day 2020 1 1.
Definition d2020_07 := 86400 * date_day 2020 7 1.
Definition d2021 := 86400 * date_day 2021 1 1.
Definition d2022 := 86400 * date_day 2022 1 1.
Definition two_periods := [mkPeriod d2020 d2020_07; mkPeriod d2020_07 d2022].

(** C09: there and back again is the identity where the regularity is not zero; where it is zero the rate is zero on the
    other side. *)
Theorem C09_round_trip : forall s, rate_well_formed s ->
  exists c st, rate_to_calendar_day s = Ok c /\ rate_to_stream_day s = Ok st /\
    rate_well_formed c /\ rate_well_formed st /\
    (exists cs, rate_to_stream_day c = Ok cs /\ forall k g, nth_error (r_regularity s) k = Some (Some g) -> g <> 0%Qc ->
        r_type s = STREAM_DAY -> nth_error (r_values cs) k = nth_error (r_values s) k) /\
    (exists sc, rate_to_calendar_day st = Ok sc /\ forall k g, nth_error (r_regularity s) k = Some (Some g) -> g <> 0%Qc ->
        r_type s = CALENDAR_DAY -> nth_error (r_values sc) k = nth_error (r_values s) k) /\
    (forall k, nth_error (r_regularity s) k = Some (Some 0%Qc) -> r_type s = CALENDAR_DAY ->
        nth_error (r_values st) k = Some (Some 0%Qc)) /\
    (forall k, nth_error (r_regularity s) k = Some (Some 0%Qc) -> r_type s = STREAM_DAY ->
        forall x, nth_error (r_values s) k = Some (Some x) -> nth_error (r_values c) k = Some (Some 0%Qc)).
Proof. exact conversion_round_trip_proof. Qed.
Print Assumptions C09_round_trip.

(** C09: the volume of a period is its calendar-day rate times its days, from either representation. *)
Theorem C09_volumes : forall s vu, rate_well_formed s -> rate_to_volume (r_unit s) = Ok vu ->
  rate_to_volumes s =
    Ok (mkSeries (r_periods s)
          (map2 rate_volume (calendar_rates s) (r_periods s)) vu) /\
  forall st v v' k g, rate_to_stream_day s = Ok st -> rate_to_volumes s = Ok v -> rate_to_volumes st = Ok v' ->
    nth_error (r_regularity s) k = Some (Some g) -> g <> 0%Qc ->
    nth_error (s_values v') k = nth_error (s_values v) k.
Proof. exact volumes_either_proof. Qed.
Print Assumptions C09_volumes.

Definition rate_case := mkRate two_periods [Some (qz 10); Some (qz 20)] KILO_PER_DAY STREAM_DAY [Some (qc 1 2); Some 0%Qc].
Lemma two_periods_contiguous : contiguous two_periods.
Proof. repeat split; vm_compute; reflexivity. Qed.
Lemma two_periods_span : spans two_periods d2020 d2022.
Proof. do 3 eexists. repeat split; reflexivity. Qed.
Lemma rate_case_wf : rate_well_formed rate_case.
Proof. split; [exact two_periods_contiguous|]. repeat split; discriminate. Qed.
Example C09_case : rate_well_formed rate_case /\ rate_to_volume (r_unit rate_case) = Ok KILO /\
  exists c v, rate_to_calendar_day rate_case = Ok c /\ r_values c = [Some (qz 5); Some 0%Qc] /\
    rate_to_volumes rate_case = Ok v /\ s_values v = [Some (qz 910); Some 0%Qc].
Proof.
  split; [exact rate_case_wf|]. split; [reflexivity|]. do 2 eexists. split; [reflexivity|]. split; [num_compute|].
  split; [vm_compute; reflexivity|]. num_compute.
Qed.

(** C10: a resampled volume is the volume of the original periods prorated by time. *)
Theorem C10_volumes_prorated : forall s f is ie q qs,
  well_formed s -> f <> FreqNone -> resample_periods (s_periods s) f is ie = Ok (q :: qs) ->
  volumes_resample s f is ie =
  Ok (mkSeries (q :: qs) (map (fun r => Some (prorated (s_periods s) (s_values s) r)) (q :: qs)) (s_unit s)).
Proof. exact volumes_resample_proof. Qed.
Print Assumptions C10_volumes_prorated.

(** C10: a resampled cumulative volume is the sum of the prorated volumes so far. *)
Theorem C10_cumulative_prorated : forall s f is ie q qs c vols,
  well_formed s -> s_values s = map Some c -> f <> FreqNone ->
  resample_periods (s_periods s) f is ie = Ok (q :: qs) ->
  cumulative_to_volumes s = Ok vols ->
  exists s', cumulative_resample s f is ie = Ok s' /\ s_periods s' = q :: qs /\ s_unit s' = s_unit s /\
    length (s_values s') = length (q :: qs) /\
    forall k, (k < length (q :: qs))%nat ->
      nth_error (s_values s') k =
      Some (Some (qsum (map (prorated (s_periods s) (s_values vols)) (firstn (S k) (q :: qs))))).
Proof. exact cumulative_resample_proof. Qed.
Print Assumptions C10_cumulative_prorated.

(** C10: with both ends included and the series starting and ending at midnight nothing is lost. *)
Theorem C10_volumes_conserved : forall s f A B,
  well_formed s -> f <> FreqNone -> A < B -> spans (s_periods s) (86400 * A) (86400 * B) ->
  exists s' v v', volumes_resample s f true true = Ok s' /\
    contiguous (s_periods s') /\ spans (s_periods s') (86400 * A) (86400 * B) /\
    s_values s' = map Some v' /\ v = map nan_zero (s_values s) /\ qsum v' = qsum v.
Proof. exact volumes_conserved_proof. Qed.
Print Assumptions C10_volumes_conserved.

Definition volume_case := mkSeries two_periods [Some (qz 182); Some (qz 549)] KILO.
Example C10_case : well_formed volume_case /\
  resample_periods (s_periods volume_case) FreqYear true true = Ok [mkPeriod d2020 d2021; mkPeriod d2021 d2022] /\
  spans (s_periods volume_case) (86400 * date_day 2020 1 1) (86400 * date_day 2022 1 1) /\
  exists s', volumes_resample volume_case FreqYear true true = Ok s' /\ s_values s' = [Some (qz 366); Some (qz 365)].
Proof.
  split; [split; [exact two_periods_contiguous|split; [discriminate|reflexivity]]|].
  split; [vm_compute; reflexivity|]. split; [exact two_periods_span|].
  eexists. split; [vm_compute; reflexivity|]. num_compute.
Qed.

(** C11: a resampled rate is the time-weighted average, its regularity the ratio of the volumes.  The stream-day average
    is kept unless the calendar-day volume is zero while the stream-day volume is not. *)
Theorem C11_average : forall s f is ie q qs vu,
  rate_well_formed s -> f <> FreqNone -> resample_periods (r_periods s) f is ie = Ok (q :: qs) ->
  rate_to_volume (r_unit s) = Ok vu ->
  exists s', rate_resample s f is ie = Ok s' /\
    r_periods s' = q :: qs /\ r_unit s' = r_unit s /\ r_type s' = r_type s /\ rate_well_formed s' /\
    forall k r, nth_error (q :: qs) k = Some r ->
      let vcal := volume_in (r_periods s) (calendar_rates s) r in
      let vstr := volume_in (r_periods s) (stream_rates s) r in
      nth_error (r_regularity s') k = Some (Some (ratio vcal vstr)) /\
      (r_type s = CALENDAR_DAY \/ vstr <> 0%Qc \/ vcal = 0%Qc ->
       nth_error (calendar_rates s') k = Some (Some (average (r_periods s) (calendar_rates s) r))) /\
      (vcal <> 0%Qc \/ vstr = 0%Qc ->
       nth_error (stream_rates s') k = Some (Some (average (r_periods s) (stream_rates s) r))).
Proof. exact rate_resample_proof. Qed.
Print Assumptions C11_average.

(** C11: the volume of a resampled rate is the volume of the original rates in the new period. *)
Theorem C11_volumes : forall s f is ie q qs vu,
  rate_well_formed s -> f <> FreqNone -> resample_periods (r_periods s) f is ie = Ok (q :: qs) ->
  rate_to_volume (r_unit s) = Ok vu -> (r_type s = STREAM_DAY -> num_nonneg (r_values s)) ->
  exists s' v', rate_resample s f is ie = Ok s' /\ rate_to_volumes s' = Ok v' /\
    s_periods v' = q :: qs /\ s_unit v' = vu /\
    s_values v' = map (fun r => Some (volume_in (r_periods s) (calendar_rates s) r)) (q :: qs).
Proof. exact rate_resample_volumes_proof. Qed.
Print Assumptions C11_volumes.

(** C11: where the calendar-day volume is zero (regularity zero) the stream-day average is lost. *)
Theorem C11_stream_average_refuted : exists s s' q, rate_well_formed s /\ rate_resample s FreqYear true true = Ok s' /\
  r_type s = STREAM_DAY /\ nth_error (r_periods s') 0 = Some q /\
  average (r_periods s) (stream_rates s) q = qz 5 /\ nth_error (stream_rates s') 0 = Some (Some 0%Qc).
Proof.
  exists (mkRate [mkPeriod d2020 d2021] [Some (qz 5)] KILO_PER_DAY STREAM_DAY [Some 0%Qc]).
  do 2 eexists. split; [repeat split; try discriminate; vm_compute; reflexivity|].
  split; [vm_compute; reflexivity|]. split; [reflexivity|]. split; [reflexivity|]. split; [num_compute|].
  cbn [stream_rates r_type r_values nth_error]. apply f_equal. num_compute.
Qed.
Print Assumptions C11_stream_average_refuted.
Example C11_case : rate_well_formed rate_case /\
  resample_periods (r_periods rate_case) FreqYear true true = Ok [mkPeriod d2020 d2021; mkPeriod d2021 d2022] /\
  rate_to_volume (r_unit rate_case) = Ok KILO /\ num_nonneg (r_values rate_case) /\
  volume_in (r_periods rate_case) (calendar_rates rate_case) (mkPeriod d2020 d2021) = qz 910 /\
  volume_in (r_periods rate_case) (stream_rates rate_case) (mkPeriod d2020 d2021) = qz 5500.
Proof.
  split; [exact rate_case_wf|]. split; [vm_compute; reflexivity|]. split; [reflexivity|]. split.
  - intros x [H|[H|[]]]; injection H as <-; unfold Qcle; vm_compute; discriminate.
  - split; num_compute.
Qed.

(** C12: cumulative volumes are running sums and give the volumes back. *)
Theorem C12_running_sum : forall s, length (s_values s) = length (s_periods s) ->
  exists c, volumes_cumulative s = Ok (mkSeries (s_periods s) c (s_unit s)) /\
    (forall k, (k < length (s_values s))%nat ->
       nth_error c k = Some (Some (qsum (map nan_zero (firstn (S k) (s_values s)))))) /\
    length c = length (s_values s) /\
    cumulative_to_volumes (mkSeries (s_periods s) c (s_unit s)) =
      Ok (mkSeries (s_periods s) (map (fun v => Some (nan_zero v)) (s_values s)) (s_unit s)).
Proof. exact volumes_cumulative_proof. Qed.
Print Assumptions C12_running_sum.

(** C12: with volumes that are not negative the cumulative volume never decreases. *)
Theorem C12_never_decreases : forall s c i j x y, volumes_cumulative s = Ok c ->
  (forall v, In (Some v) (s_values s) -> (0 <= v)%Qc) -> (i <= j)%nat ->
  nth_error (s_values c) i = Some x -> nth_error (s_values c) j = Some y ->
  exists a b, x = Some a /\ y = Some b /\ (a <= b)%Qc.
Proof. exact cumulative_monotone_proof. Qed.
Print Assumptions C12_never_decreases.

Example C12_case : exists c, volumes_cumulative volume_case = Ok c /\ s_values c = [Some (qz 182); Some (qz 731)] /\
  (forall v, In (Some v) (s_values volume_case) -> (0 <= v)%Qc).
Proof.
  eexists. split; [reflexivity|]. split; [num_compute|].
  intros v [H|[H|[]]]; injection H as <-; unfold Qcle; vm_compute; discriminate.
Qed.

(** C13: two adjacent series are joined in order of time, others are refused. *)
Theorem C13_merge : forall V (a b : series V) a0 a1 b0 b1,
  well_formed a -> well_formed b -> s_unit a = s_unit b ->
  spans (s_periods a) a0 a1 -> spans (s_periods b) b0 b1 ->
  (a1 = b0 -> series_merge a b = Ok (mkSeries (s_periods a ++ s_periods b) (s_values a ++ s_values b) (s_unit a))) /\
  (b1 = a0 -> series_merge a b = Ok (mkSeries (s_periods b ++ s_periods a) (s_values b ++ s_values a) (s_unit a))) /\
  (a1 <> b0 -> b1 <> a0 -> series_merge a b = Err ValueError).
Proof. exact series_merge_proof. Qed.
Print Assumptions C13_merge.

(** C13: the same for extend. *)
Theorem C13_extend : forall V (a b : series V) a0 a1 b0 b1,
  well_formed a -> well_formed b -> s_unit a = s_unit b ->
  spans (s_periods a) a0 a1 -> spans (s_periods b) b0 b1 ->
  (a1 = b0 -> series_extend a b = Ok (mkSeries (s_periods a ++ s_periods b) (s_values a ++ s_values b) (s_unit a))) /\
  (b1 = a0 -> series_extend a b = Ok (mkSeries (s_periods b ++ s_periods a) (s_values b ++ s_values a) (s_unit a))) /\
  (a1 <> b0 -> b1 <> a0 -> series_extend a b = Err ValueError).
Proof. exact series_extend_proof. Qed.
Print Assumptions C13_extend.

(** C13: the same for rates with regularity. *)
Theorem C13_merge_rates : forall a b a0 a1 b0 b1,
  rate_well_formed a -> rate_well_formed b -> r_unit a = r_unit b -> r_type a = r_type b ->
  spans (r_periods a) a0 a1 -> spans (r_periods b) b0 b1 ->
  (a1 = b0 -> rate_merge a b = Ok (mkRate (r_periods a ++ r_periods b) (r_values a ++ r_values b) (r_unit a) (r_type a)
                                     (r_regularity a ++ r_regularity b))) /\
  (b1 = a0 -> rate_merge a b = Ok (mkRate (r_periods b ++ r_periods a) (r_values b ++ r_values a) (r_unit a) (r_type a)
                                     (r_regularity b ++ r_regularity a))) /\
  (a1 <> b0 -> b1 <> a0 -> rate_merge a b = Err ValueError).
Proof. exact rate_merge_proof. Qed.
Print Assumptions C13_merge_rates.

(** C13: the two parts of a series around an inner date give the series back. *)
Theorem C13_split_and_merge : forall V (s : series V) a b t,
  well_formed s -> spans (s_periods s) a b -> is_boundary (s_periods s) t -> a < t < b ->
  exists x y, series_for_period s (mkPeriod a t) = Ok x /\ series_for_period s (mkPeriod t b) = Ok y /\
    spans (s_periods x) a t /\ spans (s_periods y) t b /\ well_formed x /\ well_formed y /\
    series_merge x y = Ok s /\ series_merge y x = Ok s /\ series_extend x y = Ok s /\ series_extend y x = Ok s.
Proof. exact series_split_proof. Qed.
Print Assumptions C13_split_and_merge.

(** C13: the same for rates (extend in order of time only). *)
Theorem C13_split_and_merge_rates : forall s a b t,
  rate_well_formed s -> spans (r_periods s) a b -> is_boundary (r_periods s) t -> a < t < b ->
  exists x y, rate_for_period s (mkPeriod a t) = Ok x /\ rate_for_period s (mkPeriod t b) = Ok y /\
    spans (r_periods x) a t /\ spans (r_periods y) t b /\ rate_well_formed x /\ rate_well_formed y /\
    rate_merge x y = Ok s /\ rate_merge y x = Ok s /\ rate_extend x y = Ok s.
Proof. exact rate_split_proof. Qed.
Print Assumptions C13_split_and_merge_rates.

(** C13: extending a rate series accepts a series that is not adjacent. *)
Theorem C13_extend_rates_gap_refuted : exists a b s,
  rate_well_formed a /\ rate_well_formed b /\
  p_end (last (r_periods a) (mkPeriod 0 0)) <> p_start (hd (mkPeriod 0 0) (r_periods b)) /\
  p_end (last (r_periods b) (mkPeriod 0 0)) <> p_start (hd (mkPeriod 0 0) (r_periods a)) /\
  rate_extend a b = Ok s /\ ~ contiguous (r_periods s).
Proof. exact rate_extend_refuted_proof. Qed.
Print Assumptions C13_extend_rates_gap_refuted.

(** C13: extending the later part of a rate series by the earlier gives periods out of order. *)
Theorem C13_extend_rates_order_refuted : exists s a b t x y z,
  rate_well_formed s /\ spans (r_periods s) a b /\ is_boundary (r_periods s) t /\ a < t < b /\
  rate_for_period s (mkPeriod a t) = Ok x /\ rate_for_period s (mkPeriod t b) = Ok y /\
  rate_extend y x = Ok z /\ ~ contiguous (r_periods z).
Proof. exact rate_extend_order_refuted_proof. Qed.
Print Assumptions C13_extend_rates_order_refuted.

Example C13_case : well_formed volume_case /\ rate_well_formed rate_case /\ spans two_periods d2020 d2022 /\
  is_boundary two_periods d2020_07 /\ d2020 < d2020_07 < d2022.
Proof.
  split; [split; [exact two_periods_contiguous|split; [discriminate|reflexivity]]|]. split; [exact rate_case_wf|].
  split; [exact two_periods_span|]. split; [|split; vm_compute; reflexivity].
  exists (mkPeriod d2020 d2020_07). split; [now left|]. now right.
Qed.

(** C14: the values of the sum, in either representation, are the sums of the values, unless regularities differ and the
    stream-day rates (or calendar-day rates of a calendar-day series) cancel. *)
Theorem C14_sum : forall a b, rate_well_formed a -> rate_well_formed b -> r_periods a = r_periods b ->
  r_unit a = r_unit b -> r_type a = r_type b ->
  exists s, rate_add a b = Ok s /\ r_periods s = r_periods a /\ r_unit s = r_unit a /\ r_type s = r_type a /\
    rate_well_formed s /\
    forall k x y g h ca cb sa sb,
      nth_error (r_values a) k = Some (Some x) -> nth_error (r_values b) k = Some (Some y) ->
      nth_error (r_regularity a) k = Some (Some g) -> nth_error (r_regularity b) k = Some (Some h) ->
      nth_error (calendar_rates a) k = Some (Some ca) -> nth_error (calendar_rates b) k = Some (Some cb) ->
      nth_error (stream_rates a) k = Some (Some sa) -> nth_error (stream_rates b) k = Some (Some sb) ->
      nth_error (r_values s) k = Some (Some (x + y)%Qc) /\
      (r_regularity a = r_regularity b \/ ((sa + sb)%Qc <> 0%Qc /\ (r_type a = CALENDAR_DAY -> (ca + cb)%Qc <> 0%Qc)) ->
       nth_error (calendar_rates s) k = Some (Some (ca + cb)%Qc) /\
       nth_error (stream_rates s) k = Some (Some (sa + sb)%Qc)).
Proof. exact rate_add_proof. Qed.
Print Assumptions C14_sum.

(** C14: different units or rate types are refused. *)
Theorem C14_refuses : forall a b, r_unit a <> r_unit b \/ r_type a <> r_type b -> rate_add a b = Err ValueError.
Proof. exact rate_add_refuses_proof. Qed.
Print Assumptions C14_refuses.

(** C14: the order of the operands does not matter. *)
Theorem C14_commutative : forall a b, rate_well_formed a -> rate_well_formed b -> r_periods a = r_periods b ->
  rate_add a b = rate_add b a.
Proof. exact rate_add_comm_proof. Qed.
Print Assumptions C14_commutative.

(** C14: when regularity differs in some period, a period in which both rates are zero gets a calendar-day rate that is
    not a number. *)
Theorem C14_zero_rates_refuted : exists a b s,
  rate_well_formed a /\ rate_well_formed b /\ r_periods a = r_periods b /\ r_unit a = r_unit b /\ r_type a = r_type b /\
  rate_add a b = Ok s /\
  nth_error (calendar_rates a) 0 = Some (Some 0%Qc) /\ nth_error (calendar_rates b) 0 = Some (Some 0%Qc) /\
  nth_error (r_regularity a) 0 = Some (Some 1%Qc) /\ nth_error (r_regularity b) 0 = Some (Some 1%Qc) /\
  nth_error (calendar_rates s) 0 = Some None.
Proof. exact rate_add_refuted_proof. Qed.
Print Assumptions C14_zero_rates_refuted.

Definition rate_case2 := mkRate two_periods [Some (qz 30); Some (qz 20)] KILO_PER_DAY STREAM_DAY [Some 1%Qc; Some 1%Qc].
Example C14_case : rate_well_formed rate_case2 /\ r_periods rate_case = r_periods rate_case2 /\
  r_regularity rate_case <> r_regularity rate_case2 /\
  exists s, rate_add rate_case rate_case2 = Ok s /\ r_values s = [Some (qz 40); Some (qz 40)] /\
    r_regularity s = [Some (qc 7 8); Some (qc 1 2)].
Proof.
  split; [split; [exact two_periods_contiguous|repeat split; discriminate]|]. split; [reflexivity|]. split.
  - intros H. injection H. discriminate.
  - eexists. split; [vm_compute; reflexivity|]. split; num_compute.
Qed.

(** C15: true exactly when true in every original period that overlaps the new one (the series starts at midnight or its
    start is left out). *)
Theorem C15_true_throughout : forall s f is ie p new, well_formed s -> f <> FreqNone ->
  nth_error (s_periods s) 0 = Some p ->
  (is = true -> exists day, p_start p = 86400 * day) ->
  resample_periods (s_periods s) f is ie = Ok new ->
  exists vs, boolean_resample s f is ie = Ok (mkSeries new vs (s_unit s)) /\ length vs = length new /\
    forall k q, nth_error new k = Some q ->
      exists v, nth_error vs k = Some v /\ (v = true <-> all_overlapping_true s q).
Proof. exact boolean_resample_proof. Qed.
Print Assumptions C15_true_throughout.

(** C15: a series that starts inside a day cannot be resampled with its start included: ValueError. *)
Theorem C15_start_inside_a_day : forall p ps vs u f ie day,
  contiguous (p :: ps) -> f <> FreqNone -> 86400 * day < p_start p < 86400 * (day + 1) ->
  forall q qs, resample_periods (p :: ps) f true ie = Ok (q :: qs) ->
  boolean_resample (mkSeries (p :: ps) vs u) f true ie = Err ValueError.
Proof. exact boolean_resample_refuted_proof. Qed.
Print Assumptions C15_start_inside_a_day.

Definition bool_case := mkSeries two_periods [true; false] KILO.
Example C15_case : well_formed bool_case /\ (exists day, d2020 = 86400 * day) /\
  boolean_resample bool_case FreqYear true true = Ok (mkSeries [mkPeriod d2020 d2021; mkPeriod d2021 d2022] [false; false] KILO) /\
  boolean_resample (mkSeries two_periods [true; true] KILO) FreqYear true true
    = Ok (mkSeries [mkPeriod d2020 d2021; mkPeriod d2021 d2022] [true; true] KILO) /\
  boolean_resample (mkSeries [mkPeriod (d2020 + 3600) d2021] [true] KILO) FreqYear true true = Err ValueError.
Proof.
  split; [split; [exact two_periods_contiguous|split; [discriminate|reflexivity]]|]. split; [now exists (date_day 2020 1 1)|].
  split; [vm_compute; reflexivity|]. split; vm_compute; reflexivity.
Qed.

(** C16: the value of a new period is that of the latest original period that starts on the new grid, at or before it; it is
    missing when there is none. *)
Theorem C16_last_change_on_the_grid : forall V (s : series V) f is ie new, well_formed s -> f <> FreqNone ->
  resample_periods (s_periods s) f is ie = Ok new ->
  exists vs, series_resample s f is ie = Ok (mkSeries new vs (s_unit s)) /\ length vs = length new /\
    forall k q, nth_error new k = Some q ->
      (exists j r v, (j <= k)%nat /\ nth_error new j = Some r /\ starts_at s (p_start r) v /\ nth_error vs k = Some (Some v) /\
         forall j' r', (j < j' <= k)%nat -> nth_error new j' = Some r' -> forall w, ~ starts_at s (p_start r') w) \/
      (nth_error vs k = Some None /\
         forall j' r', (j' <= k)%nat -> nth_error new j' = Some r' -> forall w, ~ starts_at s (p_start r') w).
Proof. exact series_resample_proof. Qed.
Print Assumptions C16_last_change_on_the_grid.

(** C16: this is the value in force if the original period in force starts on the new grid. *)
Theorem C16_value_in_force : forall V (s : series V) f is ie new vs u, well_formed s -> f <> FreqNone ->
  resample_periods (s_periods s) f is ie = Ok new ->
  series_resample s f is ie = Ok (mkSeries new vs u) ->
  u = s_unit s /\ length vs = length new /\
  forall k q i p v, nth_error new k = Some q -> nth_error (s_periods s) i = Some p -> nth_error (s_values s) i = Some v ->
    In_period (p_start q) p -> (exists r, In r new /\ p_start r = p_start p) ->
    nth_error vs k = Some (Some v).
Proof. exact series_resample_in_force_proof. Qed.
Print Assumptions C16_value_in_force.

(** C16: a change between two dates of the new grid is lost. *)
Theorem C16_off_grid_refuted : exists (s : series Z) new vs k q v,
  well_formed s /\ resample_periods (s_periods s) FreqYear true true = Ok new /\
  series_resample s FreqYear true true = Ok (mkSeries new vs (s_unit s)) /\
  nth_error new k = Some q /\ value_at s (p_start q) v /\ nth_error vs k = Some (Some 1) /\ v = 2.
Proof. exact series_resample_refuted_proof. Qed.
Print Assumptions C16_off_grid_refuted.

Example C16_case : exists new vs, resample_periods two_periods FreqMonth true true = Ok new /\
  series_resample (mkSeries two_periods [1; 2] KILO) FreqMonth true true = Ok (mkSeries new vs KILO) /\
  nth_error vs 5 = Some (Some 1) /\ nth_error vs 6 = Some (Some 2) /\ nth_error vs 23 = Some (Some 2) /\
  (exists r, In r new /\ p_start r = d2020_07).
Proof.
  do 2 eexists. split; [vm_compute; reflexivity|]. split; [vm_compute; reflexivity|].
  do 3 (split; [reflexivity|]). eexists. split; [do 6 right; left; reflexivity|vm_compute; reflexivity].
Qed.

(** C17: existing periods keep their values, others get the fill value. *)
Theorem C17_fill : forall V (s : series V) new fillna,
  length (s_values s) = length (s_periods s) -> NoDup (s_periods s) -> NoDup new ->
  (forall p, In p (s_periods s) -> In p new) ->
  exists vs, fill_values_for_new_periods s new fillna = Ok (mkSeries new vs (s_unit s)) /\ length vs = length new /\
    forall k q, nth_error new k = Some q ->
      (forall i, nth_error (s_periods s) i = Some q -> nth_error vs k = nth_error (s_values s) i) /\
      (~ In q (s_periods s) -> nth_error vs k = Some fillna).
Proof. exact fill_proof. Qed.
Print Assumptions C17_fill.

(** C17: no period may be dropped. *)
Theorem C17_refuses : forall V (s : series V) new fillna p,
  In p (s_periods s) -> ~ In p new -> fill_values_for_new_periods s new fillna = Err ValueError.
Proof. exact fill_refuses_proof. Qed.
Print Assumptions C17_refuses.

Example C17_case : fill_values_for_new_periods (mkSeries [mkPeriod 10 20] [7] KILO) [mkPeriod 0 10; mkPeriod 10 20; mkPeriod 20 30] 0
    = Ok (mkSeries [mkPeriod 0 10; mkPeriod 10 20; mkPeriod 20 30] [0; 7; 0] KILO) /\
  NoDup [mkPeriod 0 10; mkPeriod 10 20; mkPeriod 20 30].
Proof. split; [reflexivity|]. repeat constructor; cbn; intuition discriminate. Qed.

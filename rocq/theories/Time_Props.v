(** Properties C01-C06: time periods, temporal models and resampling grids.
    Model: Time_Model.v.  Specification vocabulary: Time_Spec.v. *)
From Verif Require Import Base Time_Model Time_Spec Time_Proofs Time_Proofs2 Time_Proofs3.

(** C01: creating periods from increasing dates gives non-empty periods that follow each other,
    and every instant of the covered range lies in exactly one of them. *)
Theorem C01_create_periods_partition :
  forall (t0 : datetime) (rest : list datetime) (include_before include_after : bool),
    increasing (t0 :: rest) ->
    (include_before = true -> DT_MIN < t0) ->
    (include_after = true -> last rest t0 < DT_MAX) ->
    let ps := create_periods (t0 :: rest) include_before include_after in
    let from := if include_before then DT_MIN else t0 in
    let until := if include_after then DT_MAX else last rest t0 in
    contiguous ps /\ forall d, from <= d < until <-> in_exactly_one ps d.
Proof. exact create_periods_partition_proof. Qed.
Print Assumptions C01_create_periods_partition.
Example C01_case : increasing [10; 20; 50] /\ DT_MIN < 10 /\ last [20; 50] 10 < DT_MAX /\
  create_periods [10; 20; 50] true true =
  [mkPeriod DT_MIN 10; mkPeriod 10 20; mkPeriod 20 50; mkPeriod 50 DT_MAX].
Proof. repeat split. Qed.

(** C01, second half: the dates at which the periods start or end are exactly the given dates
    (and the beginning/end of time when asked for). *)
Theorem C01_create_periods_boundaries :
  forall (t0 : datetime) (rest : list datetime) (include_before include_after : bool),
    increasing (t0 :: rest) ->
    (include_before = true -> DT_MIN < t0) ->
    (include_after = true -> last rest t0 < DT_MAX) ->
    let dates := (if include_before then [DT_MIN] else []) ++ (t0 :: rest)
                 ++ (if include_after then [DT_MAX] else []) in
    (2 <= length dates)%nat ->
    forall t, is_boundary (create_periods (t0 :: rest) include_before include_after) t <-> In t dates.
Proof. exact create_periods_boundaries_proof. Qed.
Print Assumptions C01_create_periods_boundaries.

(** C02: two non-empty periods intersect iff they share an instant. *)
Theorem C02_intersects_iff : forall a b : period, nonempty a -> nonempty b ->
  (intersects a b = true <-> exists d, In_period d a /\ In_period d b).
Proof. exact intersects_iff. Qed.
Print Assumptions C02_intersects_iff.

(** C02: the intersection contains exactly the shared instants. *)
Theorem C02_intersection_instants : forall a b c : period, intersection a b = Some c ->
  forall d, In_period d c <-> In_period d a /\ In_period d b.
Proof. exact intersection_Some. Qed.
Print Assumptions C02_intersection_instants.

(** C02: there is no intersection exactly when no instant is shared. *)
Theorem C02_intersection_none : forall a b : period, nonempty a -> nonempty b ->
  (intersection a b = None <-> ~ exists d, In_period d a /\ In_period d b).
Proof. exact intersection_None. Qed.
Print Assumptions C02_intersection_none.

(** C02: commutative and associative. *)
Theorem C02_intersection_comm : forall a b : period, intersection a b = intersection b a.
Proof. exact intersection_comm. Qed.
Print Assumptions C02_intersection_comm.
Theorem C02_intersection_assoc : forall a b c : period, nonempty a -> nonempty b -> nonempty c ->
  (match intersection a b with Some ab => intersection ab c | None => None end) =
  (match intersection b c with Some bc => intersection a bc | None => None end).
Proof. exact intersection_assoc. Qed.
Print Assumptions C02_intersection_assoc.
Example C02_case : nonempty (mkPeriod 0 10) /\ nonempty (mkPeriod 5 20) /\ nonempty (mkPeriod 20 30) /\
  intersection (mkPeriod 0 10) (mkPeriod 5 20) = Some (mkPeriod 5 10) /\
  intersection (mkPeriod 5 20) (mkPeriod 20 30) = None.
Proof. repeat split; unfold nonempty; cbn; lia. Qed.

(** C03: for a query whose clamped ends are dates of the series (or that misses the series),
    exactly the periods inside it are selected, in order. *)
Theorem C03_get_periods_selects :
  forall (self first : period) (rest : list period),
    contiguous (first :: rest) -> nonempty self ->
    let ps := first :: rest in
    let whole := mkPeriod (p_start first) (p_end (last rest first)) in
    ((~ exists d, In_period d whole /\ In_period d self) \/
     (is_boundary ps (Z.max (p_start self) (p_start first)) /\
      is_boundary ps (Z.min (p_end self) (p_end (last rest first))))) ->
    get_periods self ps =
    Ok (filter (fun q => (p_start self <=? p_start q) && (p_end q <=? p_end self)) ps).
Proof. exact get_periods_proof. Qed.
Print Assumptions C03_get_periods_selects.

(** C03: any other query is refused. *)
Theorem C03_get_periods_off_grid :
  forall (self first : period) (rest : list period),
    contiguous (first :: rest) -> nonempty self ->
    let ps := first :: rest in
    let whole := mkPeriod (p_start first) (p_end (last rest first)) in
    (exists d, In_period d whole /\ In_period d self) ->
    ~ (is_boundary ps (Z.max (p_start self) (p_start first)) /\
       is_boundary ps (Z.min (p_end self) (p_end (last rest first)))) ->
    get_periods self ps = Err ProgrammingError.
Proof. exact get_periods_off_grid_proof. Qed.
Print Assumptions C03_get_periods_off_grid.
Example C03_case :
  let ps := [mkPeriod 0 10; mkPeriod 10 20; mkPeriod 20 30] in
  contiguous ps /\ is_boundary ps (Z.max 10 0) /\ is_boundary ps (Z.min 99 30) /\
  get_periods (mkPeriod 10 99) ps = Ok [mkPeriod 10 20; mkPeriod 20 30] /\
  get_periods (mkPeriod 12 99) ps = Err ProgrammingError.
Proof.
  cbv zeta. split; [cbn; unfold nonempty; cbn; lia|].
  split; [exists (mkPeriod 10 20); cbn; auto|]. split; [exists (mkPeriod 20 30); cbn; auto 10|].
  split; reflexivity.
Qed.

(** C04: a date-keyed temporal model is accepted iff its dates increase; then a look-up gives the
    model of the latest date not after the instant, and raises before the first date. *)
Theorem C04_temporal_model_lookup : forall M (first : datetime * M) rest,
  NoDup (map fst (first :: rest)) ->
  (is_ok (temporal_model_of_dates (first :: rest)) = true <-> increasing (map fst (first :: rest))) /\
  forall tm, temporal_model_of_dates (first :: rest) = Ok tm ->
    (forall d m, d < DT_MAX -> (get_model tm d = Ok m <-> latest_model (first :: rest) d m)) /\
    (forall d, fst first <= d < DT_MAX -> exists m, get_model tm d = Ok m) /\
    (forall d, d < fst first -> get_model tm d = Err ValueError).
Proof. exact get_model_dates_proof. Qed.
Print Assumptions C04_temporal_model_lookup.
Example C04_case : NoDup (map fst [(10, 1%nat); (20, 2%nat)]) /\
  exists tm, temporal_model_of_dates [(10, 1%nat); (20, 2%nat)] = Ok tm /\
             get_model tm 20 = Ok 2%nat /\ get_model tm 19 = Ok 1%nat /\ get_model tm 9 = Err ValueError.
Proof. split; [repeat constructor; cbn; lia|]. eexists. repeat split. Qed.

(** C05: restricting to a target period keeps exactly what is in force inside it. *)
Theorem C05_define_time_model : forall M (data : temporal_data M) target,
  data_well_formed data -> nonempty target ->
  forall d m, in_force (define_time_model_for_period data target) d m <->
              In_period d target /\ data_in_force data d m.
Proof. exact define_time_model_proof. Qed.
Print Assumptions C05_define_time_model.
Theorem C05_temporal_model_create : forall M (data : temporal_data M) target,
  data_well_formed data -> data_ordered data -> nonempty target ->
  exists tm, temporal_model_create data target = Ok tm /\
    forall d m, get_model tm d = Ok m <-> In_period d target /\ data_in_force data d m.
Proof. exact temporal_model_create_proof. Qed.
Print Assumptions C05_temporal_model_create.
Example C05_case : data_well_formed (TDDates (10, 1%nat) [(20, 2%nat)]) /\
  define_time_model_for_period (TDDates (10, 1%nat) [(20, 2%nat)]) (mkPeriod 15 30) =
  [(mkPeriod 15 20, 1%nat); (mkPeriod 20 30, 2%nat)].
Proof. split; [|reflexivity]. cbn. unfold DT_MAX. split; [lia|]. intros k [<-|[<-|[]]]; lia. Qed.

(** C05 fails for date keys written out of order: an outdated model is used silently. *)
Theorem C05_unsorted_dates_refuted :
  exists (data : temporal_data nat) target d tm m,
    nonempty target /\ In_period d target /\
    (match data with TDDates first rest => NoDup (map fst (first :: rest)) | _ => False end) /\
    temporal_model_create data target = Ok tm /\ get_model tm d = Ok m /\
    ~ data_in_force data d m.
Proof. exact unsorted_dates_refuted_proof. Qed.
Print Assumptions C05_unsorted_dates_refuted.

(** C05 fails for overlapping period keys: the last entry wins after restriction, the first before. *)
Theorem C05_overlapping_periods_refuted :
  exists (data : list (period * nat)) first rest target d m1 m2,
    data = first :: rest /\ NoDup (map fst data) /\ nonempty target /\ In_period d target /\
    get_model data d = Ok m1 /\
    (exists tm, temporal_model_create (TDPeriods first rest) target = Ok tm /\ get_model tm d = Ok m2) /\ m1 <> m2.
Proof. exact overlapping_periods_refuted_proof. Qed.
Print Assumptions C05_overlapping_periods_refuted.

(** C06: resampling a series from midnight [A] to midnight [B] gives contiguous periods over the
    same range, cut exactly at the starts of days/months/years inside it. *)
Theorem C06_resample_periods : forall (ps : list period) f A B,
  spans ps (86400 * A) (86400 * B) -> A < B -> f <> FreqNone ->
  exists ps', resample_periods ps f true true = Ok ps' /\
    contiguous ps' /\
    spans ps' (86400 * A) (86400 * B) /\
    forall t, is_boundary ps' t <->
      t = 86400 * A \/ t = 86400 * B \/ (86400 * A < t < 86400 * B /\ frequency_boundary f t).
Proof. exact resample_periods_proof. Qed.
Print Assumptions C06_resample_periods.

(** C06: the dates with the start/end excluded on request. *)
Theorem C06_resample_dates : forall f A B include_start include_end, f <> FreqNone -> A < B ->
  let dates := create_start_and_end_dates_for_periods f (86400 * A) (86400 * B) include_start include_end in
  increasing dates /\
  forall t, In t dates <->
   (include_start = true /\ t = 86400 * A) \/ (include_end = true /\ t = 86400 * B) \/
   (86400 * A < t < 86400 * B /\ frequency_boundary f t).
Proof. exact resample_dates_proof. Qed.
Print Assumptions C06_resample_dates.
(* 2020-02-15 to 2020-04-10, monthly; 2020 is a leap year *)
Example C06_case :
  date_day 2020 2 15 = 737469 /\
  resample_periods [mkPeriod (86400 * date_day 2020 2 15) (86400 * date_day 2020 4 10)] FreqMonth true true =
  Ok [mkPeriod (86400 * date_day 2020 2 15) (86400 * date_day 2020 3 1);
      mkPeriod (86400 * date_day 2020 3 1) (86400 * date_day 2020 4 1);
      mkPeriod (86400 * date_day 2020 4 1) (86400 * date_day 2020 4 10)].
Proof. split; vm_compute; reflexivity. Qed.

(** C06 fails for a series that does not start at midnight: its range changes. *)
Theorem C06_off_midnight_refuted :
  exists ps ps' s e, contiguous ps /\ spans ps s e /\
    resample_periods ps FreqMonth true true = Ok ps' /\ ~ spans ps' s e.
Proof. exact resample_off_midnight_refuted_proof. Qed.
Print Assumptions C06_off_midnight_refuted.

(** The civil calendar [date_day] used by [frequency_boundary] is the Gregorian one: day 0 is
    0001-01-01, months have their Gregorian lengths and a year follows December 31st. *)
Theorem C06_calendar :
  date_day 1 1 1 = 0 /\
  (forall y m d, date_day y m (d + 1) = date_day y m d + 1) /\
  (forall y m len, month_length y m len -> m < 12 -> date_day y (m + 1) 1 = date_day y m 1 + len) /\
  (forall y, date_day (y + 1) 1 1 = date_day y 12 1 + 31).
Proof. exact calendar_proof. Qed.
Print Assumptions C06_calendar.

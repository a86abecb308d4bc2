(** Model of src/libecalc/common/utils/rates.py. *)
From Coq Require Import PeanoNat.
From Verif Require Import QcTac Base Num Time_Model Units_Model.
Local Open Scope Z_scope.

(** ** class Rates (lines 32-119), on arrays of numbers *)

(** 44-45, Rates.to_stream_day: np.divide with out=zeros, where=regularity != 0 *)
Definition to_stream_day_value (calendar regularity : num) : num :=
  if nonzero regularity then ndiv calendar regularity else Some 0%Qc.
Definition rates_to_stream_day (calendar regularity : list num) : result (list num) :=
  np_broadcast to_stream_day_value calendar regularity.

(** 58-60, Rates.to_calendar_day *)
Definition rates_to_calendar_day (stream regularity : list num) : result (list num) :=
  np_broadcast nmul stream regularity.

(** total_seconds() / SECONDS_IN_A_DAY *)
Definition days (a b : datetime) : Qc := (qz (b - a) / qz 86400)%Qc.

(** 79-84, Rates.to_volumes *)
Definition rates_to_volumes (rates : list num) (ps : list period) : result (list num) :=
  np_broadcast nmul rates (map (fun p => Some (days (p_start p) (p_end p))) ps).

(** 97, Rates.compute_cumulative: np.nancumsum *)
Fixpoint nancumsum_from (acc : Qc) (l : list num) : list num :=
  match l with
  | [] => []
  | v :: rest => let acc' := (acc + nan_zero v)%Qc in Some acc' :: nancumsum_from acc' rest
  end.
Definition compute_cumulative (volumes : list num) : list num := nancumsum_from 0%Qc volumes.

(** 100-119, Rates.compute_cumulative_volumes_from_daily_rates *)
Definition cumulative_from_daily_rates (rates : list num) (ps : list period) : result (list num) :=
  match rates with
  | [] => Err ValueError
  | _ => do v <- rates_to_volumes rates ps; Ok (compute_cumulative v)
  end.

(** ** class TimeSeries (lines 122-412) *)
Record series (V : Type) : Type := mkSeries { s_periods : list period; s_values : list V; s_unit : unit_ }.
Arguments mkSeries {V}. Arguments s_periods {V}. Arguments s_values {V}. Arguments s_unit {V}.

(** 128-141, the validator period_values_one_to_one *)
Definition make_series {V} (ps : list period) (vs : list V) (u : unit_) : result (series V) :=
  if Nat.eqb (length ps) (length vs) then Ok (mkSeries ps vs u) else Err ValidationError.

(** 153-167, TimeSeries.period, all_dates *)
Definition s_period {V} (s : series V) : result period := periods_period (s_periods s).
Definition s_all_dates {V} (s : series V) : result (list datetime) := all_dates (s_periods s).

(** pandas Series(index, data).reindex(new) on unique labels: the value at the same label or missing *)
Definition reindex {V} (index : list datetime) (data : list V) (new : list datetime) : list (option V) :=
  map (fun t => dict_get Z.eqb t (combine index data)) new.
(** pandas ffill: a missing value becomes the last one before it that is not missing.  [nanv] tells which
    values of the series are themselves NaN. *)
Fixpoint ffill_from {V} (prev : option V) (l : list (option V)) : list (option V) :=
  match l with
  | [] => []
  | None :: rest => prev :: ffill_from prev rest
  | Some v :: rest => Some v :: ffill_from (Some v) rest
  end.
Definition ffill {V} (l : list (option V)) : list (option V) := ffill_from None l.

(** 181-208, TimeSeries.resample.  Values that are missing after forward fill become NaN: the resampled
    values have type [option V].  (NaN among the original values is not modelled here.) *)
Definition series_resample {V} (s : series V) (f : frequency) (include_start include_end : bool)
  : result (series (option V)) :=
  match f with
  | FreqNone => Ok (mkSeries (s_periods s) (map Some (s_values s)) (s_unit s))
  | _ =>
      do new <- resample_periods (s_periods s) f include_start include_end;
      make_series new (ffill (reindex (start_dates (s_periods s)) (s_values s) (start_dates new))) (s_unit s)
  end.

(** 210-236, TimeSeries.extend *)
Definition series_extend {V} (a b : series V) : result (series V) :=
  if negb (unit_eqb (s_unit a) (s_unit b)) then Err ValueError
  else
    let before := make_series (s_periods b ++ s_periods a) (s_values b ++ s_values a) (s_unit a) in
    match s_values a, s_values b with
    | _ :: _, _ :: _ =>
        do pa <- s_period a;
        do pb <- s_period b;
        if negb (p_end pa =? p_start pb) && negb (p_start pa =? p_end pb) then Err ValueError
        else if p_end pa =? p_start pb then
          make_series (s_periods a ++ s_periods b) (s_values a ++ s_values b) (s_unit a)
        else before
    | _, _ => before
    end.

(** 238-276, TimeSeries.merge (both of the same class) *)
Definition series_merge {V} (a b : series V) : result (series V) :=
  if negb (unit_eqb (s_unit a) (s_unit b)) then Err ValueError
  else
    do pa <- s_period a;
    do pb <- s_period b;
    if intersects pa pb then Err ValueError
    else if negb (p_start pa =? p_end pb) && negb (p_end pa =? p_start pb) then Err ValueError
    else
      let (first, second) := if p_start pa <? p_end pb then (a, b) else (b, a) in
      make_series (s_periods first ++ s_periods second) (s_values first ++ s_values second) (s_unit a).

(** 281-301, TimeSeries.for_period *)
Definition series_for_period {V} (s : series V) (p : period) : result (series V) :=
  do dates <- all_dates (s_periods s);
  if negb (existsb (Z.eqb (p_start p)) dates) || negb (existsb (Z.eqb (p_end p)) dates) then Err ValueError
  else
    do ij <- get_period_indices p (s_periods s);
    make_series (slice (fst ij) (snd ij) (s_periods s)) (slice (fst ij) (snd ij) (s_values s)) (s_unit s).

(** 326-329, TimeSeries.to_unit for a series of numbers *)
Definition series_to_unit (s : series num) (u : unit_) : result (series num) :=
  if unit_eqb u (s_unit s) then Ok s
  else do f <- unit_to (s_unit s) u; Ok (mkSeries (s_periods s) (map (option_map f) (s_values s)) u).

(** 379-398, TimeSeries.fill_values_for_new_periods *)
Definition fill_values_for_new_periods {V} (s : series V) (new : list period) (fillna : V) : result (series V) :=
  if existsb (fun p => negb (existsb (period_eqb p) new)) (s_periods s) then Err ValueError
  else
    let fresh := fold_left (fun d p => dict_set period_eqb p fillna d) new [] in
    let filled := fold_left
      (fun d tv => match dict_get period_eqb (fst tv) d with
                   | Some _ => dict_set period_eqb (fst tv) (snd tv) d
                   | None => d end) (zip (s_periods s) (s_values s)) fresh in
    make_series new (map snd filled) (s_unit s).

(** ** TimeSeriesBoolean.resample (lines 422-454) *)

(** max([date for date in dates if cond(date)]), ValueError on none *)
Definition max_date (cond : datetime -> bool) (dates : list datetime) : result datetime :=
  match filter cond dates with
  | [] => Err ValueError
  | d :: ds => Ok (fold_left Z.max ds d)
  end.
Definition boolean_resample_value (dates : list datetime) (values : list bool) (p : period) : result bool :=
  do ds <- max_date (fun d => d <=? p_start p) dates;
  do i <- of_option ValueError (index_of Z.eqb ds dates);
  do de <- max_date (fun d => d <? p_end p) dates;
  do j <- of_option ValueError (index_of Z.eqb de dates);
  Ok (forallb (fun b => b) (slice i (j + 1) values)).
Definition boolean_resample (s : series bool) (f : frequency) (include_start include_end : bool)
  : result (series bool) :=
  match f with
  | FreqNone => Ok s
  | _ =>
      do new <- resample_periods (s_periods s) f include_start include_end;
      do dates <- s_all_dates s;
      do vs <- mapM (boolean_resample_value dates (s_values s)) new;
      make_series new vs (s_unit s)
  end.

(** ** Volumes *)

(** linear interpolation in time between known points, constant after the last, missing before the
    first (pandas interpolate("time") on the union of the dates followed by reindex).  The points are in
    order of time. *)
Fixpoint interp_time (points : list (datetime * Qc)) (t : datetime) : num :=
  match points with
  | [] => None
  | (t0, v0) :: rest =>
      if t <? t0 then None
      else match rest with
           | [] => Some v0
           | (t1, v1) :: _ =>
               if t <? t1 then Some (v0 + (v1 - v0) * (qz (t - t0) / qz (t1 - t0)))%Qc
               else interp_time rest t
           end
  end.
Definition known_points (dates : list datetime) (values : list num) : list (datetime * Qc) :=
  flat_map (fun tv => match snd tv with Some v => [(fst tv, v)] | None => [] end) (combine dates values).

(** 490-539, TimeSeriesVolumesCumulative.resample (the periods follow each other in time) *)
Definition cumulative_resample (s : series num) (f : frequency) (include_start include_end : bool)
  : result (series num) :=
  match f with
  | FreqNone => Ok s
  | _ =>
      do dates <- s_all_dates s;
      do new <- resample_periods (s_periods s) f include_start include_end;
      do new_dates <- all_dates new;
      let points := known_points dates (Some 0%Qc :: s_values s) in
      match map (interp_time points) new_dates with
      | [] => Err IndexError
      | dropped :: rest =>
          make_series new (if include_start then rest else map (fun v => nsub v dropped) rest) (s_unit s)
      end
  end.

(** 564-576, TimeSeriesVolumesCumulative.to_volumes: np.diff([0.0] + values) *)
Fixpoint np_diff (l : list num) : list num :=
  match l with
  | a :: ((b :: _) as rest) => nsub b a :: np_diff rest
  | _ => []
  end.
Definition cumulative_to_volumes (s : series num) : result (series num) :=
  make_series (s_periods s) (np_diff (Some 0%Qc :: s_values s)) (s_unit s).

(** 605-618, TimeSeriesVolumes.cumulative *)
Definition volumes_cumulative (s : series num) : result (series num) :=
  make_series (s_periods s) (compute_cumulative (s_values s)) (s_unit s).

(** 588-603, TimeSeriesVolumes.resample *)
Definition volumes_resample (s : series num) (f : frequency) (include_start include_end : bool)
  : result (series num) :=
  do c <- volumes_cumulative s;
  do r <- cumulative_resample c f include_start include_end;
  cumulative_to_volumes r.

(** ** class TimeSeriesRate (lines 714-1057) *)
Inductive rate_type : Type := STREAM_DAY | CALENDAR_DAY.
Definition rate_type_eqb (a b : rate_type) : bool :=
  match a, b with STREAM_DAY, STREAM_DAY | CALENDAR_DAY, CALENDAR_DAY => true | _, _ => false end.

Record rate_series : Type := mkRate {
  r_periods : list period; r_values : list num; r_unit : unit_; r_type : rate_type; r_regularity : list num }.

(** 128-141 and 738-747, the validators of lengths *)
Definition make_rate (ps : list period) (vs : list num) (u : unit_) (ty : rate_type) (reg : list num)
  : result rate_series :=
  if Nat.eqb (length ps) (length vs) && Nat.eqb (length ps) (length reg) then Ok (mkRate ps vs u ty reg)
  else Err ValidationError.

(** 881-896, to_calendar_day *)
Definition rate_to_calendar_day (s : rate_series) : result rate_series :=
  match r_type s with
  | CALENDAR_DAY => Ok s
  | STREAM_DAY =>
      do v <- rates_to_calendar_day (r_values s) (r_regularity s);
      make_rate (r_periods s) v (r_unit s) CALENDAR_DAY (r_regularity s)
  end.

(** 898-913, to_stream_day *)
Definition rate_to_stream_day (s : rate_series) : result rate_series :=
  match r_type s with
  | STREAM_DAY => Ok s
  | CALENDAR_DAY =>
      do v <- rates_to_stream_day (r_values s) (r_regularity s);
      make_rate (r_periods s) v (r_unit s) STREAM_DAY (r_regularity s)
  end.

(** 915-925, to_volumes *)
Definition rate_to_volumes (s : rate_series) : result (series num) :=
  do c <- rate_to_calendar_day s;
  do v <- rates_to_volumes (r_values c) (r_periods s);
  do u <- rate_to_volume (r_unit s);
  make_series (r_periods s) v u.

(** 620-645, TimeSeriesVolumes.to_rate.  Lines 633-638: without periods all_dates raises IndexError, with
    periods there are at least two dates.  Dividing a Python float by zero days raises. *)
Fixpoint date_diffs (dates : list datetime) : list Qc :=
  match dates with
  | a :: ((b :: _) as rest) => days a b :: date_diffs rest
  | _ => []
  end.
Definition py_div (a : num) (d : Qc) : result num :=
  if Qceqb d 0 then Err ZeroDivisionError else Ok (option_map (fun x => x / d)%Qc a).
Definition volumes_to_rate (s : series num) (regularity : list num) : result rate_series :=
  do dates <- s_all_dates s;
  do v <- mapM (fun vd => py_div (fst vd) (snd vd)) (zip (s_values s) (date_diffs dates));
  do u <- volume_to_rate (s_unit s);
  make_rate (s_periods s) v u CALENDAR_DAY regularity.

(** list_utils.py:65-81, elementwise_sum of two vectors: NaN counts as zero *)
Definition elementwise_sum (a b : list num) : result (list num) :=
  np_broadcast (fun x y => Some (nan_zero x + nan_zero y)%Qc) a b.

(** equality of two lists of floats (a NaN object equal to itself, as list equality has it) *)
Definition num_eqb (a b : num) : bool :=
  match a, b with Some x, Some y => Qceqb x y | None, None => true | _, _ => false end.

(** 749-784, TimeSeriesRate.__add__ *)
Definition rate_add (a b : rate_series) : result rate_series :=
  if negb (unit_eqb (r_unit a) (r_unit b)) then Err ValueError
  else if negb (rate_type_eqb (r_type a) (r_type b)) then Err ValueError
  else
    do sum <- elementwise_sum (r_values a) (r_values b);
    if list_eqb num_eqb (r_regularity a) (r_regularity b) then
      make_rate (r_periods a) sum (r_unit a) (r_type a) (r_regularity a)
    else
      do ca <- rate_to_calendar_day a;
      do cb <- rate_to_calendar_day b;
      do sum_calendar <- elementwise_sum (r_values ca) (r_values cb);
      do sa <- rate_to_stream_day a;
      do sb <- rate_to_stream_day b;
      do sum_stream <- elementwise_sum (r_values sa) (r_values sb);
      do reg <- np_broadcast ndiv sum_calendar sum_stream;
      make_rate (r_periods a) sum (r_unit a) (r_type a) reg.

(** 786-807, TimeSeriesRate.extend *)
Definition rate_extend (a b : rate_series) : result rate_series :=
  if negb (unit_eqb (r_unit a) (r_unit b)) then Err ValueError
  else if negb (rate_type_eqb (r_type a) (r_type b)) then Err ValueError
  else make_rate (r_periods a ++ r_periods b) (r_values a ++ r_values b) (r_unit a) (r_type a)
         (r_regularity a ++ r_regularity b).

(** 809-852, TimeSeriesRate.merge *)
Definition rate_merge (a b : rate_series) : result rate_series :=
  if negb (unit_eqb (r_unit a) (r_unit b)) then Err ValueError
  else if negb (rate_type_eqb (r_type a) (r_type b)) then Err ValueError
  else
    do pa <- periods_period (r_periods a);
    do pb <- periods_period (r_periods b);
    if intersects pa pb then Err ValueError
    else if negb (p_start pa =? p_end pb) && negb (p_end pa =? p_start pb) then Err ValueError
    else
      let (first, second) := if p_start pa <? p_end pb then (a, b) else (b, a) in
      make_rate (r_periods first ++ r_periods second) (r_values first ++ r_values second) (r_unit a) (r_type a)
        (r_regularity first ++ r_regularity second).

(** 854-879, TimeSeriesRate.for_period *)
Definition rate_for_period (s : rate_series) (p : period) : result rate_series :=
  do whole <- periods_period (r_periods s);
  if negb (intersects whole p) then make_rate [] [] (r_unit s) (r_type s) []
  else
    do ij <- get_period_indices p (r_periods s);
    make_rate (slice (fst ij) (snd ij) (r_periods s)) (slice (fst ij) (snd ij) (r_values s)) (r_unit s) (r_type s)
      (slice (fst ij) (snd ij) (r_regularity s)).

(** 948-985, the volumes of a rate series resampled: cumulative, resampled, back to volumes *)
Definition resampled_volumes (rates : list num) (ps : list period) (u : unit_) (f : frequency)
    (include_start include_end : bool) : result (series num) :=
  do c <- cumulative_from_daily_rates rates ps;
  do s <- make_series ps c u;
  do r <- cumulative_resample s f include_start include_end;
  cumulative_to_volumes r.

(** 973-976, the new regularity in one period *)
Definition new_regularity_value (calendar stream : num) : num :=
  if nonzero stream then ndiv calendar stream else Some 0%Qc.

(** 927-985, TimeSeriesRate.resample *)
Definition rate_resample (s : rate_series) (f : frequency) (include_start include_end : bool)
  : result rate_series :=
  match f with
  | FreqNone => Ok s
  | _ =>
      do vol <- rate_to_volumes s;
      do cal <- rate_to_calendar_day s;
      do calendar <- resampled_volumes (r_values cal) (r_periods s) (s_unit vol) f include_start include_end;
      do str <- rate_to_stream_day s;
      do stream <- resampled_volumes (r_values str) (r_periods s) (s_unit vol) f include_start include_end;
      let regularity := map (fun cs => new_regularity_value (fst cs) (snd cs))
                            (zip (s_values calendar) (s_values stream)) in
      do new <- volumes_to_rate calendar regularity;
      match r_type s with
      | CALENDAR_DAY => Ok new
      | STREAM_DAY => rate_to_stream_day new
      end
  end.

(** 303-324 (for_periods) and 1042-1057, TimeSeriesRate.from_timeseries_stream_day_rate *)
Definition series_for_periods {V} (s : series V) (ps : list period) : result (series V) :=
  do dates <- all_dates (s_periods s);
  if negb (forallb (fun p => existsb (Z.eqb (p_start p)) dates && existsb (Z.eqb (p_end p)) dates) ps) then Err ValueError
  else
    do whole <- periods_period ps;
    do ij <- get_period_indices whole (s_periods s);
    make_series (slice (fst ij) (snd ij) (s_periods s)) (slice (fst ij) (snd ij) (s_values s)) (s_unit s).
Definition rate_from_stream_day (s regularity : series num) : result rate_series :=
  do reg <- series_for_periods regularity (s_periods s);
  make_rate (s_periods s) (s_values s) (s_unit s) STREAM_DAY (s_values reg).

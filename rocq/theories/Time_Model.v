(** Model of src/libecalc/common/time_utils.py and src/libecalc/common/temporal_model.py.

    A [datetime] is the number of whole seconds since 0001-01-01 00:00:00
    (sub-second parts are not modelled). *)
From Verif Require Import Base.

Notation datetime := Z (only parsing).
Definition day_seconds : Z := 86400.

(** datetime.min and datetime.max.replace(microsecond=0) (time_utils.py:28-29) *)
Definition DT_MIN : datetime := 0.
Definition DT_MAX : datetime := 315537897599.

(** time_utils.py:24-29, class Period *)
Record period : Type := mkPeriod { p_start : datetime; p_end : datetime }.

Definition period_eqb (a b : period) : bool :=
  (p_start a =? p_start b) && (p_end a =? p_end b).

(** dataclass order=True: lexicographic on (start, end) (time_utils.py:24) *)
Definition period_leb (a b : period) : bool :=
  (p_start a <? p_start b) || ((p_start a =? p_start b) && (p_end a <=? p_end b)).

(** time_utils.py:46-47, Period.__contains__ for a datetime *)
Definition contains_date (p : period) (d : datetime) : bool :=
  (p_start p <=? d) && (d <? p_end p).

(** time_utils.py:48-49, Period.__contains__ for a period *)
Definition contains_period (p q : period) : bool :=
  (p_start p <=? p_start q) && (p_start q <? p_end q) && (p_end q <=? p_end p).

(** time_utils.py:51-62, Period.intersects *)
Definition intersects (first second : period) : bool :=
  contains_date second (p_start first) || contains_date first (p_start second).

(** time_utils.py:64-78, Period.intersection *)
Definition intersection (first second : period) : option period :=
  if negb (intersects first second) then None
  else Some (mkPeriod (Z.max (p_start first) (p_start second)) (Z.min (p_end first) (p_end second))).

(** time_utils.py:178-184, Periods.start_dates / end_dates *)
Definition start_dates (ps : list period) : list datetime := map p_start ps.
Definition end_dates (ps : list period) : list datetime := map p_end ps.

(** time_utils.py:174-176, Periods.all_dates ([self.end_dates[-1]] raises IndexError on no periods) *)
Definition all_dates (ps : list period) : result (list datetime) :=
  match last_opt ps with
  | None => Err IndexError
  | Some p => Ok (start_dates ps ++ [p_end p])
  end.

(** time_utils.py:80-100, Period.get_period_indices; IndexError and ValueError become ProgrammingError *)
Definition get_period_indices (self : period) (ps : list period) : result (nat * nat) :=
  match ps, last_opt ps with
  | first :: _, Some lastp =>
      match index_of Z.eqb (Z.max (p_start self) (p_start first)) (start_dates ps),
            index_of Z.eqb (Z.min (p_end self) (p_end lastp)) (start_dates ps ++ [p_end lastp]) with
      | Some i, Some j => Ok (i, j)
      | _, _ => Err ProgrammingError
      end
  | _, _ => Err ProgrammingError
  end.

(** time_utils.py:102-109, Period.get_timesteps *)
Definition get_timesteps (self : period) (ts : list datetime) : list datetime :=
  filter (contains_date self) ts.

(** time_utils.py:211-213, Periods.period (IndexError on no periods) *)
Definition periods_period (ps : list period) : result period :=
  match ps, last_opt ps with
  | first :: _, Some lastp => Ok (mkPeriod (p_start first) (p_end lastp))
  | _, _ => Err IndexError
  end.

(** time_utils.py:111-123, Period.get_periods *)
Definition get_periods (self : period) (ps : list period) : result (list period) :=
  do whole <- periods_period ps;
  if intersects whole self then
    do ij <- get_period_indices self ps;
    Ok (slice (fst ij) (snd ij) ps)
  else Ok [].

(** time_utils.py:157, the list comprehension over consecutive dates *)
Fixpoint consecutive (times : list datetime) : list period :=
  match times with
  | a :: ((b :: _) as rest) => mkPeriod a b :: consecutive rest
  | _ => []
  end.

(** time_utils.py:134-162, Periods.create_periods *)
Definition create_periods (times : list datetime) (include_before include_after : bool) : list period :=
  match times with
  | [] => []
  | t0 :: rest =>
      (if include_before then [mkPeriod DT_MIN t0] else [])
      ++ consecutive times
      ++ (if include_after then [mkPeriod (last rest t0) DT_MAX] else [])
  end.

(** time_utils.py:167-172, Periods.get_period *)
Definition get_period (ps : list period) (p : period) : option period :=
  find (fun q => contains_period q p) ps.

(** ** Calendar

    Python's proleptic Gregorian calendar (datetime._days_before_year,
    _days_before_month, _ymd2ord), with day 0 = 0001-01-01. *)
Definition is_leap (y : Z) : bool :=
  (y mod 4 =? 0) && (negb (y mod 100 =? 0) || (y mod 400 =? 0)).

Definition days_before_year (y : Z) : Z :=
  let y := y - 1 in y * 365 + y / 4 - y / 100 + y / 400.

Definition days_before_month_common (m : Z) : Z :=
  if m =? 1 then 0 else if m =? 2 then 31 else if m =? 3 then 59 else if m =? 4 then 90
  else if m =? 5 then 120 else if m =? 6 then 151 else if m =? 7 then 181 else if m =? 8 then 212
  else if m =? 9 then 243 else if m =? 10 then 273 else if m =? 11 then 304 else 334.

Definition days_before_month (y m : Z) : Z :=
  days_before_month_common m + (if (2 <? m) && is_leap y then 1 else 0).

(** day number of a civil date *)
Definition date_day (y m d : Z) : Z := days_before_year y + days_before_month y m + (d - 1).

(** the years that can contain day number [day] *)
Definition candidate_years (day : Z) : list Z :=
  let y := day * 400 / 146097 + 1 in [y - 1; y; y + 1].

Definition day_is_month_start (day : Z) : bool :=
  existsb (fun y => existsb (fun m => date_day y m 1 =? day) [1;2;3;4;5;6;7;8;9;10;11;12]) (candidate_years day).

Definition day_is_year_start (day : Z) : bool :=
  existsb (fun y => date_day y 1 1 =? day) (candidate_years day).

(** time_utils.py:245-265, class Frequency *)
Inductive frequency : Type := FreqNone | FreqYear | FreqMonth | FreqDay.

(** pandas offset "YS" / "MS" / "D": is a day on the offset *)
Definition on_offset (f : frequency) (day : Z) : bool :=
  match f with
  | FreqYear => day_is_year_start day
  | FreqMonth => day_is_month_start day
  | _ => true
  end.

(** [n] consecutive integers from [a] *)
Definition zseq (a : Z) (n : nat) : list Z := map (fun i => a + Z.of_nat i) (seq 0 n).

(** pandas.date_range(start, end, freq): every day on the offset, at the time of day of
    [start], from [start] to [end] inclusive.  (pandas' limited timestamp range is not modelled.) *)
Definition date_range (start stop : datetime) (f : frequency) : list datetime :=
  let d0 := start / day_seconds in
  let tod := start mod day_seconds in
  let n := Z.to_nat (stop / day_seconds - d0 + 1) in
  filter (fun t => t <=? stop)
    (map (fun d => d * day_seconds + tod) (filter (on_offset f) (zseq d0 n))).

(** time_utils.py:334-335, clear_time *)
Definition clear_time (d : datetime) : datetime := d / day_seconds * day_seconds.

(** Python sorted(set(l)) on datetimes *)
Definition sorted_set (l : list Z) : list Z := sort Z.leb (nodup Z.eq_dec l).

(** time_utils.py:303-331, create_start_and_end_dates_for_periods *)
Definition create_start_and_end_dates_for_periods
  (f : frequency) (start stop : datetime) (include_start include_end : bool) : list datetime :=
  let rng := date_range (start + day_seconds) (stop - day_seconds) f in
  let steps := map clear_time rng in
  let steps := if include_start then clear_time start :: steps else steps in
  let steps := if include_end then clear_time stop :: steps else steps in
  sorted_set steps.

(** time_utils.py:268-300, resample_periods ([periods.periods[0]] raises IndexError on no periods) *)
Definition resample_periods (ps : list period) (f : frequency) (include_start include_end : bool)
  : result (list period) :=
  match f with
  | FreqNone => Ok ps
  | _ =>
      do whole <- periods_period ps;
      Ok (create_periods
            (create_start_and_end_dates_for_periods f (p_start whole) (p_end whole) include_start include_end)
            false false)
  end.

(** ** Temporal models *)

(** The data of a temporal model: not temporal, a dict of dates or a dict of periods.
    The dicts are non-empty (an empty dict is not a temporal model, time_utils.py:338-383). *)
Inductive temporal_data (M : Type) : Type :=
| TDPlain (m : M)
| TDDates (first : datetime * M) (rest : list (datetime * M))
| TDPeriods (first : period * M) (rest : list (period * M)).
Arguments TDPlain {M}. Arguments TDDates {M}. Arguments TDPeriods {M}.

(** zip(dates[:-1], dates[1:], values) with [DT_MAX] appended to the dates
    (time_utils.py:403-407 and temporal_model.py:55-67) *)
Fixpoint dates_to_periods {M} (l : list (datetime * M)) : list (period * M) :=
  match l with
  | [] => []
  | (d, m) :: rest =>
      (mkPeriod d (match rest with [] => DT_MAX | (d', _) :: _ => d' end), m) :: dates_to_periods rest
  end.

(** building a dict keyed by periods from a sequence of pairs *)
Definition period_dict {M} (l : list (period * M)) : list (period * M) :=
  fold_left (fun acc e => dict_set period_eqb (fst e) (snd e) acc) l [].

(** time_utils.py:392-416, default_temporal_model (data is not None) *)
Definition default_temporal_model {M} (data : temporal_data M) (default : period) : list (period * M) :=
  match data with
  | TDPlain m => [(default, m)]
  | TDDates first rest => period_dict (dates_to_periods (first :: rest))
  | TDPeriods first rest => period_dict (first :: rest)
  end.

(** time_utils.py:216-242, define_time_model_for_period (data is not None) *)
Definition define_time_model_for_period {M} (data : temporal_data M) (target : period) : list (period * M) :=
  fold_left
    (fun acc e =>
       if intersects (fst e) target then
         match intersection (fst e) target with
         | Some p => dict_set period_eqb p (snd e) acc
         | None => acc
         end
       else acc)
    (default_temporal_model data target) [].

(** temporal_model.py:84, list(periods) == sorted(periods) *)
Fixpoint list_eqb {A} (eqb : A -> A -> bool) (l m : list A) : bool :=
  match l, m with
  | [], [] => true
  | a :: l', b :: m' => eqb a b && list_eqb eqb l' m'
  | _, _ => false
  end.

(** temporal_model.py:50-85, TemporalModel.__init__ for period keys *)
Definition temporal_model_of_periods {M} (l : list (period * M)) : result (list (period * M)) :=
  if list_eqb period_eqb (map fst l) (sort period_leb (map fst l)) then Ok l else Err UnsortedKeys.

(** temporal_model.py:50-85, TemporalModel.__init__ for datetime keys *)
Definition temporal_model_of_dates {M} (l : list (datetime * M)) : result (list (period * M)) :=
  temporal_model_of_periods (dates_to_periods l).

(** temporal_model.py:103-108, TemporalModel.get_model for a datetime *)
Definition get_model {M} (tm : list (period * M)) (d : datetime) : result M :=
  match find (fun e => contains_date (fst e) d) tm with
  | Some e => Ok (snd e)
  | None => Err ValueError
  end.

(** temporal_model.py:103-108, TemporalModel.get_model for a period *)
Definition get_model_for_period {M} (tm : list (period * M)) (p : period) : result M :=
  match find (fun e => contains_period (fst e) p) tm with
  | Some e => Ok (snd e)
  | None => Err ValueError
  end.

(** temporal_model.py:91-95, TemporalModel.get_period *)
Definition temporal_model_period {M} (tm : list (period * M)) : result period :=
  periods_period (map fst tm).

(** temporal_model.py:110-116, TemporalModel.create *)
Definition temporal_model_create {M} (data : temporal_data M) (target : period) : result (list (period * M)) :=
  temporal_model_of_periods (define_time_model_for_period data target).

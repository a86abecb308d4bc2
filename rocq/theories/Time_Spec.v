(** Specification vocabulary for time: what a period contains, what a contiguous
    series of periods is.  Independent of the model's helper functions: it only
    uses the record [period]. *)
From Verif Require Import Base Time_Model.

(** an instant lies in a period: start inclusive, end exclusive *)
Definition In_period (d : datetime) (p : period) : Prop := p_start p <= d < p_end p.

(** a period that contains at least one instant *)
Definition nonempty (p : period) : Prop := p_start p < p_end p.

(** non-empty periods following each other without gap or overlap *)
Fixpoint contiguous (ps : list period) : Prop :=
  match ps with
  | [] => True
  | p :: rest =>
      nonempty p /\
      match rest with [] => True | q :: _ => p_end p = p_start q end /\
      contiguous rest
  end.

(** [ps] starts at [a] and ends at [b] *)
Definition spans (ps : list period) (a b : datetime) : Prop :=
  exists p q rest, ps = p :: rest /\ last (p :: rest) p = q /\ p_start p = a /\ p_end q = b.

(** the one index whose period contains the instant *)
Definition in_exactly_one (ps : list period) (d : datetime) : Prop :=
  exists! i, exists p, nth_error ps i = Some p /\ In_period d p.

(** strictly increasing dates *)
Fixpoint increasing (ts : list datetime) : Prop :=
  match ts with
  | [] => True
  | t :: rest => match rest with [] => True | u :: _ => t < u end /\ increasing rest
  end.

(** [m] is the model of the latest key not after [d] *)
Definition latest_model {M} (l : list (datetime * M)) (d : datetime) (m : M) : Prop :=
  exists k, In (k, m) l /\ k <= d /\ forall k' m', In (k', m') l -> k' <= d -> k' <= k.

(** [m] is in force at [d]: some period of the temporal model contains [d] and its model is [m] *)
Definition in_force {M} (tm : list (period * M)) (d : datetime) (m : M) : Prop :=
  exists p, In (p, m) tm /\ In_period d p.

(** no instant lies in two different entries *)
Definition disjoint_entries {M} (tm : list (period * M)) : Prop :=
  forall i j e f d, nth_error tm i = Some e -> nth_error tm j = Some f ->
    In_period d (fst e) -> In_period d (fst f) -> i = j.

(** an instant is a boundary of a reporting frequency: midnight, midnight on the first
    of a month, midnight on January 1st.  [date_day y m d] is the day number of a civil date. *)
Definition frequency_boundary (f : frequency) (t : datetime) : Prop :=
  match f with
  | FreqNone => False
  | FreqDay => exists day, t = 86400 * day
  | FreqMonth => exists y m, 1 <= m <= 12 /\ t = 86400 * date_day y m 1
  | FreqYear => exists y, t = 86400 * date_day y 1 1
  end.

(** the dates at which a series of periods starts or ends *)
Definition is_boundary (ps : list period) (t : datetime) : Prop :=
  exists p, In p ps /\ (p_start p = t \/ p_end p = t).

(** ** Temporal data as a user writes it *)
(** dates in increasing order, or disjoint non-empty periods *)
Definition data_well_formed {M} (data : temporal_data M) : Prop :=
  match data with
  | TDPlain _ => True
  | TDDates first rest =>
      increasing (map fst (first :: rest)) /\ forall k, In k (map fst (first :: rest)) -> k < DT_MAX
  | TDPeriods first rest =>
      disjoint_entries (first :: rest) /\ forall e, In e (first :: rest) -> nonempty (fst e)
  end.

(** the model [data] prescribes at [d] *)
Definition data_in_force {M} (data : temporal_data M) (d : datetime) (m : M) : Prop :=
  match data with
  | TDPlain m' => m = m'
  | TDDates first rest => d < DT_MAX /\ latest_model (first :: rest) d m
  | TDPeriods first rest => in_force (first :: rest) d m
  end.

(** periods written in order of their start *)
Definition data_ordered {M} (data : temporal_data M) : Prop :=
  match data with
  | TDPeriods first rest => increasing (map (fun e => p_start (fst e)) (first :: rest))
  | _ => True
  end.

(** the Gregorian leap rule and month lengths *)
Definition gregorian_leap (y : Z) : Prop := (4 | y) /\ (~ (100 | y) \/ (400 | y)).
Definition month_length (y m len : Z) : Prop :=
  (In m [1; 3; 5; 7; 8; 10; 12] /\ len = 31) \/
  (In m [4; 6; 9; 11] /\ len = 30) \/
  (m = 2 /\ gregorian_leap y /\ len = 29) \/
  (m = 2 /\ ~ gregorian_leap y /\ len = 28).

(** the dates and the models occurring in temporal data *)
Definition data_dates {M} (data : temporal_data M) : list datetime :=
  match data with
  | TDPlain _ => []
  | TDDates first rest => map fst (first :: rest)
  | TDPeriods first rest => flat_map (fun e => [p_start (fst e); p_end (fst e)]) (first :: rest)
  end.
Definition data_models {M} (data : temporal_data M) : list M :=
  match data with
  | TDPlain m => [m]
  | TDDates first rest => map snd (first :: rest)
  | TDPeriods first rest => map snd (first :: rest)
  end.

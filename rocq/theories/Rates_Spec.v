(** Specification vocabulary for time series of volumes and rates. *)
From Verif Require Import QcTac Base Num Time_Model Time_Spec Units_Model Rates_Model.
Local Open Scope Z_scope.

(** seconds two periods have in common, length of a period in seconds *)
Definition overlap (p q : period) : Z :=
  Z.max 0 (Z.min (p_end p) (p_end q) - Z.max (p_start p) (p_start q)).
Definition seconds (p : period) : Z := p_end p - p_start p.

(** the volume of [q] when volume [v_i] is spread evenly over period [p_i]; a missing volume counts zero *)
Definition prorated (ps : list period) (vs : list num) (q : period) : Qc :=
  qsum (map2 (fun p v => nan_zero v * (qz (overlap p q) / qz (seconds p)))%Qc ps vs).

(** the time-weighted average over [q] of rates [r_i] in force in [p_i] *)
Definition average (ps : list period) (rs : list num) (q : period) : Qc :=
  (qsum (map2 (fun p r => nan_zero r * qz (overlap p q))%Qc ps rs) / qz (seconds q))%Qc.

(** the volume of [q] (rate times days) *)
Definition volume_in (ps : list period) (rs : list num) (q : period) : Qc :=
  qsum (map2 (fun p r => nan_zero r * (qz (overlap p q) / qz 86400))%Qc ps rs).

(** one value per period (and per regularity), periods follow each other *)
Definition well_formed {V} (s : series V) : Prop :=
  contiguous (s_periods s) /\ s_periods s <> [] /\ length (s_values s) = length (s_periods s).
Definition rate_well_formed (s : rate_series) : Prop :=
  contiguous (r_periods s) /\ r_periods s <> [] /\ length (r_values s) = length (r_periods s) /\
  length (r_regularity s) = length (r_periods s).

(** the two representations of a rate, period by period *)
Definition calendar_rates (s : rate_series) : list num :=
  match r_type s with CALENDAR_DAY => r_values s | STREAM_DAY => map2 nmul (r_values s) (r_regularity s) end.
Definition stream_rates (s : rate_series) : list num :=
  match r_type s with
  | STREAM_DAY => r_values s
  | CALENDAR_DAY =>
      map2 (fun (r reg : num) => match reg with
                         | Some g => if Qc_eq_dec g 0 then Some 0%Qc else option_map (fun x => x / g)%Qc r
                         | None => None end) (r_values s) (r_regularity s)
  end.

(** the value in force at an instant *)
Definition value_at {V} (s : series V) (t : datetime) (v : V) : Prop :=
  exists i p, nth_error (s_periods s) i = Some p /\ nth_error (s_values s) i = Some v /\ In_period t p.

(** calendar-day volume over stream-day volume, zero when there is no stream-day volume *)
Definition ratio (calendar stream : Qc) : Qc := if Qc_eq_dec stream 0 then 0%Qc else (calendar / stream)%Qc.

(** rate times days *)
Definition rate_volume (r : num) (p : period) : num := option_map (fun x => x * (qz (seconds p) / qz 86400))%Qc r.

(** no negative rate *)
Definition num_nonneg (l : list num) : Prop := forall x, In (Some x) l -> (0 <= x)%Qc.

(** true in every period that has time in common with [q] *)
Definition all_overlapping_true (s : series bool) (q : period) : Prop :=
  forall i p b, nth_error (s_periods s) i = Some p -> nth_error (s_values s) i = Some b -> 0 < overlap p q -> b = true.

(** value of the original series that starts exactly at [t] *)
Definition starts_at {V} (s : series V) (t : datetime) (v : V) : Prop :=
  exists i p, nth_error (s_periods s) i = Some p /\ nth_error (s_values s) i = Some v /\ p_start p = t.

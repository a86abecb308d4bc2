(** What totals, validity and intensity mean, independently of how they are computed. *)
From Coq Require Import String.
From Verif Require Import QcTac Base Num Time_Model Time_Spec Units_Model Rates_Model Rates_Spec Graph_Model Graph_Spec Totals_Model.
Local Open Scope list_scope.

(** the number in period [k]; a value that is missing or not a number counts zero *)
Definition number_at (l : list num) (k : nat) : Qc := match nth_error l k with Some (Some x) => x | _ => 0%Qc end.
(** in every period the total is the sum of the parts *)
Definition adds_up (parts : list (list num)) (total : list num) : Prop :=
  forall k, number_at total k = qsum (map (fun p => number_at p k) parts).
(** rates that may be missing altogether *)
Definition rates_of (o : option rate_series) : list num := match o with Some r => r_values r | None => [] end.
Definition numbers_of (o : option (series num)) : list num := match o with Some r => s_values r | None => [] end.

(** a rate series of the model: a value and a regularity for each of its periods *)
Definition on_periods (ps : list period) (r : rate_series) : Prop := rate_well_formed r /\ r_periods r = ps.
(** what evaluation yields: stream-day fuel and emissions in one unit, power in MW, export per calendar day *)
Definition fuel_ok (ps : list period) (r : rate_series) : Prop := on_periods ps r /\ r_unit r = STANDARD_CUBIC_METER_PER_DAY.
Definition emission_ok (ps : list period) (e : string * rate_series) : Prop := on_periods ps (snd e) /\ r_unit (snd e) = TONS_PER_DAY.
Definition power_ok (ps : list period) (r : rate_series) : Prop := on_periods ps r /\ r_unit r = MEGA_WATT /\ r_type r = STREAM_DAY.
Definition export_ok (ps : list period) (r : rate_series) : Prop :=
  on_periods ps r /\ r_unit r = STANDARD_CUBIC_METER_PER_DAY /\ r_type r = CALENDAR_DAY.
(** the powers of consumers that are driven by a turbine or an engine of their own, and of those fed by a generator set *)
Definition mechanical_powers (i : installation) : list rate_series :=
  flat_map (fun c => match fc_power c with Mechanical (Some p) => [p] | _ => [] end) (in_components i).
Definition electrical_powers (i : installation) : list rate_series :=
  flat_map (fun c => match fc_power c with
                     | Electrical consumers => flat_map (fun p => match p with Some p => [p] | None => [] end) consumers
                     | Mechanical _ => [] end) (in_components i).
(** the emissions of everything that burns fuel, and of the venting emitters *)
Definition all_emitters (i : installation) : list (list (string * rate_series)) := map fc_emissions (in_components i) ++ in_venting i.
Definition installation_ok (ps : list period) (i : installation) : Prop :=
  Forall (fun c => fuel_ok ps (fc_fuel c)) (in_components i) /\
  Forall (Forall (emission_ok ps)) (all_emitters i) /\
  Forall (power_ok ps) (mechanical_powers i) /\ Forall (power_ok ps) (electrical_powers i) /\ export_ok ps (in_export i).
(** powers and regularities that are numbers and not negative *)
Definition sound_power (r : rate_series) : Prop :=
  (forall x, In x (r_values r) -> exists v, x = Some v /\ (0 <= v)%Qc) /\ (forall x, In x (r_regularity r) -> exists v, x = Some v /\ (0 <= v)%Qc).

(** all emissions with a name *)
Definition emitted (name : string) (l : list (list (string * rate_series))) : list rate_series :=
  map snd (filter (fun e => String.eqb (fst e) name) (concat l)).
(** the running sum of rate times days: what has been produced by the end of period [k] *)
Definition produced (ps : list period) (rates : list num) (k : nat) : Qc :=
  qsum (map2 (fun p r => nan_zero r * (qz (seconds p) / qz 86400))%Qc (firstn (S k) ps) (firstn (S k) rates)).

(** a cumulative series: in every period [factor] times what has been produced *)
Definition runs_up (ps : list period) (factor : Qc) (rates : list num) (c : series num) : Prop :=
  s_periods c = ps /\ length (s_values c) = length ps /\
  forall k, (k < length ps)%nat -> nth_error (s_values c) k = Some (Some (factor * produced ps rates k)%Qc).
(** a power, in MW on stream days, and its cumulative in GWh; both are missing if there is nothing to sum *)
Definition power_summed (ps : list period) (parts : list rate_series) (power : option rate_series) (c : option (series num)) : Prop :=
  match power, c with
  | None, None => parts = []
  | Some r, Some e =>
      parts <> [] /\ power_ok ps r /\ adds_up (map r_values parts) (r_values r) /\
      s_unit e = GIGA_WATT_HOURS /\ runs_up ps (qc 24 1000) (calendar_rates r) e /\
      (Forall sound_power parts -> adds_up (map calendar_rates parts) (calendar_rates r))
  | _, _ => False
  end.
(** rate and cumulative of every name that is emitted, once *)
Definition emissions_summed (ps : list period) (emitters : list (list (string * rate_series))) (l : list (string * rate_series * series num)) : Prop :=
  NoDup (map (fun e => fst (fst e)) l) /\
  (forall name, In name (map (fun e => fst (fst e)) l) <-> emitted name emitters <> []) /\
  (forall name r c, In (name, r, c) l ->
     emission_ok ps (name, r) /\ r_type r = CALENDAR_DAY /\ adds_up (map calendar_rates (emitted name emitters)) (r_values r) /\
     s_unit c = TONS /\ runs_up ps 1%Qc (r_values r) c).
(** the totals of a set of components *)
Definition summed (ps : list period) (fuels electrical mechanical : list rate_series) (emitters : list (list (string * rate_series)))
  (t : totals) : Prop :=
  fuel_ok ps (t_energy t) /\ r_type (t_energy t) = CALENDAR_DAY /\ adds_up (map calendar_rates fuels) (r_values (t_energy t)) /\
  s_unit (t_energy_cumulative t) = STANDARD_CUBIC_METER /\ runs_up ps 1%Qc (r_values (t_energy t)) (t_energy_cumulative t) /\
  power_summed ps electrical (t_electrical t) (t_electrical_cumulative t) /\
  power_summed ps mechanical (t_mechanical t) (t_mechanical_cumulative t) /\
  power_summed ps (electrical ++ mechanical) (t_power t) (t_power_cumulative t) /\
  emissions_summed ps emitters (t_emissions t).

(** rate and cumulative of a name in the totals, if it is there *)
Definition emission_rate (name : string) (t : totals) : list num :=
  match List.find (fun e => String.eqb (fst (fst e)) name) (t_emissions t) with Some (_, r, _) => r_values r | None => [] end.
Definition emission_cumulative (name : string) (t : totals) : list num :=
  match List.find (fun e => String.eqb (fst (fst e)) name) (t_emissions t) with Some (_, _, c) => s_values c | None => [] end.

(** the hierarchy of one asset: every container is registered once, the asset alone has no parent, all the others lie below it *)
Definition one_asset (regs : list registration) (asset : node_id) : Prop :=
  hierarchy regs /\ In (asset, None) regs /\ forall c, In c (map fst regs) -> c = asset \/ above regs asset c.
(** valid in period [k]: every container below [c] that has a validity of its own is valid then *)
Definition valid_below (regs : list registration) (aggregates : node_id -> bool) (own : node_id -> option (series bool))
  (c : node_id) (k : nat) : Prop :=
  forall d s, above regs c d -> aggregates d = false -> own d = Some s -> nth_error (s_values s) k = Some true.
(** only the asset, installations (the children of the asset) and generator sets have anything below them *)
Definition three_levels (regs : list registration) (asset : node_id) (generator : node_id -> bool) : Prop :=
  forall c p, In (c, Some p) regs -> p = asset \/ In (p, Some asset) regs \/ generator p = true.
Definition listed_before (l : list node_id) (a b : node_id) : Prop := exists l1 l2, l = l1 ++ a :: l2 /\ In b l2.

(** a quotient, not a number when the divisor is zero *)
Definition per (a b : Qc) : num := if Qc_eq_dec b 0 then None else Some (a / b)%Qc.
(** what is produced in period [k] alone *)
Definition produced_in (ps : list period) (rates : list num) (k : nat) : Qc :=
  match nth_error ps k with Some p => number_at rates k * (qz (seconds p) / qz 86400) | None => 0%Qc end%Qc.
Definition intensity_is (ps : list period) (s : series num) (f : nat -> num) : Prop :=
  s_periods s = ps /\ length (s_values s) = length ps /\ forall k, (k < length ps)%nat -> nth_error (s_values s) k = Some (f k).
(** the first emission called CO2, whatever the capitalisation *)
Definition first_co2 (lower : string -> string) (emissions : list (string * rate_series)) (co2 : rate_series) : Prop :=
  exists before name after, emissions = before ++ (name, co2) :: after /\ lower name = "co2"%string /\ forall e, In e before -> lower (fst e) <> "co2"%string.

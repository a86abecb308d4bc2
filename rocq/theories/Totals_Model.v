(** Model of the totals of installations and of the whole asset in the JSON result, of the validity of containers, of the
    list of components in the result, and of emission intensity. *)
From Coq Require Import PeanoNat String.
From Verif Require Import QcTac Base Num Time_Model Units_Model Rates_Model Graph_Model.
Local Open Scope list_scope.

(** ** domain/infrastructure/energy_components/installation/installation.py

    A component after evaluation.  What its methods return is data here: get_fuel_consumption().rate, get_emissions() (a dict
    in order of insertion) and get_power_consumption().  A FuelConsumerComponent may have mechanical power; a generator set
    has electricity consumers. *)
Inductive component_power : Type :=
| Mechanical (power : option rate_series)
| Electrical (consumers : list (option rate_series)).
Record fuel_component : Type := mkFuelComponent {
  fc_fuel : rate_series; fc_emissions : list (string * rate_series); fc_power : component_power }.
Record installation : Type := mkInstallation {
  in_components : list fuel_component; in_venting : list (list (string * rate_series)); in_export : rate_series }.

(** 112-113, get_fuel_consumers *)
Definition get_fuel_consumers (i : installation) : list fuel_component := in_components i.
(** 115-132, get_mechanical_power_consumers: the power of each *)
Definition get_mechanical (i : installation) : list rate_series :=
  flat_map (fun c => match fc_power c with Mechanical (Some p) => [p] | _ => [] end) (in_components i).
(** 134-151, get_electrical_power_consumers *)
Definition get_electrical (i : installation) : list rate_series :=
  flat_map (fun c => match fc_power c with
                     | Electrical consumers => flat_map (fun p => match p with Some p => [p] | None => [] end) consumers
                     | Mechanical _ => [] end) (in_components i).
(** 156-157, get_emitters: the emissions of each *)
Definition get_emitters (i : installation) : list (list (string * rate_series)) :=
  map fc_emissions (in_components i) ++ in_venting i.

(** ** common/utils/rates.py

    326-329, to_unit of a rate *)
Definition rate_to_unit (s : rate_series) (u : unit_) : result rate_series :=
  if unit_eqb u (r_unit s) then Ok s
  else do f <- unit_to (r_unit s) u; Ok (mkRate (r_periods s) (map (option_map f) (r_values s)) u (r_type s) (r_regularity s)).
(** 142-143, __len__, which decides whether a series counts as true *)
Definition truthy (s : rate_series) : bool := negb (Nat.eqb (length (r_values s)) 0).

(** ** presentation/json_result/mapper.py *)

(** functools.reduce(operator.add, l) *)
Definition reduce_add (l : list rate_series) : result rate_series :=
  match l with
  | [] => Err TypeError
  | a :: rest => fold_left (fun acc b => do x <- acc; rate_add x b) rest (Ok a)
  end.

(** 1024-1033, get_zero_fuel_consumption_rate *)
Definition zero_fuel (ps : list period) : result rate_series :=
  make_rate ps (map (fun _ => Some 0%Qc) ps) STANDARD_CUBIC_METER_PER_DAY CALENDAR_DAY (map (fun _ => Some 1%Qc) ps).
(** 1404-1417, aggregate_fuel_consumption *)
Definition aggregate_fuel (ps : list period) (l : list fuel_component) : result rate_series :=
  match l with
  | [] => zero_fuel ps
  | _ =>
      do rates <- mapM (fun c => do u <- rate_to_unit (fc_fuel c) STANDARD_CUBIC_METER_PER_DAY; rate_to_calendar_day u) l;
      reduce_add rates
  end.
(** 1393-1402, aggregate_power_consumption *)
Definition aggregate_power (l : list rate_series) : result (option rate_series) :=
  match l with
  | [] => Ok None
  | _ => do rates <- mapM (fun p => rate_to_unit p MEGA_WATT) l; do s <- reduce_add rates; Ok (Some s)
  end.
(** 1381-1390, aggregate_emissions *)
Definition add_emission (acc : result (list (string * rate_series))) (e : string * rate_series) :
  result (list (string * rate_series)) :=
  do d <- acc;
  do r <- rate_to_calendar_day (snd e);
  match dict_get String.eqb (fst e) d with
  | None => Ok (dict_set String.eqb (fst e) r d)
  | Some s => do t <- rate_add s r; Ok (dict_set String.eqb (fst e) t d)
  end.
Definition aggregate_emissions (l : list (list (string * rate_series))) : result (list (string * rate_series)) :=
  fold_left (fun acc emitter => fold_left add_emission emitter acc) l (Ok []).

(** rate.to_volumes().cumulative(), and with to_unit in between *)
Definition cumulative_of (r : rate_series) : result (series num) := do v <- rate_to_volumes r; volumes_cumulative v.
Definition cumulative_in (u : unit_) (r : rate_series) : result (series num) :=
  do v <- rate_to_volumes r; do w <- series_to_unit v u; volumes_cumulative w.
(** 973-978, convert_to_cumulative, and 1252-1260: None for a series that is missing or counts as false *)
Definition optional_cumulative (r : option rate_series) : result (option (series num)) :=
  match r with
  | Some p => if truthy p then do c <- cumulative_in GIGA_WATT_HOURS p; Ok (Some c) else Ok None
  | None => Ok None
  end.
(** 864-885, to_full_result: name, rate and cumulative *)
Definition full_emissions (d : list (string * rate_series)) : result (list (string * rate_series * series num)) :=
  mapM (fun e => do c <- cumulative_of (snd e); Ok (e, c)) d.

(** 1233-1242 and 1471-1477: [a + b] if both are there, otherwise [b or a] (the installation) *)
Definition both_powers (a b : option rate_series) (b_first : bool) : result (option rate_series) :=
  let is (x : option rate_series) := match x with Some r => truthy r | None => false end in
  match a, b with
  | Some x, Some y => if truthy x && truthy y then do s <- rate_add x y; Ok (Some s)
                      else Ok (if b_first then (if is b then b else a) else (if is a then a else b))
  | _, _ => Ok (if b_first then (if is b then b else a) else (if is a then a else b))
  end.

Record totals : Type := mkTotals {
  t_power : option rate_series; t_power_cumulative : option (series num);
  t_electrical : option rate_series; t_electrical_cumulative : option (series num);
  t_mechanical : option rate_series; t_mechanical_cumulative : option (series num);
  t_energy : rate_series; t_energy_cumulative : series num;
  t_export : rate_series; t_emissions : list (string * rate_series * series num) }.

(** 1226-1268, map_installation: the totals.  [ps] are the periods of the model. *)
Definition map_installation (ps : list period) (i : installation) : result totals :=
  do electrical <- aggregate_power (get_electrical i);
  do mechanical <- aggregate_power (get_mechanical i);
  do power <- both_powers electrical mechanical true;
  do fuel <- aggregate_fuel ps (get_fuel_consumers i);
  do power_c <- optional_cumulative power;
  do electrical_c <- optional_cumulative electrical;
  do mechanical_c <- optional_cumulative mechanical;
  do fuel_c <- cumulative_of fuel;
  do emissions <- aggregate_emissions (get_emitters i);
  do full <- full_emissions emissions;
  Ok (mkTotals power power_c electrical electrical_c mechanical mechanical_c fuel fuel_c (in_export i) full).

(** 1430-1522, get_asset_result: the totals of the asset *)
Definition asset_totals (ps : list period) (l : list installation) : result totals :=
  do export <- reduce_add (map in_export l);
  do electrical <- aggregate_power (flat_map get_electrical l);
  do mechanical <- aggregate_power (flat_map get_mechanical l);
  do power <- both_powers mechanical electrical false;
  do power_c <- optional_cumulative power;
  do electrical_c <- optional_cumulative electrical;
  do mechanical_c <- optional_cumulative mechanical;
  do fuel <- aggregate_fuel ps (flat_map get_fuel_consumers l);
  do fuel_c <- cumulative_of fuel;
  do emissions <- aggregate_emissions (flat_map get_emitters l);
  do full <- full_emissions emissions;
  Ok (mkTotals power power_c electrical electrical_c mechanical mechanical_c fuel fuel_c export full).

(** ** presentation/yaml/model.py

    rates.py:456-466, TimeSeriesBoolean.__mul__ *)
Definition bool_mul (a b : series bool) : result (series bool) :=
  make_series (s_periods a) (map2 andb (s_values a) (s_values b)) (s_unit a).
(** 484-505, get_validity.  [aggregates]: is the container an installation or the asset; [own]: the is_valid of the consumer
    result, if there is one.  [n] bounds the depth of the recursion (RecursionError is OtherError).  An assertion that there
    are children. *)
Section Validity.
Variables (g : graph) (aggregates : node_id -> bool) (own : node_id -> option (series bool)) (ps : list period).
Fixpoint get_validity (n : nat) (c : node_id) : result (series bool) :=
  match n with
  | O => Err OtherError
  | S n' =>
      if aggregates c then
        do children <- get_all_children g c;
        do validity <- mapM (get_validity n') children;
        match validity with
        | [] => Err AssertionError
        | a :: rest => fold_left (fun acc b => do x <- acc; bool_mul x b) rest (Ok a)
        end
      else match own c with
           | Some s => Ok s
           | None => make_series ps (map (fun _ => true) ps) NONE
           end
  end.
End Validity.

(** ** mapper.py 1270-1380, map_container: the ids of the components reported, the container itself first.  [generator]:
    is the container a generator set.  [n] bounds the depth of the recursion. *)
Section Components.
Variables (g : graph) (generator : node_id -> bool).
Fixpoint map_container (n : nat) (c : node_id) : result (list node_id) :=
  match n with
  | O => Err OtherError
  | S n' =>
      if generator c then
        do consumers <- get_children g c;
        do subs <- mapM (map_container n') consumers;
        Ok (c :: concat subs)
      else Ok [c]
  end.
(** 1440-1464, the sub_components of get_asset_result *)
Definition asset_components (n : nat) (installations : list node_id) : result (list node_id) :=
  do l <- mapM (fun i => do containers <- get_children g i;
                         do subs <- mapM (map_container n) containers;
                         Ok (i :: concat subs)) installations;
  Ok (concat l).
End Components.

(** ** domain/emission/emission_intensity.py *)

(** rates.py:541-562 and 647-674, __truediv__: NaN where the divisor is zero.  np.divide raises ValueError when the lengths
    differ and cannot be broadcast. *)
Definition intensity_unit (a b : unit_) : result unit_ :=
  match a, b with
  | KILO, STANDARD_CUBIC_METER => Ok KG_SM3
  | KILO, BOE => Ok KG_BOE
  | _, _ => Err ProgrammingError
  end.
Definition divide_series (a b : series num) : result (series num) :=
  do u <- intensity_unit (s_unit a) (s_unit b);
  if negb (Nat.eqb (length (s_values a)) (length (s_values b))) then Err ValueError
  else make_series (s_periods a)
         (map2 (fun x y => if nonzero y then ndiv x y else None) (s_values a) (s_values b)) u.
(** 21-44, the constructor *)
Definition make_intensity (emission export : series num) : result unit_ :=
  do u <- intensity_unit (s_unit emission) (s_unit export);
  if negb (Nat.eqb (length (s_values emission)) (length (s_values export))) then Err ValueError else Ok u.
(** 46-60, calculate_for_periods *)
Definition intensity_for_periods (emission export : series num) : result (series num) :=
  do u <- make_intensity emission export;
  do ev <- cumulative_to_volumes emission;
  do hv <- cumulative_to_volumes export;
  do q <- divide_series ev hv;
  Ok (mkSeries (s_periods emission) (s_values q) u).
(** 62-74, calculate_cumulative *)
Definition intensity_cumulative (emission export : series num) : result (series num) :=
  do u <- make_intensity emission export;
  do q <- divide_series emission export;
  Ok (mkSeries (s_periods emission) (s_values q) u).

(** ** ecalc_cli/emission_intensity.py

    36-87, EmissionIntensityCalculator and get_results.  [lower] is str.lower.  An emission is its name and its rate.  Without a
    CO2 emission next() raises StopIteration (OtherError).  get_cumulative_kg: presentation/json_result/result/emission.py:20-22. *)
Record intensity_results : Type := mkIntensity {
  i_sm3 : series num; i_boe : series num; i_yearly_sm3 : option (series num); i_yearly_boe : option (series num) }.
Definition co2_emission (lower : string -> string) (emissions : list (string * rate_series)) : result rate_series :=
  match List.find (fun e => String.eqb (lower (fst e)) "co2"%string) emissions with Some e => Ok (snd e) | None => Err OtherError end.
Definition intensity_results_of (lower : string -> string) (export : rate_series) (emissions : list (string * rate_series)) (yearly : bool) :
  result intensity_results :=
  do exported <- cumulative_of export;
  do co2 <- co2_emission lower emissions;
  do kg <- cumulative_in KILO co2;
  do sm3 <- series_to_unit exported STANDARD_CUBIC_METER;
  do boe <- series_to_unit exported BOE;
  do _ <- make_intensity kg sm3;
  do _ <- make_intensity kg boe;
  do yearly_sm3 <- (if yearly then do s <- intensity_for_periods kg sm3; Ok (Some s) else Ok None);
  do yearly_boe <- (if yearly then do s <- intensity_for_periods kg boe; Ok (Some s) else Ok None);
  do c_sm3 <- intensity_cumulative kg sm3;
  do c_boe <- intensity_cumulative kg boe;
  Ok (mkIntensity c_sm3 c_boe yearly_sm3 yearly_boe).

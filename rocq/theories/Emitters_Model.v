(** Model of venting emitters and of the fuel and electricity consumers around an energy usage model. *)
From Coq Require Import PeanoNat String.
From Verif Require Import QcTac Base BaseLemmas Time_Model Num Expr_Model Vars_Model Units_Model Rates_Model
  Input_Model Interp_Model Energy_Model.
Local Open Scope list_scope.

(** domain/regularity.py:40-51, Regularity.time_series: the values of the regularity over the periods *)
Definition regularity_series (vm : variables_map) (regularity : list Qc) : result (series num) :=
  make_series (vm_periods vm) (map Some regularity) NONE.

(** ** domain/infrastructure/emitters/venting_emitter.py *)

(** What EmissionRate (24-34) and OilVolumeRate (71-80) are made of: the expression and the condition of
    TimeSeriesExpression (time_series_expression.py:15-37), the unit and the rate type.  Both classes have the same
    code, one definition models both. *)
Record rate_input : Type := mkRateInput {
  ri_value : list token; ri_condition : option (list token); ri_unit : unit_; ri_type : rate_type }.

Section Emitters.
  Variable np_pow : Qc -> Qc -> Qc.

  (** time_series_expression.py:49-73, get_masked_values (the flattening of line 61 changes nothing for the flat list
      that evaluate returns) *)
  Definition masked_values (vm : variables_map) (r : rate_input) : result (list num) :=
    do values <- vm_evaluate np_pow vm (ri_value r);
    do mask <- match ri_condition r with
               | Some c => do m <- vm_evaluate np_pow vm c; Ok (Some m)
               | None => Ok None
               end;
    apply_mask mask (map Some values).

  (** 35-53 and 82-100, _get_stream_day_values *)
  Definition stream_day_values (vm : variables_map) (regularity : list Qc) (r : rate_input) : result (list num) :=
    do rate <- masked_values vm r;
    match ri_type r with
    | CALENDAR_DAY => rates_to_stream_day rate (map Some regularity)
    | STREAM_DAY => Ok rate
    end.

  (** 64-67 and yaml_venting_emitter.py:59-75: a VentingEmission, its name in lower case *)
  Definition make_venting_emission (name : string) (r : rate_input) : string * rate_input := (lower name, r).

  (** 182-191, the body of the loop in DirectVentingEmitter._get_emissions.  The stream-day values are computed when the
      emission is made, before the loop; an exception there is the exception here. *)
  Definition add_direct (vm : variables_map) (regularity : list Qc) (acc : result (list (string * series num)))
      (e : string * rate_input) : result (list (string * series num)) :=
    do emissions <- acc;
    do rate <- stream_day_values vm regularity (snd e);
    do convert <- unit_to (ri_unit (snd e)) TONS_PER_DAY;
    do s <- make_series (vm_periods vm) (map (option_map convert) rate) TONS_PER_DAY;
    Ok (dict_set String.eqb (fst e) s emissions).
  (** 180-192, DirectVentingEmitter._get_emissions *)
  Definition direct_emissions (vm : variables_map) (regularity : list Qc) (es : list (string * rate_input))
    : result (list (string * series num)) :=
    fold_left (add_direct vm regularity) es (Ok []).

  (** 216-221, OilVentingEmitter.get_oil_rates *)
  Definition oil_rates (vm : variables_map) (regularity : list Qc) (volume : rate_input) : result (list num) :=
    do rate <- stream_day_values vm regularity volume;
    do convert <- unit_to (ri_unit volume) STANDARD_CUBIC_METER_PER_DAY;
    Ok (map (option_map convert) rate).
  (** 111-114 and yaml_venting_emitter.py:32-47: the name in lower case, and the factor *)
  Definition make_volume_emission (name : string) (factor : list token) : string * list token := (lower name, factor).
  (** 201-213, the body of the loop in OilVentingEmitter._get_emissions *)
  Definition add_oil (vm : variables_map) (oil : list num) (acc : result (list (string * series num)))
      (e : string * list token) : result (list (string * series num)) :=
    do emissions <- acc;
    do factors <- vm_evaluate np_pow vm (snd e);
    let kg := map (fun of => nmul (fst of) (Some (snd of))) (zip oil factors) in
    do convert <- unit_to KILO_PER_DAY TONS_PER_DAY;
    do s <- make_series (vm_periods vm) (map (option_map convert) kg) TONS_PER_DAY;
    Ok (dict_set String.eqb (fst e) s emissions).
  (** 201-214, OilVentingEmitter._get_emissions *)
  Definition oil_emissions (vm : variables_map) (regularity : list Qc) (volume : rate_input) (es : list (string * list token))
    : result (list (string * series num)) :=
    do oil <- oil_rates vm regularity volume;
    fold_left (add_oil vm oil) es (Ok []).

  (** 147-151, VentingEmitter.get_emissions: every emission with the regularity *)
  Definition with_regularity (vm : variables_map) (regularity : list Qc) (d : list (string * series num))
    : result (list (string * rate_series)) :=
    do reg <- regularity_series vm regularity;
    mapM (fun e => do s <- rate_from_stream_day (snd e) reg; Ok (fst e, s)) d.
  Definition direct_get_emissions (vm : variables_map) (regularity : list Qc) (es : list (string * rate_input))
    : result (list (string * rate_series)) :=
    do d <- direct_emissions vm regularity es; with_regularity vm regularity d.
  Definition oil_get_emissions (vm : variables_map) (regularity : list Qc) (volume : rate_input) (es : list (string * list token))
    : result (list (string * rate_series)) :=
    do d <- oil_emissions vm regularity volume es; with_regularity vm regularity d.
  (** 223-230, OilVentingEmitter.get_storage_rates *)
  Definition storage_rates (vm : variables_map) (regularity : list Qc) (volume : rate_input) : result rate_series :=
    do oil <- oil_rates vm regularity volume;
    make_rate (vm_periods vm) oil STANDARD_CUBIC_METER_PER_DAY STREAM_DAY (map Some regularity).

  (** ** energy_components/fuel_consumer/fuel_consumer.py *)

  (** 50-55, the check of the constructor; EcalcValidationException is [ValidationError] *)
  Definition make_fuel_consumer {F M} (fuel : list (period * F)) (energy_usage_model : list (period * M)) : result unit :=
    do consumer_period <- temporal_model_period energy_usage_model;
    do fuel_period <- temporal_model_period fuel;
    if contains_period fuel_period consumer_period then Ok tt else Err ValidationError.

  (** the parts of the consumer result (core/result/results.py) that are used here; evaluating the consumer is not
      modelled here (Train_Model, Sampled_Model, System_Model) *)
  Record consumer_result : Type := mkConsumerResult {
    cr_periods : list period; cr_energy_usage : series num; cr_power : option (series num) }.

  (** 99-104, get_fuel_consumption: the rate *)
  Definition fuel_consumption (vm : variables_map) (regularity : list Qc) (res : consumer_result) : result rate_series :=
    do reg <- regularity_series vm regularity;
    rate_from_stream_day (cr_energy_usage res) reg.

  (** 106-122, get_power_consumption; [len(power)] is the number of values *)
  Definition fuel_consumer_power (vm : variables_map) (regularity : list Qc) (res : consumer_result)
    : result (option rate_series) :=
    match cr_power res with
    | None => Ok None
    | Some power =>
        let n := List.length (s_values power) in
        if Nat.ltb 0 n && Nat.eqb n (List.length (vm_periods vm))
           && Nat.eqb (List.length (cr_periods res)) (List.length (s_periods power)) then
          do reg <- regularity_series vm regularity;
          do r <- rate_from_stream_day power reg;
          Ok (Some r)
        else Ok None
    end.

  (** 127-135, get_emissions; the emissions of the fuel model are series over all the periods (fuel_model.py:47-55) *)
  Definition fuel_consumer_emissions (vm : variables_map) (regularity : list Qc) (fuel : list (period * fuel_type))
      (res : consumer_result) : result (list (string * rate_series)) :=
    do rate <- fuel_consumption vm regularity res;
    do emissions <- evaluate_emissions np_pow vm fuel (r_values rate);
    do d <- mapM (fun e => do s <- make_series (vm_periods vm) (snd e) TONS_PER_DAY; Ok (fst e, s)) emissions;
    with_regularity vm regularity d.

  (** ** energy_components/electricity_consumer/electricity_consumer.py:86-90, get_power_consumption *)
  Definition electricity_consumer_power (vm : variables_map) (regularity : list Qc) (res : consumer_result)
    : result (option rate_series) :=
    match cr_power res with
    | None => Ok None
    | Some power =>
        do reg <- regularity_series vm regularity;
        do r <- rate_from_stream_day power reg;
        Ok (Some r)
    end.
End Emitters.

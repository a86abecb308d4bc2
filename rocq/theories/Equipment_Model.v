(** Model of pump and compressor consumers: how the expressions of an energy usage model become operating points, which
    pressures are accepted, and how the results of the machine become the result of the consumer. *)
From Coq Require Import PeanoNat String.
From Verif Require Import QcTac Base BaseLemmas Time_Model Num Expr_Model Vars_Model Units_Model Rates_Model
  Input_Model Interp_Model Energy_Model Chart_Model Pump_Model Consumer_Model.
Local Open Scope list_scope.
Local Open Scope Qc_scope.

(** ** What a machine is evaluated at, and its answer, for one period: domain/process/evaluation_input.py:15-172.  The
    fluid of a compressor is part of the machine. *)
Record operating_point : Type := mkPoint {
  op_rates : list Qc; op_suction : option Qc; op_discharge : option Qc; op_intermediate : option Qc; op_density : option Qc }.
Record machine_output : Type := mkOutput { mo_energy : num; mo_power : num; mo_valid : bool }.
(** A machine is evaluated period by period; [mc_has_power]: its results have a power.  (Charts that are made from the
    whole time series of inputs are not machines in this sense and are left out.) *)
Record machine : Type := mkMachine {
  mc_type : energy_usage_type; mc_has_power : bool; mc_run : operating_point -> result machine_output }.

(** ** pump.py:113-168, evaluate_rate_ps_pd_density, and core/results/pump.py:41-64: energy usage and power are the same *)
Definition pump_machine (closest : list (Qc * Qc) -> Qc -> Qc -> Qc * (Qc * Qc)) (np_std : list Qc -> Qc) (bump : Qc -> Qc)
    (curves : list curve) (margin : Qc) : machine :=
  mkMachine POWER true (fun p =>
    match op_rates p, op_suction p, op_discharge p, op_density p with
    | [rate], Some suction, Some discharge, Some density =>
        do r <- model_simulate closest np_std bump curves margin rate suction discharge density;
        let power := Some (fst (fst r)) in
        Ok (mkOutput power power (match snd r with NO_FAILURE => true | _ => false end))
    | _, _, _, _ => Err TypeError
    end).

(** ** Compressors.  core/results/compressor.py:189-281, CompressorTrainResult for one period: a train has stages, which
    are valid or not; a sampled compressor has none. *)
Record compressor_output : Type := mkCO {
  co_energy : num; co_power : num; co_no_failure : bool; co_stages : option bool }.
Record compressor : Type := mkCompressor {
  co_type : energy_usage_type; co_has_power : bool; co_run : operating_point -> result compressor_output }.
(** 254-281, _is_valid *)
Definition compressor_valid (energy : num) (turbine_valid : bool) (o : compressor_output) : bool :=
  co_no_failure o && turbine_valid &&
  match co_stages o with Some b => b | None => match energy with Some _ => true | None => false end end.
(** a compressor (train) driven by electricity, or a sampled one *)
Definition compressor_machine (c : compressor) : machine :=
  mkMachine (co_type c) (co_has_power c) (fun p =>
    do o <- co_run c p;
    Ok (mkOutput (co_energy o) (co_power o) (compressor_valid (co_energy o) true o))).
(** compressor/core/base.py:36-70, CompressorWithTurbineModel.evaluate, with 240-245 of compressor.py (the result of the
    turbine replaces energy usage and power) and core/results/turbine.py *)
Definition adjusted_load (factor constant : Qc) (power : num) : num :=
  match power with Some p => if Qcltb 0 p then Some (p * factor + constant) else Some p | None => None end.
Definition turbine_machine (t : turbine) (factor constant : Qc) (c : compressor) : machine :=
  mkMachine FUEL (co_has_power c) (fun p =>
    do o <- co_run c p;
    if co_has_power c then
      let r := turbine_evaluate t 0 (adjusted_load factor constant (co_power o)) in
      Ok (mkOutput (tr_usage r) (tr_load r) (compressor_valid (tr_usage r) (negb (tr_exceeds r)) o))
    else Ok (mkOutput (co_energy o) (co_power o) (compressor_valid (co_energy o) true o))).

(** ** The energy usage models: yaml_energy_usage_model_pump.py, yaml_energy_usage_model_compressor.py,
    yaml_energy_usage_model_compressor_train_multiple_streams.py (with the machine they refer to) *)
Record pump_model : Type := mkPump {
  pm_curves : list curve; pm_margin : Qc; pm_rate : expression_input; pm_density : expression_input;
  pm_suction : expression_input; pm_discharge : expression_input; pm_common : conditions_and_loss }.
Record compressor_model : Type := mkCompressorModel {
  cm_machine : machine; cm_sampled : bool; cm_rate : expression_input;
  cm_suction : option expression_input; cm_discharge : option expression_input; cm_common : conditions_and_loss }.
Record streams_model : Type := mkStreams {
  sm_machine : machine; sm_rates : list expression_input;
  sm_suction : expression_input; sm_discharge : expression_input; sm_interstage : option expression_input;
  sm_common : conditions_and_loss }.

Section Equipment.
  Variable np_pow : Qc -> Qc -> Qc.

  (** the rates of one stream per producing day (expression_time_series_flow_rate.py:46-74): given per calendar day;
      the evaluated numbers are never NaN *)
  Definition equipment_rate (vm : variables_map) (c : conditions_and_loss) (regularity : list Qc) (e : expression_input)
    : result (list Qc) :=
    do values <- vm_evaluate np_pow vm (input_tokens e);
    do mask <- condition_values np_pow vm c;
    do rates <- flow_rates mask (map Some values) CALENDAR_DAY (map Some regularity);
    mapM (of_option ValueError) rates.
  (** consumer_function_mapper.py:1204-1205, the sum over the streams *)
  Fixpoint summed (streams : list (list Qc)) : list Qc :=
    match streams with
    | [] => []
    | [rates] => rates
    | rates :: rest => map2 Qcplus rates (summed rest)
    end.
  (** 1116-1120, 1207 and 1286-1290: pressures are validated where something flows *)
  Definition validation_mask (rates regularity : list Qc) : list bool := map2 (fun r g => Qcltb 0 (r * g)) rates regularity.
  (** expression_time_series_pressure.py:21-44: InvalidPressureException is [ValidationError] *)
  Definition pressure_values (vm : variables_map) (mask : list bool) (e : expression_input) : result (list Qc) :=
    do values <- vm_evaluate np_pow vm (input_tokens e);
    if existsb (fun x => snd x && Qcltb (fst x) 0) (zip values mask) then Err ValidationError else Ok values.
  Definition optional_pressures (vm : variables_map) (mask : list bool) (e : option expression_input) : result (option (list Qc)) :=
    match e with Some e => do v <- pressure_values vm mask e; Ok (Some v) | None => Ok None end.

  (** ** consumer_function_mapper.py:224-266, validate_pressures (both exceptions are [ValidationError]): one period *)
  Definition check_pressures (suction discharge : Qc) (intermediate : option Qc) : result unit :=
    if Qcleb suction 0 then Err ValidationError
    else if Qcleb discharge 0 then Err ValidationError
    else match intermediate with
         | Some i =>
             if Qcleb i 0 then Err ValidationError
             else if negb (Qcleb suction i && Qcleb i discharge) then Err ValidationError else Ok tt
         | None => if negb (Qcleb suction discharge) then Err ValidationError else Ok tt
         end.
  Fixpoint validate_pressures (mask : list bool) (suction discharge : list Qc) (intermediate : option (list Qc)) : result unit :=
    match suction with
    | [] => Ok tt
    | s :: suctions =>
        match mask with
        | [] => Err IndexError
        | validated :: masks =>
            do _ <- (if validated then
                       do d <- of_option IndexError (hd_error discharge);
                       do i <- match intermediate with
                               | Some l => do i <- of_option IndexError (hd_error l); Ok (Some i)
                               | None => Ok None
                               end;
                       check_pressures s d i
                     else Ok tt);
            validate_pressures masks suctions (tl discharge) (option_map (@tl Qc) intermediate)
        end
    end.

  (** ** evaluation_input.py:54-73, 109-131 and 159-172, apply_to_model: the operating point of period [k] *)
  Definition value_in (k : nat) (l : list Qc) : result Qc := of_option IndexError (nth_error l k).
  Definition optional_in (k : nat) (l : option (list Qc)) : result (option Qc) :=
    match l with Some l => do v <- value_in k l; Ok (Some v) | None => Ok None end.
  Definition point_in (rates : list (list Qc)) (suction discharge intermediate density : option (list Qc)) (k : nat)
    : result operating_point :=
    do r <- mapM (value_in k) rates;
    do s <- optional_in k suction;
    do d <- optional_in k discharge;
    do i <- optional_in k intermediate;
    do rho <- optional_in k density;
    Ok (mkPoint r s d i rho).

  (** ** presentation/yaml/model.py:518-608 with consumer_function/results.py:13-70: the machine evaluated in every
      period, and the power loss (without a factor nothing is changed, which is a factor of zero) *)
  Definition machine_result (vm : variables_map) (c : conditions_and_loss) (mc : machine) (points : list operating_point)
    : result function_result :=
    do outputs <- mapM (mc_run mc) points;
    do loss <- loss_values np_pow vm c;
    do energy <- apply_power_loss (map mo_energy outputs) loss;
    do power <- (if mc_has_power mc then do p <- apply_power_loss (map mo_power outputs) loss; Ok (Some p) else Ok None);
    Ok (mkFR (vm_periods vm) energy (usage_unit (mc_type mc)) power (map mo_valid outputs)).
  Definition run_machine (vm : variables_map) (c : conditions_and_loss) (mc : machine)
      (rates : list (list Qc)) (suction discharge intermediate density : option (list Qc)) : result function_result :=
    do points <- mapM (point_in rates suction discharge intermediate density) (seq 0 (List.length (vm_periods vm)));
    machine_result vm c mc points.

  (** ** consumer_function_mapper.py:1087-1158, _map_pump (the chart is made when the model is read) *)
  Definition pump_evaluate_model (closest : list (Qc * Qc) -> Qc -> Qc -> Qc * (Qc * Qc)) (np_std : list Qc -> Qc) (bump : Qc -> Qc)
      (consumes : energy_usage_type) (m : pump_model) (regularity : list Qc) (vm : variables_map) : result function_result :=
    if negb (usage_type_eqb consumes POWER) then Err ValidationError
    else
      do rate <- equipment_rate vm (pm_common m) regularity (pm_rate m);
      let mask := validation_mask rate regularity in
      do suction <- pressure_values vm mask (pm_suction m);
      do discharge <- pressure_values vm mask (pm_discharge m);
      do _ <- validate_pressures mask suction discharge None;
      do density <- vm_evaluate np_pow vm (input_tokens (pm_density m));
      run_machine vm (pm_common m) (pump_machine closest np_std bump (pm_curves m) (pm_margin m))
        [rate] (Some suction) (Some discharge) None (Some density).

  (** ** 1160-1255, _map_multiple_streams_compressor *)
  Definition streams_evaluate (consumes : energy_usage_type) (m : streams_model) (regularity : list Qc) (vm : variables_map)
    : result function_result :=
    if negb (usage_type_eqb consumes (mc_type (sm_machine m))) then Err ValidationError
    else
      do rates <- mapM (equipment_rate vm (sm_common m) regularity) (sm_rates m);
      let mask := validation_mask (summed rates) regularity in
      do suction <- pressure_values vm mask (sm_suction m);
      do discharge <- pressure_values vm mask (sm_discharge m);
      do interstage <- optional_pressures vm mask (sm_interstage m);
      do _ <- validate_pressures mask suction discharge interstage;
      run_machine vm (sm_common m) (sm_machine m) rates (Some suction) (Some discharge) interstage None.

  (** ** 1257-1366, _map_compressor: only a sampled compressor can do without a pressure *)
  Definition compressor_evaluate (consumes : energy_usage_type) (m : compressor_model) (regularity : list Qc) (vm : variables_map)
    : result function_result :=
    do rate <- equipment_rate vm (cm_common m) regularity (cm_rate m);
    let mask := validation_mask rate regularity in
    do suction <- optional_pressures vm mask (cm_suction m);
    do discharge <- optional_pressures vm mask (cm_discharge m);
    do _ <- match suction, discharge with
            | Some s, Some d => validate_pressures mask s d None
            | _, _ => Ok tt
            end;
    if negb (usage_type_eqb consumes (mc_type (cm_machine m))) then Err ValidationError
    else
      do _ <- (if cm_sampled m then Ok tt
               else match suction, discharge with Some _, Some _ => Ok tt | _, _ => Err AssertionError end);
      run_machine vm (cm_common m) (cm_machine m) [rate] suction discharge None None.
End Equipment.

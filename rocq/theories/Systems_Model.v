(** Model of pump and compressor systems as they are described in the model file: what the description must satisfy, how
    its operational settings become series, and the result of the system as a consumer. *)
From Coq Require Import PeanoNat String.
From Verif Require Import QcTac Base BaseLemmas Time_Model Num Expr_Model Vars_Model Units_Model Rates_Model
  Input_Model Interp_Model Energy_Model Consumer_Model Equipment_Model System_Model.
Local Open Scope list_scope.
Local Open Scope Qc_scope.

(** ** presentation/yaml/yaml_types/components/legacy/energy_usage_model/yaml_energy_usage_model_consumer_system.py:
    34-92, an operational setting (the densities only exist in pump systems) *)
Record system_setting : Type := mkSystemSetting {
  ss_rates : option (list expression_input); ss_fractions : option (list expression_input);
  ss_suction : option expression_input; ss_suctions : option (list expression_input);
  ss_discharge : option expression_input; ss_discharges : option (list expression_input);
  ss_densities : option (list expression_input); ss_cross : option (list Z) }.
(** 94-119 and 210-248: a system of compressors or of pumps, with the consumers that its references lead to and what
    they consume (pumps: electricity) *)
Record system_model : Type := mkSystem {
  sy_pumps : bool; sy_consumers : list (consumer * energy_usage_type);
  sy_total : option expression_input; sy_density : option expression_input;
  sy_settings : list system_setting; sy_common : conditions_and_loss }.

(** ** The validators of the description; a ValueError in a pydantic validator is a [ValidationError] *)
(** 71-90, ensure_mutually_exclusive_discharge_pressures and ensure_mutually_exclusive_suction_pressures *)
Definition check_one_of {A B} (common : option A) (individual : option B) : result unit :=
  match common, individual with
  | None, None => Err ValidationError
  | Some _, Some _ => Err ValidationError
  | _, _ => Ok tt
  end.
(** 121-127 and 250-256, assert_unique_names *)
Definition check_names (consumers : list consumer) : result unit :=
  if Nat.eqb (List.length consumers) (List.length (nodup string_dec (map c_name consumers))) then Ok tt else Err ValidationError.
(** 162-207 and 258-312, validate_operational_settings_match_compressors and ..._pumps: the lists of a setting *)
Definition check_count {A} (count : nat) (l : option (list A)) : result unit :=
  match l with
  | Some l => if Nat.eqb (List.length l) count then Ok tt else Err ValidationError
  | None => Ok tt
  end.
Definition check_setting (m : system_model) (s : system_setting) : result unit :=
  let count := List.length (sy_consumers m) in
  do _ <- check_count count (ss_rates s);
  do _ <- check_count count (ss_fractions s);
  do _ <- check_count count (ss_suctions s);
  do _ <- check_count count (ss_discharges s);
  if sy_pumps m then check_count count (ss_densities s) else Ok tt.
(** the validators of the settings come before those of the system.  129-160 (charts that are made from the input, and
    trains with an unknown number of stages, are refused) is left out: it looks at the referenced models. *)
Definition check_description (m : system_model) : result unit :=
  do _ <- mapM (fun s => do _ <- check_one_of (ss_discharge s) (ss_discharges s); check_one_of (ss_suction s) (ss_suctions s)) (sy_settings m);
  do _ <- check_names (map fst (sy_consumers m));
  do _ <- mapM (check_setting m) (sy_settings m);
  Ok tt.

Section Systems.
  Variable np_pow : Qc -> Qc -> Qc.

  (** ** presentation/yaml/mappers/consumer_function_mapper.py:1368-1523, _map_compressor_system, and 1525-1654, _map_pump_system *)

  (** 1377-1381 and 1539-1543: the text of a fraction of the total.  As in [join_conditions], the texts are given by their
      tokens, and a number is one numeric token (that is what is read again for a number that is not negative). *)
  Definition fraction_text (total fraction : expression_input) : expression_input :=
    IText ([TOp "("] ++ input_tokens total ++ [TOp ")"; TOp "{*}"; TOp "("] ++ input_tokens fraction ++ [TOp ")"]).
  (** 1376-1406 and 1538-1568: the expressions of the rates (iterating over None is a TypeError) *)
  Definition rate_inputs (m : system_model) (s : system_setting) : result (list expression_input) :=
    match ss_fractions s with
    | Some fractions => do total <- of_option AssertionError (sy_total m); Ok (map (fraction_text total) fractions)
    | None => of_option TypeError (ss_rates s)
    end.

  (** 1417-1467: the pressures of the compressors, each validated where its compressor has a rate *)
  Definition compressor_pressures (vm : variables_map) (masks : list (list bool)) (common : option expression_input)
      (individual : option (list expression_input)) : result (list (list Qc)) :=
    match common with
    | Some e => mapM (fun mask => pressure_values np_pow vm mask e) masks
    | None => do es <- of_option AssertionError individual; mapM (fun x => pressure_values np_pow vm (snd x) (fst x)) (zip es masks)
    end.
  (** 1570-1609: the pressures of the pumps, validated in all periods (expression_time_series_pressure.py:13-19: no mask) *)
  Definition pump_pressures (vm : variables_map) (count : nat) (common : option expression_input)
      (individual : option (list expression_input)) : result (list (list Qc)) :=
    let all := repeat true (List.length (vm_periods vm)) in
    match common with
    | Some e => do v <- pressure_values np_pow vm all e; Ok (repeat v count)
    | None => do es <- of_option AssertionError individual; mapM (pressure_values np_pow vm all) es
    end.
  (** 1611-1629: the densities of the pumps; an empty list is falsy *)
  Definition pump_densities (vm : variables_map) (m : system_model) (s : system_setting) : result (list (list Qc)) :=
    match ss_densities s with
    | Some ((_ :: _) as es) => mapM (fun e => vm_evaluate np_pow vm (input_tokens e)) es
    | _ => do e <- of_option AssertionError (sy_density m);
           do v <- vm_evaluate np_pow vm (input_tokens e);
           Ok (repeat v (List.length (sy_consumers m)))
    end.
  (** 1469-1473 and 1631-1635: [validate_pressures] for each pair *)
  Fixpoint validate_all (masks : list (list bool)) (suctions discharges : list (list Qc)) : result unit :=
    match masks, suctions, discharges with
    | mask :: masks, s :: suctions, d :: discharges =>
        do _ <- validate_pressures mask s d None;
        validate_all masks suctions discharges
    | _, _, _ => Ok tt
    end.

  (** 1374-1481 and 1537-1644: one operational setting *)
  Definition map_setting (m : system_model) (regularity : list Qc) (vm : variables_map) (s : system_setting)
    : result operational_setting :=
    do inputs <- rate_inputs m s;
    do rates <- mapM (equipment_rate np_pow vm (sy_common m) regularity) inputs;
    let count := List.length (sy_consumers m) in
    let some := map (map (@Some Qc)) in
    do r <- (if sy_pumps m then
               do suctions <- pump_pressures vm count (ss_suction s) (ss_suctions s);
               do discharges <- pump_pressures vm count (ss_discharge s) (ss_discharges s);
               do densities <- pump_densities vm m s;
               do _ <- validate_all (repeat (repeat true (List.length (vm_periods vm))) (List.length suctions)) suctions discharges;
               Ok (mkSetting (some rates) (some suctions) (some discharges) (ss_cross s) (Some (some densities)))
             else
               let masks := map (fun r => validation_mask r regularity) rates in
               do suctions <- compressor_pressures vm masks (ss_suction s) (ss_suctions s);
               do discharges <- compressor_pressures vm masks (ss_discharge s) (ss_discharges s);
               do _ <- validate_all masks suctions discharges;
               Ok (mkSetting (some rates) (some suctions) (some discharges) (ss_cross s) None));
    do _ <- check_list_length r;
    Ok r.

  (** 1499-1511: what the compressors of a system consume; electricity if there is none *)
  Definition system_consumes (types : list energy_usage_type) : result energy_usage_type :=
    match types with
    | [] => Ok POWER
    | t :: ts => if forallb (usage_type_eqb t) ts then Ok t else Err ValidationError
    end.

  (** the mapping with the constructor (system/consumer_function.py:49-75) and the evaluation, and the result as a consumer
      (system/results.py:76-152; 147-152: the units of the consumers' energy usage are the same, as their types are).  The
      power loss factor is always applied: without one it is zero. *)
  Definition system_result_of (m : system_model) (consumes : energy_usage_type) (vm : variables_map) (settings : list operational_setting)
    : result function_result :=
    let consumers := map fst (sy_consumers m) in
    do _ <- validate_system consumers settings;
    do r <- evaluate_system consumers settings;
    do loss <- loss_values np_pow vm (sy_common m);
    do energy <- system_energy r (Some loss);
    do power <- system_power r (Some loss);
    do valid <- system_valid r;
    Ok (mkFR (vm_periods vm) energy (usage_unit consumes) (Some power) valid).
  Definition system_evaluate (consumes : energy_usage_type) (m : system_model) (regularity : list Qc) (vm : variables_map)
    : result function_result :=
    if sy_pumps m then
      if negb (usage_type_eqb consumes POWER) then Err ValidationError
      else
        do settings <- mapM (map_setting m regularity vm) (sy_settings m);
        system_result_of m consumes vm settings
    else
      do settings <- mapM (map_setting m regularity vm) (sy_settings m);
      do t <- system_consumes (map snd (sy_consumers m));
      if negb (usage_type_eqb consumes t) then Err ValidationError
      else system_result_of m consumes vm settings.
End Systems.

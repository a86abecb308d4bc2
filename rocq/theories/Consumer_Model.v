(** Model of consumers whose energy usage models change over time: how a model is mapped to the part of the run it
    applies to, the direct and the tabulated energy usage models, and how the results of the models become the result
    of the consumer. *)
From Coq Require Import PeanoNat String.
From Verif Require Import QcTac Base BaseLemmas Time_Model Num Expr_Model Vars_Model Units_Model Rates_Model
  Input_Model Interp_Model Energy_Model.
Local Open Scope list_scope.

(** ** presentation/yaml/mappers/consumer_function_mapper.py:170-187 *)

(** 170-172, handle_condition_list: every condition in parentheses, joined by a multiplication.  The texts are
    represented by their tokens.  A number is one numeric token: python writes it as text here and the text is read
    again, which gives that token for non-negative numbers without an exponent. *)
Fixpoint join_conditions (first : expression_input) (rest : list expression_input) : list token :=
  [TOp "("] ++ input_tokens first ++ [TOp ")"] ++
  match rest with
  | [] => []
  | c :: cs => [TOp "{*}"] ++ join_conditions c cs
  end.
(** 180-187, _map_condition (energy_usage_model/common.py:27-31 refuses a model with both): a condition that is falsy (the number 0, the empty text) counts as not given *)
Definition map_condition (condition : option expression_input) (conditions : option (list expression_input))
  : option (list token) :=
  let listed := match conditions with Some (c :: cs) => Some (join_conditions c cs) | _ => None end in
  match condition with
  | Some e => if truthy (TDPlain e) then Some (input_tokens e) else listed
  | None => listed
  end.

(** ** The result of an energy usage model over its periods: consumer_function/results.py:13-70, ConsumerFunctionResult,
    with the values after the power loss factor; the unit is that of the energy usage *)
Record function_result : Type := mkFR {
  fr_periods : list period; fr_energy : list num; fr_unit : unit_; fr_power : option (list num); fr_valid : list bool }.

(** the unit of a type of energy usage: direct_consumer_function.py:33-39, tabular_consumer_function.py:115-117 *)
Definition usage_unit (t : energy_usage_type) : unit_ :=
  match t with POWER => MEGA_WATT | FUEL => STANDARD_CUBIC_METER_PER_DAY end.
Definition usage_type_eqb (a b : energy_usage_type) : bool :=
  match a, b with POWER, POWER => true | FUEL, FUEL => true | _, _ => false end.

(** results.py:36-61: energy usage and power with the loss; the power of an electrical model is its energy usage, a
    fuel consumer has none (direct_consumer_function.py:44-50, tabular_consumer_function.py:118-124) *)
Definition usage_result (ps : list period) (t : energy_usage_type) (allow_negative : bool) (loss : list Qc) (usage : list num)
  : result function_result :=
  do energy <- apply_power_loss usage loss;
  Ok (mkFR ps energy (usage_unit t) (match t with POWER => Some energy | FUEL => None end)
        (map (generic_is_valid allow_negative) usage)).

(** What is common to the energy usage models (energy_usage_model/common.py:9-31) *)
Record conditions_and_loss : Type := mkCommon {
  cl_condition : option expression_input; cl_conditions : option (list expression_input); cl_loss : option expression_input }.

(** energy_usage_model/yaml_energy_usage_model_direct.py: LOAD or FUELRATE, and the rate type *)
Record direct_model : Type := mkDirect {
  dm_type : energy_usage_type; dm_value : expression_input; dm_rate_type : option rate_type; dm_common : conditions_and_loss }.

(** yaml_energy_usage_model_tabulated.py: the table and the variables, by name *)
Record tabulated_model : Type := mkTabulated {
  tm_table : tabular_data; tm_variables : list (string * expression_input); tm_common : conditions_and_loss }.

Section Consumer.
  Variable np_pow : Qc -> Qc -> Qc.
  (** scipy's LinearNDInterpolator for a table with several variables, at one point *)
  Variable interpolate_nd : tabular_data -> list num -> num.

  (** ** domain/regularity.py:81-96, Regularity.get_subset: the same expression, over the periods of the subset *)
  Definition regularity_subset (input : option (temporal_data expression_input)) (vm : variables_map) (i j : nat)
    : result (list Qc) :=
    do sub <- get_subset vm i j;
    do target <- periods_period (vm_periods sub);
    regularity_values np_pow input target sub.

  (** ** consumer_function_mapper.py:991-995: the part of the regularity and of the variables for the period of a model *)
  Definition period_subset (input : option (temporal_data expression_input)) (vm : variables_map) (p : period)
    : result (list Qc * variables_map) :=
    do ij <- get_period_indices p (vm_periods vm);
    do regularity <- regularity_subset input vm (fst ij) (snd ij);
    do sub <- get_subset vm (fst ij) (snd ij);
    Ok (regularity, sub).

  (** time_series_expression.py:64-73: the condition of a model, evaluated *)
  Definition condition_values (vm : variables_map) (c : conditions_and_loss) : result (option (list Qc)) :=
    match map_condition (cl_condition c) (cl_conditions c) with
    | Some ts => do m <- vm_evaluate np_pow vm ts; Ok (Some m)
    | None => Ok None
    end.
  (** expression_time_series_power_loss_factor.py:17-25, get_values: zeros without a factor *)
  Definition loss_values (vm : variables_map) (c : conditions_and_loss) : result (list Qc) :=
    match cl_loss c with
    | Some e => vm_evaluate np_pow vm (input_tokens e)
    | None => Ok (repeat 0%Qc (List.length (vm_periods vm)))
    end.

  (** ** expression_time_series_power.py:31-48, get_stream_day_values *)
  Definition power_values (mask : option (list Qc)) (values : list num) (ty : rate_type) (regularity : list num)
    : result (list num) :=
    do masked <- apply_mask mask values;
    match ty with
    | CALENDAR_DAY => rates_to_stream_day masked regularity
    | STREAM_DAY => Ok masked
    end.

  (** ** consumer_function_mapper.py:997-1046, _map_direct, and direct_consumer_function.py:41-59, evaluate.
      InvalidConsumptionType is [ValidationError]. *)
  Definition direct_evaluate (consumes : energy_usage_type) (m : direct_model) (regularity : list Qc) (vm : variables_map)
    : result function_result :=
    if negb (usage_type_eqb consumes (dm_type m)) then Err ValidationError
    else
      let ty := match dm_rate_type m with Some ty => ty | None => STREAM_DAY end in
      do values <- vm_evaluate np_pow vm (input_tokens (dm_value m));
      do mask <- condition_values vm (dm_common m);
      do usage <- match dm_type m with
                  | FUEL => flow_rates mask (map Some values) ty (map Some regularity)
                  | POWER => power_values mask (map Some values) ty (map Some regularity)
                  end;
      do loss <- loss_values vm (dm_common m);
      usage_result (vm_periods vm) (dm_type m) (usage_type_eqb (dm_type m) POWER) loss usage.

  (** ** expression_time_series_variable.py:36-47, get_values; a variable is a rate when its name, in lower case, is
      "rate" (consumer_function_mapper.py:1075) *)
  Definition variable_values (vm : variables_map) (mask : option (list Qc)) (regularity : list Qc) (v : string * expression_input)
    : result (string * list num) :=
    do values <- vm_evaluate np_pow vm (input_tokens (snd v));
    do masked <- apply_mask mask (map Some values);
    do r <- (if String.eqb (lower (fst v)) "rate" then rates_to_stream_day masked (map Some regularity) else Ok masked);
    Ok (fst v, r).
  (** tabular_consumer_function.py:129-136, _check_variables_match_required; IllegalStateException is [OtherError] *)
  Definition same_names (a b : list string) : bool :=
    forallb (fun x => existsb (String.eqb x) b) a && forallb (fun x => existsb (String.eqb x) a) b.
  (** the values of the variables in period [k], in the order of the table *)
  Definition point (columns : list (list num)) (k : nat) : list num :=
    map (fun c => match nth_error c k with Some v => v | None => None end) columns.
  (** tabular_energy_function.py:39-56 and 121-150: the interpolation of a table with several variables is
      [interpolate_nd] (scipy refuses a table without variables) *)
  Definition tabular_function (t : tabular_data) : result (list num -> num) :=
    match tabular_variables t with
    | [] => do _ <- tabular_validate t; Err ValueError
    | [x] => do f <- tabular_function_1d t; Ok (fun v => match v with [q] => interpolate_1d f q | _ => None end)
    | _ =>
        do _ <- tabular_validate t;
        do _ <- tabular_column t (usage_header (tabular_usage_type t));
        do _ <- mapM (tabular_column t) (tabular_variables t);
        Ok (interpolate_nd t)
    end.
  (** ** consumer_function_mapper.py:1048-1085, _map_tabular, and tabular_consumer_function.py:61-127, evaluate.  Without
      variables the list index of line 80 fails. *)
  Definition tabulated_evaluate (consumes : energy_usage_type) (m : tabulated_model) (regularity : list Qc) (vm : variables_map)
    : result function_result :=
    do f <- tabular_function (tm_table m);
    let t := tabular_usage_type (tm_table m) in
    if negb (usage_type_eqb consumes t) then Err ValidationError
    else
      do mask <- condition_values vm (tm_common m);
      do variables <- mapM (variable_values vm mask regularity) (tm_variables m);
      let by_name := fold_left (fun d v => dict_set String.eqb (fst v) (snd v) d) variables [] in
      let required := tabular_variables (tm_table m) in
      if negb (same_names (map fst by_name) required) then Err OtherError
      else
        do columns <- mapM (fun name => of_option KeyError (dict_get String.eqb name by_name)) required;
        let usage := map (fun k => f (point columns k)) (seq 0 (List.length (vm_periods vm))) in
        do loss <- loss_values vm (tm_common m);
        match tm_variables m with
        | [] => Err IndexError
        | _ => usage_result (vm_periods vm) t false loss usage
        end.

  (** ** consumer_function_mapper.py:985-995 and 1656-1706, from_yaml_to_dto, and legacy_consumer/component.py:66-88,
      Consumer.evaluate: the results of the models in the order of the temporal model; None without a model in the
      period of the run.  [evaluate] maps and evaluates one model on the part of the run it applies to: the model is
      mapped when the consumer is made and evaluated later, both are modelled as one step (a failure of any of them
      is a failure of the whole). *)
  Definition model_results {M} (evaluate : M -> list Qc -> variables_map -> result function_result)
      (input : option (temporal_data expression_input)) (vm : variables_map) (data : temporal_data M) (target : period)
    : result (option (list function_result)) :=
    let adjusted := define_time_model_for_period data target in
    do subsets <- mapM (fun e => do s <- period_subset input vm (fst e); Ok (snd e, s)) adjusted;
    match adjusted with
    | [] => Ok None
    | _ =>
        do _ <- temporal_model_of_periods adjusted;
        do results <- mapM (fun e => evaluate (fst e) (fst (snd e)) (snd (snd e))) subsets;
        Ok (Some results)
    end.
End Consumer.

(** ** core/result/results.py:66-139, ConcatenatedProperty.__get__: the attribute of every result as a series over its
    periods; one unit; the series follow each other; other periods get the fill value *)
Section Concatenate.
  Context {R V : Type}.
  (** the loop 105-128; a result without the attribute ends it when this is allowed *)
  Fixpoint attribute_series (periods : R -> list period) (attribute : R -> option (list V)) (unit : R -> unit_)
      (allow_none : bool) (fill : V) (results : list R) (acc : list (series V)) : result (option (list (series V))) :=
    match results with
    | [] => Ok (Some acc)
    | r :: rest =>
        match attribute r, allow_none with
        | None, true => Ok None
        | None, false =>
            do s <- make_series (periods r) (repeat fill (List.length (periods r))) (unit r);
            attribute_series periods attribute unit allow_none fill rest (acc ++ [s])
        | Some values, _ =>
            do s <- make_series (periods r) values (unit r);
            attribute_series periods attribute unit allow_none fill rest (acc ++ [s])
        end
    end.
  (** 130-133, one unit; reduce(extend) *)
  Definition one_unit (units : list unit_) : bool :=
    match units with [] => false | u :: us => forallb (unit_eqb u) us end.
  Definition reduce_extend (l : list (series V)) : result (series V) :=
    match l with
    | [] => Err TypeError
    | s :: ss => fold_left (fun acc t => do a <- acc; series_extend a t) ss (Ok s)
    end.
  Definition concatenated (periods : R -> list period) (attribute : R -> option (list V)) (unit : R -> unit_)
      (allow_none : bool) (fill : V) (results : list R) (all : list period) : result (option (series V)) :=
    do series <- attribute_series periods attribute unit allow_none fill results [];
    match series with
    | None => Ok None
    | Some l =>
        if negb (one_unit (map s_unit l)) then Err AssertionError
        else
          do s <- reduce_extend l;
          do filled <- fill_values_for_new_periods s all fill;
          Ok (Some filled)
    end.
End Concatenate.

(** ** core/result/results.py:142-165, GenericComponentResult (PumpResult and CompressorResult define these three in the
    same way) *)
Definition result_energy (results : list function_result) (all : list period) : result (option (series num)) :=
  concatenated fr_periods (fun r => Some (fr_energy r)) fr_unit false (Some 0%Qc) results all.
Definition result_power (results : list function_result) (all : list period) : result (option (series num)) :=
  concatenated fr_periods fr_power (fun _ => MEGA_WATT) true (Some 0%Qc) results all.
Definition result_valid (results : list function_result) (all : list period) : result (option (series bool)) :=
  concatenated fr_periods (fun r => Some (fr_valid r)) (fun _ => NONE) false true results all.
(** 173-183, operational_settings_used of ConsumerSystemResult: -1 outside, then every number plus one *)
Definition result_settings {R} (periods : R -> list period) (used : R -> list Z) (results : list R) (all : list period)
  : result (option (series Z)) :=
  do s <- concatenated periods (fun r => Some (used r)) (fun _ => NONE) false (-1)%Z results all;
  Ok (match s with Some s => Some (mkSeries (s_periods s) (map (Z.add 1) (s_values s)) (s_unit s)) | None => None end).

(** ** legacy_consumer/component.py:66-88 with the three properties of the result read *)
Record consumer_series : Type := mkCS { cs_energy : series num; cs_power : option (series num); cs_valid : series bool }.
Definition consumer_series_of (results : list function_result) (all : list period) : result consumer_series :=
  do energy <- result_energy results all;
  do power <- result_power results all;
  do valid <- result_valid results all;
  match energy, valid with
  | Some e, Some v => Ok (mkCS e power v)
  | _, _ => Err AssertionError
  end.
Definition evaluate_consumer {M} (np_pow : Qc -> Qc -> Qc) (evaluate : M -> list Qc -> variables_map -> result function_result)
    (input : option (temporal_data expression_input)) (vm : variables_map) (data : temporal_data M) (target : period)
  : result (option consumer_series) :=
  do results <- model_results np_pow evaluate input vm data target;
  match results with
  | None => Ok None
  | Some l => do s <- consumer_series_of l (vm_periods vm); Ok (Some s)
  end.

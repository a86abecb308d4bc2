(** Model of regularity, hydrocarbon export, fuels, generator sets, turbines, power loss and flow rates. *)
From Coq Require Import PeanoNat String.
From Verif Require Import QcTac Base BaseLemmas Time_Model Num Expr_Model Vars_Model Units_Model Rates_Model
  Input_Model Interp_Model.
Local Open Scope list_scope.

(** ** Expressions given in YAML: a number, or a text (here: its tokens; the empty text has none) *)
Inductive expression_input : Type := INumber (q : Qc) | IText (ts : list token).
(** expression.py, Expression.setup_from_expression: a number is one numeric token *)
Definition input_tokens (e : expression_input) : list token :=
  match e with INumber q => [TNum q] | IText ts => ts end.
Definition td_map {A B} (f : A -> B) (d : temporal_data A) : temporal_data B :=
  match d with
  | TDPlain m => TDPlain (f m)
  | TDDates e es => TDDates (fst e, f (snd e)) (map (fun e => (fst e, f (snd e))) es)
  | TDPeriods e es => TDPeriods (fst e, f (snd e)) (map (fun e => (fst e, f (snd e))) es)
  end.
(** the truth value of what YAML gave: a mapping with entries is true, the number 0 and the empty text are false *)
Definition truthy (d : temporal_data expression_input) : bool :=
  match d with
  | TDPlain (INumber q) => negb (Qceqb q 0)
  | TDPlain (IText []) => false
  | _ => true
  end.
(** [expression_input or default] (regularity.py:35, hydrocarbon_export.py:36); None: not given or an empty mapping *)
Definition or_default (default : Qc) (input : option (temporal_data expression_input)) : temporal_data expression_input :=
  match input with
  | Some d => if truthy d then d else TDPlain (INumber default)
  | None => TDPlain (INumber default)
  end.

Section Evaluate.
  Variable np_pow : Qc -> Qc -> Qc.

  (** domain/regularity.py:23-76, Regularity (constructor with validation, values); InvalidRegularity is
      [ValidationError].  That errors of the temporal expression are wrapped is not modelled. *)
  Definition regularity_values (input : option (temporal_data expression_input)) (target : period) (vm : variables_map)
    : result (list Qc) :=
    do values <- temporal_expression_evaluate np_pow (td_map input_tokens (or_default 1%Qc input)) target vm;
    if forallb (fun v => Qcleb 0 v && Qcleb v 1) values then Ok values else Err ValidationError.

  (** domain/hydrocarbon_export.py:16-64: a calendar-day rate *)
  Definition hydrocarbon_export (input : option (temporal_data expression_input)) (regularity : list Qc)
      (target : period) (vm : variables_map) : result rate_series :=
    do values <- temporal_expression_evaluate np_pow (td_map input_tokens (or_default 0%Qc input)) target vm;
    make_rate (vm_periods vm) (map Some values) STANDARD_CUBIC_METER_PER_DAY CALENDAR_DAY (map Some regularity).

  (** ** dto/fuel_type.py and dto/emission.py: the name of an emission is lower-cased *)
  Definition emission : Type := (string * list token)%type.
  Definition make_emission (name : string) (factor : list token) : emission := (lower name, factor).
  Definition fuel_type : Type := list emission.

  (** ** fuel_model/fuel_model.py *)
  (** 66-71, adding the rates of one emission in one temporal period *)
  Fixpoint add_rates (start : nat) (rates values : list num) : result (list num) :=
    match rates with
    | [] => Ok values
    | r :: rest =>
        match nth_error values start with
        | None => Err IndexError
        | Some v =>
            if negb (num_eqb v (Some 0%Qc)) then Err AssertionError
            else add_rates (S start) rest (splice start (S start) [nadd v r] values)
        end
    end.
  (** 57-71, the loop over the emissions of the fuel in one temporal period *)
  Definition add_emission (sub : variables_map) (start : nat) (fuel : list num)
      (acc : result (list (string * list num))) (e : emission) : result (list (string * list num)) :=
    do emissions <- acc;
    do factor <- vm_evaluate np_pow sub (snd e);
    do kg <- np_broadcast nmul fuel (map Some factor);
    do convert <- unit_to KILO_PER_DAY TONS_PER_DAY;
    let tons := map (option_map convert) kg in
    do values <- of_option KeyError (dict_get String.eqb (fst e) emissions);
    do values' <- add_rates start tons values;
    Ok (dict_set String.eqb (fst e) values' emissions).
  (** 48-71, one temporal period *)
  Definition add_fuel (vm : variables_map) (fuel_rate : list num)
      (acc : result (list (string * list num))) (entry : period * fuel_type) : result (list (string * list num)) :=
    do emissions <- acc;
    do whole <- vm_period vm;
    if intersects (fst entry) whole then
      do ij <- get_period_indices (fst entry) (vm_periods vm);
      do sub <- get_subset vm (fst ij) (snd ij);
      fold_left (add_emission sub (fst ij) (slice (fst ij) (snd ij) fuel_rate)) (snd entry) (Ok emissions)
    else Ok emissions.
  (** 23-78, evaluate_emissions: name and tons per day (the order of the set of names does not matter, the result is
      sorted; names are compared as ASCII text) *)
  Definition evaluate_emissions (vm : variables_map) (tm : list (period * fuel_type)) (fuel_rate : list num)
    : result (list (string * list num)) :=
    let names := nodup string_dec (flat_map (fun e => map fst (snd e)) tm) in
    let zeros := map (fun n => (n, repeat (Some 0%Qc) (List.length (vm_periods vm)))) names in
    do emissions <- fold_left (add_fuel vm fuel_rate) tm (Ok zeros);
    Ok (sort (fun a b => String.leb (fst a) (fst b)) emissions).

  (** ** generator_set/generator_set_model.py and generator_set_validator.py *)
  Definition list_max (l : list Qc) : result Qc :=
    match l with [] => Err ValueError | a :: l => Ok (fold_left Qcmax l a) end.
  Definition list_min (l : list Qc) : result Qc :=
    match l with [] => Err ValueError | a :: l => Ok (fold_left Qcmin l a) end.
  Record generator_set : Type := mkGenset { gs_function : interpolator; gs_max_capacity : Qc }.
  (** generator_set_validator.py:24-47 (the values of the model are numbers); all failures [ValidationError] *)
  Definition generator_set_validate (t : tabular_data) : result unit :=
    if negb (Nat.eqb (List.length (tb_headers t)) 2 && has_header "FUEL" t && has_header "POWER" t)
    then Err ValidationError
    else do data <- mapM (tabular_column t) (tb_headers t);
         match data with
         | [a; b] => if Nat.eqb (List.length a) (List.length b) then Ok tt else Err ValidationError
         | _ => Err ValidationError
         end.
  (** generator_set_model.py:20-55 *)
  Definition make_generator_set (t : tabular_data) : result generator_set :=
    do _ <- generator_set_validate t;
    do fuel <- tabular_column t "FUEL";
    do power <- tabular_column t "POWER";
    do lo <- list_min fuel;
    do hi <- list_max fuel;
    do f <- make_interpolator power fuel (Some lo) (Some hi);
    do cap <- list_max power;
    Ok (mkGenset f cap).
  (** 66-68, evaluate_fuel_usage (NaN > 0 is false) *)
  Definition evaluate_fuel_usage (g : generator_set) (power : num) : num :=
    match power with
    | Some p => if Qcltb 0 p then interpolate_1d (gs_function g) power else Some 0%Qc
    | None => Some 0%Qc
    end.
  (** 70-72, evaluate_power_capacity_margin *)
  Definition evaluate_power_capacity_margin (g : generator_set) (power : num) : num := nsub (Some (gs_max_capacity g)) power.

  (** ** generator_set/generator_set_component.py *)
  (** 158-183 and 185-205: [f] of the model in force, applied to the power of each period of its window *)
  Definition genset_step (vm : variables_map) (f : generator_set -> num -> num) (power : list num)
      (acc : result (list num)) (entry : period * generator_set) : result (list num) :=
    do values <- acc;
    do whole <- vm_period vm;
    if intersects (fst entry) whole then
      do ij <- get_period_indices (fst entry) (vm_periods vm);
      Ok (splice (fst ij) (snd ij) (map (f (snd entry)) (slice (fst ij) (snd ij) power)) values)
    else Ok values.
  Definition genset_values (vm : variables_map) (tm : list (period * generator_set)) (f : generator_set -> num -> num)
      (initial : num) (power : list num) : result (list num) :=
    fold_left (genset_step vm f power) tm (Ok (repeat initial (List.length power))).

  (** common/utils/nan_handling.py:6-26, clean_nan_values *)
  Definition clean_nan_values (l : list num) : list num := map (fun v => Some (nan_zero v)) (ffill l).

  Record genset_result : Type := mkGensetResult {
    gr_valid : list bool; gr_margin : list num; gr_power : list num; gr_fuel : list num }.
  (** 105-175, evaluate_process_model; EcalcError is [OtherError] *)
  Definition evaluate_process_model (vm : variables_map) (tm : list (period * generator_set))
      (requirement : option (list num)) : result genset_result :=
    match requirement with
    | None => Err OtherError
    | Some power =>
        if negb (Nat.eqb (List.length power) (List.length (vm_periods vm))) then Err ProgrammingError
        else
          do fuel <- genset_values vm tm evaluate_fuel_usage None power;
          do margin <- genset_values vm tm evaluate_power_capacity_margin (Some 0%Qc) power;
          Ok (mkGensetResult
                (map2 (fun f m => match f, m with Some _, Some m => Qcleb 0 m | _, _ => false end) fuel margin)
                margin power (clean_nan_values fuel))
    end.
  (** 207-222, get_power_production: the values (cable loss where the category is power from shore, else 0) *)
  Definition power_production (power : list num) (cable_loss : option (list Qc)) : result (list num) :=
    match cable_loss with
    | None => Ok power
    | Some loss => np_broadcast (fun p l => nmul p (Some (1 + l)%Qc)) power loss
    end.
  (** presentation/yaml/domain/expression_time_series_cable_loss.py:22-41: [from_shore] is the category model *)
  Definition cable_loss_values (category : list (period * bool)) (ps : list period) (loss : list Qc) : result (list Qc) :=
    mapM (fun pl => match get_model_for_period category (fst pl) with
                    | Ok true => Ok (snd pl)
                    | Ok false => Ok 0%Qc
                    | Err ValueError => Ok 0%Qc
                    | Err e => Err e
                    end) (zip ps loss).

  (** ** presentation/yaml/model.py:93-111, Context.get_power_requirement: the consumers' power where they have one,
      added with TimeSeriesStreamDayRate.__add__ (rates.py:688-702); the units are those of power, megawatt *)
  Fixpoint add_all (acc : list num) (l : list (list num)) : result (list num) :=
    match l with
    | [] => Ok acc
    | v :: rest => do s <- elementwise_sum acc v; add_all s rest
    end.
  Definition power_requirement (consumers : list (option (list num))) : result (option (list num)) :=
    match flat_map (fun c => match c with Some v => [v] | None => [] end) consumers with
    | [] => Ok None
    | [v] => Ok (Some v)
    | v :: rest => do s <- add_all v rest; Ok (Some s)
    end.
End Evaluate.

(** ** expression_time_series_power_loss_factor.py:16-48 (the factor may be absent: zeros) *)
Definition apply_power_loss (usage : list num) (factor : list Qc) : result (list num) :=
  if existsb (fun f => negb (Qceqb f 0)) factor
  then np_broadcast (fun u f => ndiv u (Some (1 - f)%Qc)) usage factor
  else Ok usage.

(** ** expression_time_series_flow_rate.py:46-74 and time_series_mask.py: stream-day rates with a condition *)
Definition apply_mask (mask : option (list Qc)) (values : list num) : result (list num) :=
  match mask with
  | None => Ok values
  | Some m => np_broadcast (fun c v => if Qceqb c 0 then Some 0%Qc else v) m values
  end.
(** InvalidFlowRateException is [ValidationError]; NaN < 0 is false *)
Definition flow_rates (mask : option (list Qc)) (values : list num) (ty : rate_type) (regularity : list num)
  : result (list num) :=
  do masked <- apply_mask mask values;
  do rates <- match ty with
              | CALENDAR_DAY => rates_to_stream_day masked regularity
              | STREAM_DAY => Ok masked
              end;
  if existsb (fun r => match r with Some q => Qcltb q 0 | None => false end) rates then Err ValidationError else Ok rates.

(** ** turbine/turbine.py *)
Record turbine : Type := mkTurbine {
  tu_function : interpolator; tu_maximum_load : Qc; tu_lhv : Qc; tu_factor : Qc; tu_constant : Qc }.
(** 18-37 and 83-97 *)
Definition make_turbine (loads efficiencies : list Qc) (lhv factor constant : Qc) : result turbine :=
  do maximum <- list_max loads;
  if negb (Nat.eqb (List.length loads) (List.length efficiencies)) then Err ValidationError
  else if negb (forallb (fun x => Qcleb 0 x && Qcleb x 1) efficiencies) then Err ValidationError
  else
    do last_efficiency <- of_option IndexError (last_opt efficiencies);
    do f <- make_interpolator loads efficiencies (Some 0%Qc) (Some last_efficiency);
    Ok (mkTurbine f maximum lhv factor constant).
(** 39-41, max_power *)
Definition turbine_max_power (t : turbine) : Qc := (tu_maximum_load t * tu_factor t - tu_constant t)%Qc.
(** 43-81, evaluate, for one load; [fuel_lhv] is the heating value of the fuel (0 by default) *)
Record turbine_result : Type := mkTurbineResult { tr_load : num; tr_efficiency : num; tr_usage : num; tr_exceeds : bool }.
Definition turbine_evaluate (t : turbine) (fuel_lhv : Qc) (load : num) : turbine_result :=
  let adjusted :=
    match load with
    | Some l => if Qcltb 0 l then ndiv (Some (l + tu_constant t)%Qc) (Some (tu_factor t)) else Some l
    | None => None
    end in
  let lhv := if Qcltb 0 fuel_lhv then fuel_lhv else tu_lhv t in
  let efficiency := interpolate_1d (tu_function t) adjusted in
  let usage :=
    if Qceqb lhv 0 then Some 0%Qc
    else if nonzero efficiency then ndiv (ndiv (nmul adjusted (Some (qz 86400))) (Some lhv)) efficiency
    else Some 0%Qc in
  mkTurbineResult adjusted efficiency usage (match load with Some l => Qcltb (tu_maximum_load t) l | None => false end).

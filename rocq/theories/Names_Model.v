(** Names and references of a model: the checks that names are unique, the checks of the references, and how the references are
    resolved when the model is built.  Text that is only carried along (file names, pressures, compositions ...) is a number. *)
From Coq Require Import String Ascii.
From Verif Require Import Base.
Local Open Scope string_scope.
Local Open Scope list_scope.

(** common/string/string_utils.py:7-15 get_duplicates.  The two sets are lists; their order is not observable except in the message. *)
Definition mem (x : string) (l : list string) : bool := existsb (String.eqb x) l.
Definition add_to_set (x : string) (l : list string) : list string := if mem x l then l else l ++ [x].
Definition duplicates_step (st : list string * list string) (name : string) : list string * list string :=
  let '(seen, duplicates) := st in
  if mem name seen then (seen, add_to_set name duplicates) else (add_to_set name seen, duplicates).
Definition get_duplicates (names : list string) : list string := snd (fold_left duplicates_step names ([], [])).

(** What the validators of names share: yaml_asset.py:166-173, 185-191, 223-229; yaml_fuel_type.py:43-52. *)
Definition refuse_duplicates (names : list string) : result unit :=
  match get_duplicates names with [] => Ok tt | _ => Err ValueError end.

(** ** Names of components *)

(** The parts of yaml_types/components/yaml_installation.py, yaml_generator_set.py, yaml_asset.py that carry names.  A consumer whose
    energy usage model is a system carries the names of the consumers of the system (one energy usage model; the code allows several,
    by date). *)
Record consumer := mk_consumer { c_name : string; c_system : option (list string) }.
Record generator_set := mk_generator_set { g_name : string; g_consumers : list consumer }.
(** [None] stands for an omitted keyword: [installation.fuel_consumers or []]. *)
Record installation := mk_installation {
  i_name : string;
  i_fuel_consumers : option (list consumer);
  i_generator_sets : option (list generator_set);
  i_venting_emitters : option (list string) }.
Definition or_empty {A} (o : option (list A)) : list A := match o with Some l => l | None => [] end.

(** yaml_asset.py:153-164 the names of one installation. *)
Definition installation_names (i : installation) : list string :=
  [i_name i] ++ map c_name (or_empty (i_fuel_consumers i))
  ++ flat_map (fun g => g_name g :: map c_name (g_consumers g)) (or_empty (i_generator_sets i))
  ++ or_empty (i_venting_emitters i).

(** yaml_asset.py:140-175 validate_unique_component_names.  [context] is the name of the model in the context of the validation:
    without context, or without a name in it, nothing is checked ([""] counts as no name). *)
Definition validate_unique_component_names (context : option string) (installations : list installation) : result unit :=
  match context with
  | None => Ok tt
  | Some name => if String.eqb name "" then Ok tt else refuse_duplicates (name :: flat_map installation_names installations)
  end.

(** yaml_asset.py:177-191 validate_unique_time_series_names; yaml_fuel_type.py:40-52 ensure_unique_emission_names. *)
Definition validate_unique_time_series_names (names : list string) : result unit := refuse_duplicates names.
Definition ensure_unique_emission_names (names : list string) : result unit := refuse_duplicates names.

(** yaml_energy_usage_model_consumer_system.py:123-129, 251-257 assert_unique_names: the length of the set of names. *)
Definition set_of (names : list string) : list string := fold_left (fun s n => add_to_set n s) names [].
Definition assert_unique_names (names : list string) : result unit :=
  if Nat.eqb (List.length names) (List.length (set_of names)) then Ok tt else Err ValueError.

(** All the validators of the names of components: each system, then the asset. *)
Definition consumers_of (i : installation) : list consumer :=
  or_empty (i_fuel_consumers i) ++ flat_map g_consumers (or_empty (i_generator_sets i)).
Definition validate_names (context : option string) (installations : list installation) : result unit :=
  do _ <- mapM (fun c => match c_system c with Some names => assert_unique_names names | None => Ok tt end)
               (flat_map consumers_of installations);
  validate_unique_component_names context installations.

(** ** Models and what refers to them *)

(** yaml_enums.py:16-20 YamlChartType. *)
Inductive chart_type := SingleSpeedChart | VariableSpeedChart | GenericFromInput | GenericFromDesignPoint.
(** yaml_compressor_stages.py:79-110: known stages, each with its chart, or one chart for a number of stages to be found. *)
Inductive train_stages := KnownStages (charts : list string) | UnknownStages (chart : string).
(** yaml_compressor_trains.py:185-199: a stream of a train of several streams; an ingoing one has a fluid model. *)
Inductive train_stream := Ingoing (name fluid : string) | Outgoing (name : string).
Definition stream_name (s : train_stream) : string := match s with Ingoing n _ => n | Outgoing n => n end.
(** yaml_compressor_stages.py:64-76: a stage of such a train names its chart and the streams that enter or leave before it. *)
Record multi_stage := mk_multi_stage { ms_chart : string; ms_streams : option (list string) }.

(** The members of YamlConsumerModel (models/__init__.py:17-26) and YamlFacilityModel (yaml_facility_model.py:59-97): what each
    refers to.  The code keeps the two unions apart; here either list of a configuration may hold any of them. *)
Inductive body :=
| Fluid
| CompressorChart (type : chart_type)
| Turbine
| SimplifiedTrain (fluid : string) (stages : train_stages)
| VariableSpeedTrain (fluid : string) (charts : list string)
| SingleSpeedTrain (fluid : string) (charts : list string)
| MultipleStreamsTrain (streams : list train_stream) (stages : list multi_stage)
| CompressorWithTurbine (compressor turbine : string)
| Electricity2Fuel
| Tabular
| CompressorTabular
| PumpChartSingleSpeed
| PumpChartVariableSpeed.

(** yaml_enums.py:4-13, yaml_facility_model_type.py: the keyword TYPE. *)
Inductive model_type :=
| TFluid | TCompressorChart | TTurbine | TSimplified | TVariableSpeed | TSingleSpeed | TMultipleStreams | TWithTurbine
| TElectricity2Fuel | TTabular | TCompressorTabular | TPumpSingleSpeed | TPumpVariableSpeed.
Definition type_of (b : body) : model_type :=
  match b with
  | Fluid => TFluid | CompressorChart _ => TCompressorChart | Turbine => TTurbine | SimplifiedTrain _ _ => TSimplified
  | VariableSpeedTrain _ _ => TVariableSpeed | SingleSpeedTrain _ _ => TSingleSpeed | MultipleStreamsTrain _ _ => TMultipleStreams
  | CompressorWithTurbine _ _ => TWithTurbine | Electricity2Fuel => TElectricity2Fuel | Tabular => TTabular
  | CompressorTabular => TCompressorTabular | PumpChartSingleSpeed => TPumpSingleSpeed | PumpChartVariableSpeed => TPumpVariableSpeed
  end.
Definition type_eqb (a b : model_type) : bool :=
  match a, b with
  | TFluid, TFluid | TCompressorChart, TCompressorChart | TTurbine, TTurbine | TSimplified, TSimplified
  | TVariableSpeed, TVariableSpeed | TSingleSpeed, TSingleSpeed | TMultipleStreams, TMultipleStreams | TWithTurbine, TWithTurbine
  | TElectricity2Fuel, TElectricity2Fuel | TTabular, TTabular | TCompressorTabular, TCompressorTabular
  | TPumpSingleSpeed, TPumpSingleSpeed | TPumpVariableSpeed, TPumpVariableSpeed => true
  | _, _ => false
  end.

(** A model: its name, what it refers to, and the rest of it. *)
Record model := mk_model { m_name : string; m_body : body; m_rest : nat }.
(** Anything else with a name of its own. *)
Record named := mk_named { n_name : string; n_rest : nat }.

(** The sections of the input that can be referred to (yaml_asset.py:60-122). *)
Record configuration := mk_configuration {
  facility_inputs : list model;
  models : list model;
  fuel_types : list named;
  inlet_streams : list (string * named);
  process_units : list (string * nat);
  fluids : list (string * nat);
  process_pipelines : list (string * named);
  process_simulations : list named;
  pump_process_simulations : list named;
  fluid_models : list (string * model) }.

(** yaml_asset.py:193-230 validate_unique_references. *)
Definition references_checked (c : configuration) : list string :=
  map m_name (facility_inputs c) ++ map m_name (models c) ++ map n_name (fuel_types c)
  ++ map fst (process_pipelines c) ++ map fst (process_units c) ++ map fst (fluids c)
  ++ map n_name (process_simulations c) ++ map n_name (pump_process_simulations c)
  ++ map fst (fluid_models c) ++ map fst (inlet_streams c).
Definition validate_unique_references (c : configuration) : result unit := refuse_duplicates (references_checked c).

(** model.py:346-353 _get_model_types: the models that references are checked against. *)
Definition get_model_types (c : configuration) : list (string * model) :=
  fold_left (fun d m => dict_set String.eqb (m_name m) m d) (models c ++ facility_inputs c) [].

(** model_reference_validation.py:16-44 check_model_reference. *)
Inductive checked := Accepted | NotFound | WrongType.
Definition check_model_reference (reference : string) (available : list (string * model)) (allowed : list model_type) : checked :=
  match dict_get String.eqb reference available with
  | None => NotFound
  | Some m => if existsb (type_eqb (type_of (m_body m))) allowed then Accepted else WrongType
  end.

(** model_reference_validation.py:47-111 check_field_model_reference, with a context. *)
Definition check_field_model_reference (allowed : list model_type) (available : list (string * model)) (reference : string) : checked :=
  let allowed_model_types := filter (fun t => negb (type_eqb t TWithTurbine)) allowed in
  match check_model_reference reference available allowed with
  | Accepted =>
      match dict_get String.eqb reference available with
      | Some (mk_model _ (CompressorWithTurbine compressor _) _) => check_model_reference compressor available allowed_model_types
      | _ => Accepted
      end
  | refused => refused
  end.

(** model_reference_validation.py:114-209 the types that each kind of reference allows. *)
Definition generator_set_types := [TElectricity2Fuel].
Definition compressor_types := [TCompressorTabular; TWithTurbine; TSingleSpeed; TVariableSpeed; TSimplified].
Definition multiple_streams_types := [TWithTurbine; TMultipleStreams].
Definition pump_types := [TTabular; TPumpSingleSpeed; TPumpVariableSpeed].
Definition tabulated_types := [TTabular].
Definition stage_types := [TCompressorChart; TCompressorTabular; TTabular].
Definition fluid_types := [TFluid].
Definition turbine_types := [TTurbine].

(** The references of a model that are checked, and the types they allow: yaml_compressor_trains.py:76,114,137,188;
    yaml_compressor_stages.py:39-43,89-93; yaml_compressor_with_turbine.py:34.  The compressor of a turbine is a plain string
    (yaml_compressor_with_turbine.py:12-16). *)
Definition references_of (b : body) : list (list model_type * string) :=
  match b with
  | SimplifiedTrain fluid (KnownStages charts) => (fluid_types, fluid) :: map (fun r => (stage_types, r)) charts
  | SimplifiedTrain fluid (UnknownStages chart) => [(fluid_types, fluid); (stage_types, chart)]
  | VariableSpeedTrain fluid charts | SingleSpeedTrain fluid charts => (fluid_types, fluid) :: map (fun r => (stage_types, r)) charts
  | MultipleStreamsTrain streams stages =>
      flat_map (fun s => match s with Ingoing _ f => [(fluid_types, f)] | Outgoing _ => [] end) streams
      ++ map (fun s => (stage_types, ms_chart s)) stages
  | CompressorWithTurbine _ turbine => [(turbine_types, turbine)]
  | _ => []
  end.

(** [getattr(compressor_chart, "chart_type", None)]. *)
Definition chart_type_of (b : body) : option chart_type := match b with CompressorChart t => Some t | _ => None end.
(** yaml_compressor_trains.py:156-159. *)
Definition allowed_for_simplified (t : chart_type) : bool :=
  match t with GenericFromInput | GenericFromDesignPoint => true | _ => false end.
(** The attribute [compressor_train] (AttributeError, here [OtherError], when there is none). *)
Definition compressor_train (b : body) : option train_stages :=
  match b with
  | SimplifiedTrain _ stages => Some stages
  | VariableSpeedTrain _ charts | SingleSpeedTrain _ charts => Some (KnownStages charts)
  | _ => None
  end.

(** yaml_compressor_trains.py:152-182 check_compressor_chart, of simplified trains. *)
Definition check_compressor_chart (available : list (string * model)) (name : string) : result unit :=
  do self <- of_option KeyError (dict_get String.eqb name available);
  do train <- of_option OtherError (compressor_train (m_body self));
  match train with
  | KnownStages charts =>
      do _ <- mapM (fun r =>
        do chart <- of_option KeyError (dict_get String.eqb r available);
        match chart_type_of (m_body chart) with
        | None => Ok tt
        | Some t => if allowed_for_simplified t then Ok tt else Err ValueError
        end) charts;
      Ok tt
  | UnknownStages r =>
      do chart <- of_option KeyError (dict_get String.eqb r available);
      do t <- of_option OtherError (chart_type_of (m_body chart));
      if allowed_for_simplified t then Ok tt else Err ValueError
  end.

(** The validation of one model: its fields, then the model as a whole. *)
Definition validate_model (available : list (string * model)) (m : model) : result unit :=
  do _ <- mapM (fun '(allowed, r) =>
    match check_field_model_reference allowed available r with Accepted => Ok tt | _ => Err ValidationError end) (references_of (m_body m));
  match m_body m with SimplifiedTrain _ _ => check_compressor_chart available (m_name m) | _ => Ok tt end.

(** The validation of the sections that can be referred to.  pydantic collects the errors of all of them; here the first is kept. *)
Definition validate_configuration (c : configuration) : result unit :=
  do _ <- mapM (validate_model (get_model_types c)) (models c ++ facility_inputs c);
  validate_unique_references c.

(** yaml_energy_usage_model_consumer_system.py:131-161 forbid_generic_from_input_and_unknown_stages_in_compressor_system: one
    compressor of the system.  [Ok true]: go on with the next one; [Ok false]: return at once. *)
Fixpoint forbid_charts (available : list (string * model)) (charts : list string) : result bool :=
  match charts with
  | [] => Ok true
  | r :: rest =>
      match dict_get String.eqb r available with
      | None => Ok false
      | Some chart =>
          match chart_type_of (m_body chart) with
          | Some GenericFromInput => Err ValueError
          | _ => forbid_charts available rest
          end
      end
  end.
Definition forbid_in_system_one (available : list (string * model)) (reference : string) : result bool :=
  do m <- of_option KeyError (dict_get String.eqb reference available);
  do m <- match m_body m with
          | CompressorWithTurbine compressor _ => of_option KeyError (dict_get String.eqb compressor available)
          | _ => Ok m
          end;
  match compressor_train (m_body m) with
  | None => Ok true
  | Some (KnownStages (r :: rest)) => forbid_charts available (r :: rest)
  | Some _ => Err ValueError
  end.
Fixpoint forbid_in_system (available : list (string * model)) (references : list string) : result unit :=
  match references with
  | [] => Ok tt
  | r :: rest => do go_on <- forbid_in_system_one available r; if go_on then forbid_in_system available rest else Ok tt
  end.

(** ** Resolving references *)

(** yaml_reference_service.py:41-50: what a reference can stand for. *)
Inductive entity :=
| EModel (m : model) | EFuel (f : named) | EStream (s : named) | EUnit (u : nat) | EFluidDefinition (f : nat)
| EPipeline (p : named) | ESimulation (s : named) | EPumpSimulation (s : named).
(** mappers/yaml_path.py: where it is written, a section and an index or a key of it. *)
Inductive section_name :=
| SFacilityInputs | SModels | SFuelTypes | SInletStreams | SProcessUnits | SFluids | SProcessPipelines | SProcessSimulations
| SPumpProcessSimulations | SFluidModels.
Inductive path := AtIndex (s : section_name) (i : nat) | AtKey (s : section_name) (k : string).

(** [for index, x in enumerate(...)]. *)
Definition enumerate {A} (l : list A) : list (nat * A) := combine (seq 0 (List.length l)) l.

(** yaml_reference_service.py:93-151: the assignments of the constructor, in order. *)
Definition assignments (c : configuration) : list (string * (entity * path)) :=
  map (fun '(i, m) => (m_name m, (EModel m, AtIndex SFacilityInputs i))) (enumerate (facility_inputs c))
  ++ map (fun '(i, m) => (m_name m, (EModel m, AtIndex SModels i))) (enumerate (models c))
  ++ map (fun '(i, f) => (n_name f, (EFuel f, AtIndex SFuelTypes i))) (enumerate (fuel_types c))
  ++ map (fun '(k, s) => (n_name s, (EStream s, AtKey SInletStreams k))) (inlet_streams c)
  ++ map (fun '(k, u) => (k, (EUnit u, AtKey SProcessUnits k))) (process_units c)
  ++ map (fun '(k, f) => (k, (EFluidDefinition f, AtKey SFluids k))) (fluids c)
  ++ map (fun '(k, p) => (n_name p, (EPipeline p, AtKey SProcessPipelines k))) (process_pipelines c)
  ++ map (fun '(i, s) => (n_name s, (ESimulation s, AtIndex SProcessSimulations i))) (enumerate (process_simulations c))
  ++ map (fun '(i, s) => (n_name s, (EPumpSimulation s, AtIndex SPumpProcessSimulations i))) (enumerate (pump_process_simulations c))
  ++ map (fun '(k, m) => (k, (EModel m, AtKey SFluidModels k))) (fluid_models c).
(** yaml_reference_service.py:86-154: the two dictionaries, which are always assigned together, as one. *)
Definition reference_service (c : configuration) : list (string * (entity * path)) :=
  fold_left (fun d '(n, e) => dict_set String.eqb n e d) (assignments c) [].

(** yaml_reference_service.py:156-157, 189-195: KeyError; InvalidReferenceException, which is an EcalcValidationException. *)
Definition get_yaml_path (refs : list (string * (entity * path))) (r : string) : result path :=
  do e <- of_option KeyError (dict_get String.eqb r refs); Ok (snd e).
Definition resolve_yaml_reference (refs : list (string * (entity * path))) (r : string) : result entity :=
  do e <- of_option ValidationError (dict_get String.eqb r refs); Ok (fst e).

(** yaml_reference_service.py:159-237: the getters, which differ in the class that they want. *)
Definition get_model (wanted : body -> bool) (refs : list (string * (entity * path))) (r : string) : result model :=
  do e <- resolve_yaml_reference refs r;
  match e with EModel m => if wanted (m_body m) then Ok m else Err ValidationError | _ => Err ValidationError end.
Definition get_fluid := get_model (fun b => match b with Fluid => true | _ => false end).
Definition get_turbine := get_model (fun b => match b with Turbine => true | _ => false end).
Definition get_compressor_chart := get_model (fun b => match b with CompressorChart _ => true | _ => false end).
Definition get_generator_set_model := get_model (fun b => match b with Electricity2Fuel => true | _ => false end).
Definition get_compressor_model := get_model (fun b =>
  match b with
  | SimplifiedTrain _ _ | VariableSpeedTrain _ _ | SingleSpeedTrain _ _ | CompressorWithTurbine _ _ | MultipleStreamsTrain _ _
  | CompressorTabular => true
  | _ => false
  end).
Definition get_pump_model := get_model (fun b => match b with PumpChartSingleSpeed | PumpChartVariableSpeed => true | _ => false end).
Definition get_tabulated_model := get_model (fun b => match b with Tabular => true | _ => false end).
Definition get_fuel_reference (refs : list (string * (entity * path))) (r : string) : result named :=
  do e <- resolve_yaml_reference refs r; match e with EFuel f => Ok f | _ => Err ValidationError end.
Definition get_stream (refs : list (string * (entity * path))) (r : string) : result named :=
  do e <- resolve_yaml_reference refs r; match e with EStream s => Ok s | _ => Err ValidationError end.
Definition get_process_pipeline (refs : list (string * (entity * path))) (r : string) : result named :=
  do e <- resolve_yaml_reference refs r; match e with EPipeline p => Ok p | _ => Err ValidationError end.
Definition get_process_unit (refs : list (string * (entity * path))) (r : string) : result nat :=
  do e <- resolve_yaml_reference refs r; match e with EUnit u => Ok u | _ => Err ValidationError end.
Definition get_fluid_definition (refs : list (string * (entity * path))) (r : string) : result nat :=
  do e <- resolve_yaml_reference refs r; match e with EFluidDefinition f => Ok f | _ => Err ValidationError end.

(** ** Building compressors *)

(** consumer_function_mapper.py:705-758: which stages of a train of several streams are built, and their ports. *)
(** 705-709: the first stage that names a known stream. *)
Definition set_default (k : string) (v : nat) (d : list (string * nat)) : nat * list (string * nat) :=
  match dict_get String.eqb k d with
  | Some v' => (v', d)
  | None => (v, dict_set String.eqb k v d)
  end.
Definition note_streams (known : list string) (d : list (string * nat)) (stage : nat * multi_stage) : list (string * nat) :=
  fold_left (fun d r => if mem r known then snd (set_default r (fst stage) d) else d) (or_empty (ms_streams (snd stage))) d.
Definition stream_to_stage_map (known : list string) (stages : list multi_stage) : list (string * nat) :=
  fold_left (note_streams known) (enumerate stages) [].
(** 753-757: the condition [any(...)], which changes the map and stops at the first stream that is taken. *)
Fixpoint taken (known : list string) (index : nat) (streams : list string) (d : list (string * nat)) : bool * list (string * nat) :=
  match streams with
  | [] => (false, d)
  | r :: rest =>
      if negb (mem r known) || (match dict_get String.eqb r d with Some _ => true | None => false end) then
        let '(first, d) := set_default r index d in
        if Nat.eqb first index then taken known index rest d else (true, d)
      else taken known index rest d
  end.
(** 715-729: the ports. *)
Definition count_ports (is : train_stream -> bool) (streams : list train_stream) (s : multi_stage) : nat :=
  List.length (flat_map (fun r => filter (fun x => String.eqb (stream_name x) r && is x) streams) (or_empty (ms_streams s))).
Definition is_ingoing (s : train_stream) : bool := match s with Ingoing _ _ => true | Outgoing _ => false end.
Definition is_outgoing (s : train_stream) : bool := match s with Ingoing _ _ => false | Outgoing _ => true end.
Definition mixer_ports (streams : list train_stream) (index : nat) (s : multi_stage) : Z :=
  Z.of_nat (count_ports is_ingoing streams s) - (if Nat.eqb index 0 then 1 else 0).
Definition splitter_ports (streams : list train_stream) (s : multi_stage) : nat := count_ports is_outgoing streams s.
(** 711-758: the stages that are built, with the number of extra streams that are mixed in and split off. *)
Record planned_stage := mk_planned_stage { ps_chart : string; ps_mixer : Z; ps_splitter : nat }.
Fixpoint plan_stages (streams : list train_stream) (stages : list (nat * multi_stage)) (d : list (string * nat)) : list planned_stage :=
  match stages with
  | [] => []
  | (i, s) :: rest =>
      let '(drop, d) := taken (map stream_name streams) i (or_empty (ms_streams s)) d in
      if drop then plan_stages streams rest d
      else mk_planned_stage (ms_chart s) (mixer_ports streams i s) (splitter_ports streams s) :: plan_stages streams rest d
  end.
Definition planned_stages (streams : list train_stream) (stages : list multi_stage) : list planned_stage :=
  plan_stages streams (enumerate stages) (stream_to_stage_map (map stream_name streams) stages).

(** What a reference to a compressor is built from. *)
Inductive built :=
| BSampled (m : model)
| BSimplified (m fluid : model) (charts : list model)
| BTrain (m fluid : model) (charts : list model)
| BMultiple (m : model) (charts : list (model * Z * nat)) (fluids : list (option model))
| BWithTurbine (m : model) (compressor : built) (turbine : model).

(** consumer_function_mapper.py:325-331 _get_compressor_chart (the data of the chart are left out). *)
Definition get_plain_chart (refs : list (string * (entity * path))) (r : string) : result model :=
  do m <- get_compressor_chart refs r;
  match m_body m with CompressorChart (SingleSpeedChart | VariableSpeedChart) => Ok m | _ => Err AssertionError end.
(** consumer_function_mapper.py:603-604. *)
Definition get_design_chart (refs : list (string * (entity * path))) (r : string) : result model :=
  do m <- get_compressor_chart refs r;
  match m_body m with CompressorChart GenericFromDesignPoint => Ok m | _ => Err AssertionError end.
(** consumer_function_mapper.py:648-657. *)
Definition get_generic_chart (refs : list (string * (entity * path))) (r : string) : result model :=
  do m <- get_compressor_chart refs r;
  match m_body m with CompressorChart (GenericFromDesignPoint | GenericFromInput) => Ok m | _ => Err AssertionError end.

(** consumer_function_mapper.py:819-847 create_compressor_model with 402-452, 454-507, 522-538, 540-693, 695-782: which models are
    used.  [data] is [None] without operational data and otherwise gives the number of stages that the pressures ask for
    (calculate_number_of_stages; the pressures themselves are taken to be given).  [depth] is what is left of Python's stack
    (RecursionError, here [OtherError]). *)
Fixpoint create_compressor_model (depth : nat) (refs : list (string * (entity * path))) (data : option nat) (reference : string) : result built :=
  match depth with
  | O => Err OtherError
  | S depth =>
      do m <- get_compressor_model refs reference;
      match m_body m with
      | SimplifiedTrain fluid stages =>
          do f <- get_fluid refs fluid;
          do charts <- match stages, data with
                       | KnownStages charts, _ => Ok charts
                       | UnknownStages chart, Some n => Ok (repeat chart n)
                       | UnknownStages _, None => Err AssertionError
                       end;
          do cs <- mapM (match data with None => get_design_chart refs | Some _ => get_generic_chart refs end) charts;
          Ok (BSimplified m f cs)
      | VariableSpeedTrain fluid charts | SingleSpeedTrain fluid charts =>
          do f <- get_fluid refs fluid;
          do cs <- mapM (get_plain_chart refs) charts;
          Ok (BTrain m f cs)
      | CompressorWithTurbine compressor turbine =>
          do c <- create_compressor_model depth refs data compressor;
          do _ <- match c with BWithTurbine _ _ _ => Err AssertionError | _ => Ok tt end;
          do t <- get_turbine refs turbine;
          Ok (BWithTurbine m c t)
      | MultipleStreamsTrain streams stages =>
          do cs <- mapM (fun p => do c <- get_plain_chart refs (ps_chart p); Ok (c, ps_mixer p, ps_splitter p)) (planned_stages streams stages);
          do fs <- mapM (fun s => match s with Ingoing _ f => do m <- get_fluid refs f; Ok (Some m) | Outgoing _ => Ok None end) streams;
          if existsb (fun o => match o with Some _ => true | None => false end) fs then Ok (BMultiple m cs fs) else Err ValidationError
      | CompressorTabular => Ok (BSampled m)
      | _ => Err OtherError
      end
  end.

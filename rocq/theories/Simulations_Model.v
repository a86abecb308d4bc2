(** Model of the events and process simulations of a model file: presentation/yaml/mappers/ecalc_event_mapper.py,
    ecalc_model/ecalc_event.py, presentation/yaml/mappers/process_simulation_mapper.py, ecalc_model/time_series_fluid_model.py. *)
From Coq Require Import PeanoNat String.
From Verif Require Import QcTac Base Time_Model Num Expr_Model Vars_Model Units_Model Rates_Model Input_Model Interp_Model Energy_Model Stream_Model
  Process_Model Sections_Model Consumer_Model Duty_Model.
Local Open Scope list_scope.
Local Open Scope Qc_scope.

(** ** Events *)

(** yaml_process_simulation.py:18-46 YamlEcalcEvent and 49-75 YamlProcessEvent; [rest] stands for the type and the description *)
Record written_event : Type := mkWrittenEvent { we_name : string; we_start : datetime; we_rest : nat }.
Record process_event : Type := mkProcessEvent { pe_name : string; pe_rest : nat }.
Record written_process_event : Type := mkWrittenProcessEvent { wp_event : process_event; wp_ref : string }.
(** ecalc_event.py:24-36 *)
Record ecalc_event : Type := mkEcalcEvent { ev_name : string; ev_start : datetime; ev_rest : nat; ev_process : list process_event }.

(** ecalc_event_mapper.py:12-18: a dictionary of the names; a name used twice is refused *)
Fixpoint declare_events (events : list written_event) (d : list (string * list process_event)) : result (list (string * list process_event)) :=
  match events with
  | [] => Ok d
  | e :: rest =>
      match dict_get String.eqb (we_name e) d with
      | Some _ => Err ValidationError
      | None => declare_events rest (dict_set String.eqb (we_name e) [] d)
      end
  end.
(** 20-32: the process events appended to the event they refer to *)
Fixpoint attach_events (events : list written_process_event) (d : list (string * list process_event)) : result (list (string * list process_event)) :=
  match events with
  | [] => Ok d
  | e :: rest =>
      match dict_get String.eqb (wp_ref e) d with
      | None => Err ValidationError
      | Some l => attach_events rest (dict_set String.eqb (wp_ref e) (l ++ [wp_event e]) d)
      end
  end.
(** 9-46, map_events *)
Definition map_events (events : list written_event) (process_events : list written_process_event) : result (list ecalc_event) :=
  do declared <- declare_events events [];
  do attached <- attach_events process_events declared;
  mapM (fun e => do l <- of_option KeyError (dict_get String.eqb (we_name e) attached);
                 Ok (mkEcalcEvent (we_name e) (we_start e) (we_rest e) l)) events.

(** ecalc_event.py:43-47, get_event_by_name *)
Definition get_event_by_name (events : list ecalc_event) (name : string) : option ecalc_event :=
  find (fun e => String.eqb (ev_name e) name) events.
(** 49-54, get_event_by_process_name *)
Definition get_event_by_process_name (events : list ecalc_event) (name : string) : option ecalc_event :=
  find (fun e => existsb (fun p => String.eqb (pe_name p) name) (ev_process e)) events.

(** ** Streams *)

(** yaml_inlet_stream.py:17-56, YamlInletStreamRate *)
Record written_rate : Type := mkWrittenRate {
  wr_value : expression_input; wr_type : rate_type; wr_condition : option expression_input; wr_conditions : option (list expression_input) }.
(** yaml_fluid_definitions.py: the equation of state and the amounts of the components, in the order of FluidComposition;
    a predefined fluid is one with numbers (fluid_mapper.py:155-165) *)
Record fluid_definition : Type := mkFluid { fl_eos : nat; fl_components : list expression_input }.
(** yaml_inlet_stream.py:59-91, YamlInletStream: the fluid is a reference or written in place *)
Record written_stream : Type := mkWrittenStream {
  ws_fluid : string + fluid_definition; ws_temperature : expression_input; ws_pressure : expression_input; ws_rate : written_rate }.
(** time_series_stream.py: the pressure and the temperature are evaluated later, the rate when the stream is made *)
Record stream_series : Type := mkStreamSeries {
  st_fluid : fluid_definition; st_pressure : expression_input; st_temperature : expression_input; st_rates : list Qc }.

(** process_simulation_mapper.py:194-202 and 217-219, _map_conditions, with what it is given in _map_rate *)
Definition rate_condition (r : written_rate) : option (list token) :=
  match wr_conditions r with
  | Some (c :: cs) => Some (join_conditions c cs)
  | Some [] => Some []
  | None => option_map input_tokens (wr_condition r)
  end.

Section Streams.
  Variable np_pow : Qc -> Qc -> Qc.
  (** 210-223, _map_rate, and expression_time_series_flow_rate.py:34-74; the regularity is that of 204-208, which is 1.  The
      evaluated numbers are never NaN *)
  Definition map_rate (vm : variables_map) (r : written_rate) : result (list Qc) :=
    do target <- vm_period vm;
    do regularity <- regularity_values np_pow None target vm;
    do values <- vm_evaluate np_pow vm (input_tokens (wr_value r));
    do mask <- match rate_condition r with
               | Some ts => do m <- vm_evaluate np_pow vm ts; Ok (Some m)
               | None => Ok None
               end;
    do rates <- flow_rates mask (map Some values) (wr_type r) (map Some regularity);
    mapM (of_option ValueError) rates.

  (** fluid_model.py:41-44, FluidComposition.__post_init__ (NegativeComponentFractionException is [ValidationError]) *)
  Definition make_composition (amounts : list Qc) : result (list Qc) :=
    if existsb (fun x => Qcltb x 0) amounts then Err ValidationError else Ok amounts.
  (** time_series_fluid_model.py:23-54, get_value: the amounts in one period *)
  Definition fluid_in_period (vm : variables_map) (f : fluid_definition) (p : period) : result (nat * list Qc) :=
    do i <- of_option ProgrammingError (index_of period_eqb p (vm_periods vm));
    do amounts <- mapM (fun e => do values <- vm_evaluate np_pow vm (input_tokens e);
                                 of_option IndexError (nth_error values i)) (fl_components f);
    do composition <- make_composition amounts;
    Ok (fl_eos f, composition).
End Streams.

(** ** Process simulations *)

(** yaml_process_units.py: the definitions of process units.  How a chart is read is in Chart and Charts. *)
Inductive written_unit : Type :=
| WCompressor (c : chart)
| WPressureDropper (drop : expression_input)
| WTemperatureSetter (temperature : expression_input)
| WLiquidRemover
| WMixer (sidestream : string + written_stream)
| WSplitter (offtake : written_rate).
(** yaml_process_pipeline.py:35-88, YamlPipelineEvent; [change_from] is never read *)
Record written_change : Type := mkWrittenChange { wc_action : nat; wc_target : string; wc_from : string; wc_to : string; wc_ref : string }.
(** yaml_process_pipeline.py:91-101 *)
Record written_pipeline : Type := mkWrittenPipeline {
  wl_units : list (option string * (string + written_unit)); wl_changes : list written_change }.
(** What references resolve to (yaml_reference_service.py, C125).  A pipeline is registered under its own name. *)
Record library : Type := mkLibrary {
  lib_units : list (string * written_unit); lib_streams : list (string * written_stream);
  lib_fluids : list (string * fluid_definition); lib_pipelines : list (string * written_pipeline) }.

(** yaml_stream_distribution.py *)
Record written_setting : Type := mkWrittenSetting { wt_fractions : list expression_input; wt_overflow : option (list (string * string)) }.
Inductive written_distribution : Type :=
| WCommon (inlet : string + written_stream) (settings : list written_setting)
| WIndividual (inlets : list (string + written_stream)).
(** yaml_process_simulation.py:111-124 *)
Record written_simulation : Type := mkWrittenSimulation {
  wm_targets : list string; wm_constraints : list (string * list constraint); wm_distribution : written_distribution }.

(** time_series_configuration.py *)
Inductive unit_setting : Type :=
| SetDrop (drop : expression_input) | SetTemperature (temperature : expression_input)
| SetSidestream (s : stream_series) | SetOfftake (rates : list Qc).
(** process_pipeline.py:29-38, PipelineEvent *)
Record change : Type := mkChange { cg_action : nat; cg_target : unit_id; cg_to : chart; cg_time : datetime }.
(** What is made for one target; the shaft drives all compressors (382-386) *)
Record mapped : Type := mkMapped {
  mp_name : string; mp_pipeline : pipeline; mp_shaft : list unit_id; mp_changes : list change; mp_settings : list (unit_id * unit_setting) }.
(** A setting of the common stream: the fractions and the overflows, from and to a target (its number) *)
Inductive mapped_distribution : Type :=
| Common (inlet : stream_series) (settings : list (list expression_input * list (nat * nat)))
| Individual (inlets : list stream_series).

(** a reference, or what is written in its place: 132-136, 180-192, 328-329 *)
Definition resolve {A} (d : list (string * A)) (x : string + A) : result A :=
  match x with
  | inl r => of_option ValidationError (dict_get String.eqb r d)
  | inr y => Ok y
  end.

Section Simulation.
  (** [map_rate] for the variables of the run *)
  Variable rate_of : written_rate -> result (list Qc).
  Variable lib : library.
  (** the events of the model *)
  Variable events : list ecalc_event.

  (** 347-358, 540-547, 554-564 *)
  Definition map_stream (s : string + written_stream) : result stream_series :=
    do w <- resolve (lib_streams lib) s;
    do f <- resolve (lib_fluids lib) (ws_fluid w);
    do rates <- rate_of (ws_rate w);
    Ok (mkStreamSeries f (ws_pressure w) (ws_temperature w) rates).
  (** 325-371: the unit, which has no settings yet, and the settings the user gives for every period *)
  Definition map_unit (x : string + written_unit) : result (unit_kind * option unit_setting) :=
    do w <- resolve (lib_units lib) x;
    match w with
    | WCompressor c => Ok (Compressor c, None)
    | WPressureDropper drop => Ok (PressureDropper 0, Some (SetDrop drop))
    | WTemperatureSetter t => Ok (TemperatureSetter 0, Some (SetTemperature t))
    | WLiquidRemover => Ok (LiquidRemover, None)
    | WMixer s => do m <- map_stream s; Ok (Mixer None, Some (SetSidestream m))
    | WSplitter r => do rates <- rate_of r; Ok (Splitter 0, Some (SetOfftake rates))
    end.
  (** 325-380: the ids are the places of the units in the list.  Names used twice are refused when all units are made, instead
      of at the second one *)
  Fixpoint map_units (next : nat) (units : list (option string * (string + written_unit)))
    : result (list item * list (unit_id * unit_setting)) :=
    match units with
    | [] => Ok ([], [])
    | (name, x) :: rest =>
        do u <- map_unit x;
        do made <- map_units (S next) rest;
        let '(items, settings) := made in
        Ok ((name, (next, fst u)) :: items,
            match snd u with Some s => (next, s) :: settings | None => settings end)
    end.
  (** 246-284, _validate_and_map_pipeline_events, one of them *)
  Definition map_change (names : list (string * unit_id)) (w : written_change) : result change :=
    do e <- of_option ValidationError (get_event_by_process_name events (wc_ref w));
    do u <- resolve (lib_units lib) (inl (wc_to w));
    do c <- match u with WCompressor c => Ok c | _ => Err ValidationError end;
    do target <- of_option KeyError (dict_get String.eqb (wc_target w) names);
    Ok (mkChange (wc_action w) target c (ev_start e)).
  (** 306-486: one target *)
  Definition map_target (constraints : list (string * list constraint)) (name : string) : result mapped :=
    do w <- resolve (lib_pipelines lib) (inl name);
    do made <- map_units 0 (wl_units w);
    let '(items, settings) := made in
    do names <- register items [];
    do cs <- of_option ValidationError (dict_get String.eqb name constraints);
    do p <- map_pipeline items cs;
    do changes <- mapM (map_change names) (wl_changes w);
    Ok (mkMapped name p (map fst (filter is_compressor (map snd items))) changes settings).

  (** 478: the dictionary from names to targets *)
  Definition numbers (targets : list string) : list (string * nat) :=
    fold_left (fun d x => dict_set String.eqb (fst x) (snd x) d) (combine targets (seq 0 (List.length targets))) [].
  (** 511-533, one overflow: from and to *)
  Definition map_overflow (d : list (string * nat)) (o : string * string) : result (nat * nat) :=
    do to_ <- of_option ValidationError (dict_get String.eqb (snd o) d);
    do from <- of_option ValidationError (dict_get String.eqb (fst o) d);
    Ok (from, to_).
  (** 497-567 *)
  Definition map_setting (d : list (string * nat)) (s : written_setting) : result (list expression_input * list (nat * nat)) :=
    do overflows <- mapM (map_overflow d) (match wt_overflow s with Some l => l | None => [] end);
    Ok (wt_fractions s, overflows).
  Definition map_distribution (d : list (string * nat)) (x : written_distribution) : result mapped_distribution :=
    match x with
    | WCommon inlet settings =>
        do mapped_settings <- mapM (map_setting d) settings;
        do s <- map_stream inlet;
        Ok (Common s mapped_settings)
    | WIndividual inlets => do ss <- mapM map_stream inlets; Ok (Individual ss)
    end.
  (** 286-580, map_process_simulation *)
  Definition map_simulation (s : written_simulation) : result (list mapped * mapped_distribution) :=
    do targets <- mapM (map_target (wm_constraints s)) (wm_targets s);
    let d := numbers (map mp_name targets) in
    do _ <- mapM (fun c => of_option ValidationError (dict_get String.eqb (fst c) d)) (wm_constraints s);
    do distribution <- map_distribution d (wm_distribution s);
    Ok (targets, distribution).
End Simulation.

(** model.py:155-178, get_process_simulations, and process_simulation_mapper.py:117-130: the variables for the period of the model *)
Definition process_simulations (np_pow : Qc -> Qc -> Qc) (vm : variables_map) (start : option datetime) (stop : datetime) (lib : library)
    (events : list ecalc_event) (simulations : list written_simulation) : result (list (list mapped * mapped_distribution)) :=
  do sub <- get_subset_for_period vm (model_period start stop);
  mapM (map_simulation (map_rate np_pow sub) lib events) simulations.

(** Model of the process units, the handlers that configure them, the runner
    of a pipeline, and the assembly of a section.  Floats are exact rationals;
    NaN and infinity are modelled only where a definition says so. *)
From Coq Require Import List Bool ZArith Lia.
From Verif Require Import QcTac Base Num Search_Model Stream_Model Flash_Model.
Import ListNotations.
Open Scope Qc_scope.

(** ** Identifiers and the mutable state of the units *)

(** Units and configuration handlers are identified by UUIDs; here by numbers.
    src/libecalc/process/process_pipeline/process_unit.py:9-18,
    src/libecalc/process/process_solver/configuration.py:13 *)
Definition unit_id : Type := nat.
Definition handler_id : Type := nat.

(** A setting for a handler and the handler it is for.
    src/libecalc/process/process_solver/configuration.py:16-58 *)
Inductive setting : Type :=
| SpeedSetting (speed : Qc)
| ChokeSetting (delta_pressure : Qc)
| RecirculationSetting (rate : Qc).
Definition configuration : Type := (handler_id * setting)%type.

(** Everything that changes when a handler is configured: the speed of a
    compressor (None until it is set), the rates of direct mixers and splitters,
    the pressure change of a choke, the speed a shaft remembers, and the
    anti-surge configurations that an upstream choke strategy remembers
    (identified by the handler of its choke).
    src/libecalc/process/process_units/compressor.py:39, direct_mixer.py:11,
    direct_splitter.py:11, choke.py:17, src/libecalc/process/shaft.py:26,
    src/libecalc/process/process_solver/pressure_control/upstream_choke.py:49 *)
Record heap : Type := mk_heap {
  h_speed : unit_id -> option Qc;
  h_mix : unit_id -> Qc;
  h_split : unit_id -> Qc;
  h_choke : unit_id -> Qc;
  h_shaft : handler_id -> option Qc;
  h_last : handler_id -> list configuration }.

Definition upd {A} (f : nat -> A) (i : nat) (v : A) : nat -> A := fun j => if Nat.eqb i j then v else f j.
Definition set_speed (i : unit_id) (v : Qc) (h : heap) : heap :=
  mk_heap (upd (h_speed h) i (Some v)) (h_mix h) (h_split h) (h_choke h) (h_shaft h) (h_last h).
Definition set_mix (i : unit_id) (v : Qc) (h : heap) : heap :=
  mk_heap (h_speed h) (upd (h_mix h) i v) (h_split h) (h_choke h) (h_shaft h) (h_last h).
Definition set_split (i : unit_id) (v : Qc) (h : heap) : heap :=
  mk_heap (h_speed h) (h_mix h) (upd (h_split h) i v) (h_choke h) (h_shaft h) (h_last h).
Definition set_choke (i : unit_id) (v : Qc) (h : heap) : heap :=
  mk_heap (h_speed h) (h_mix h) (h_split h) (upd (h_choke h) i v) (h_shaft h) (h_last h).
Definition set_shaft (i : handler_id) (v : option Qc) (h : heap) : heap :=
  mk_heap (h_speed h) (h_mix h) (h_split h) (h_choke h) (upd (h_shaft h) i v) (h_last h).
Definition set_last (i : handler_id) (v : list configuration) (h : heap) : heap :=
  mk_heap (h_speed h) (h_mix h) (h_split h) (h_choke h) (h_shaft h) (upd (h_last h) i v).

(** ** Units *)

(** What a compressor reads from its chart: the smallest and largest actual
    rate [am3/h] at a speed, head [J/kg] and efficiency at a speed and rate, and
    the slowest and fastest speed.  Arbitrary functions here.
    src/libecalc/process/process_units/compressor.py:73-121 *)
Record chart : Type := mk_chart {
  ch_min_rate : Qc -> Qc; ch_max_rate : Qc -> Qc;
  ch_point : Qc -> Qc -> outcome (Qc * Qc);
  ch_min_speed : Qc; ch_max_speed : Qc }.

(** The kinds of process unit.  The rates and pressures that handlers change
    are in the [heap]; the others are part of the unit.
    src/libecalc/process/process_units (all files) *)
Inductive unit_kind : Type :=
| Compressor (c : chart)
| DirectMixer
| DirectSplitter
| Choke
| PressureDropper (drop : Qc)
| TemperatureSetter (temperature : Qc)
| LiquidRemover
| Mixer (external : option stream)
| Splitter (rate : Qc)
| Inlet
| Outlet.
Definition unit_ : Type := (unit_id * unit_kind)%type.

(** The thermodynamics: the fluid service and the outlet pressure by Campbell's
    formula, which is a real power and is left an arbitrary function; None
    stands for NaN or infinity.  Arguments: kappa, efficiency, head, molar mass,
    z, inlet temperature, inlet pressure.
    src/libecalc/domain/process/compressor/core/train/utils/enthalpy_calculations.py:213-263 *)
Record physics : Type := mk_physics {
  ph_service : service;
  ph_campbell : Qc -> Qc -> Qc -> Qc -> Qc -> Qc -> Qc -> option Qc }.

(** *** Compressor outlet *)

(** src/libecalc/common/numeric_methods.py:14-32 *)
Record damp_state : Type := mk_damp { d_beta : Qc; d_delta_prev : option Qc; d_flips : nat; d_stable : nat }.
Definition damp_start : damp_state := mk_damp 1 None 0 0.

(** src/libecalc/common/numeric_methods.py:33-68 *)
Definition adaptive_pressure_update (p_prev p_raw : Qc) (s : damp_state) : Qc * damp_state :=
  let delta := p_raw - p_prev in
  let large_step := Qcltb (qc 1 100 * p_prev) (Qcabs delta) in
  let flip := match d_delta_prev s with Some d => Qcltb (delta * d) 0 | None => false end in
  let flips := if flip && large_step then S (d_flips s) else 0%nat in
  let '(beta, stable) :=
    if Nat.leb 2 flips then (Qcmax (qc 1 10) (d_beta s * qc 1 2), 0%nat)
    else if Nat.leb 3 (S (d_stable s)) then (Qcmin 1 (d_beta s * qc 3 2), 0%nat)
    else (d_beta s, S (d_stable s)) in
  (p_prev + beta * delta, mk_damp beta (Some delta) flips stable).

(** require_positive_finite with the error of the compressor outlet.
    src/libecalc/process/fluid_stream/fluid_property_validation.py:23-31 *)
Definition require_positive (v : option Qc) : outcome Qc :=
  match v with
  | Some x => if Qcleb x 0 then Raise ThermodynamicError else Return x
  | None => Raise ThermodynamicError
  end.

(** flash_ph_for_compressor_calculation: errors of the flash and of the
    validation of its result become thermodynamic errors.
    src/libecalc/domain/process/compressor/core/train/utils/common.py:28-84 *)
Definition compressor_flash (ph : physics) (inlet : stream) (pressure enthalpy : Qc) : outcome properties :=
  match flash_ph (ph_service ph) (s_model inlet) pressure enthalpy (Some (s_temperature inlet)) with
  | Raise FlashError => Raise ThermodynamicError
  | Raise e => Raise e
  | Return p => match validate_ph p enthalpy with
                | Raise _ => Raise ThermodynamicError
                | Return _ => Return p
                end
  end.

Definition pressure_tolerance : Qc := qc 1 1000.
Definition max_first_guess : Qc := qz 2000.

(** The loop of calculate_outlet_pressure_and_stream; [n] is the number of
    iterations left (30 at the start).  After the last one the closest result is
    used and only an error is logged.
    src/libecalc/domain/process/compressor/core/train/utils/common.py:207-289 *)
Fixpoint outlet_loop (ph : physics) (efficiency head : Qc) (inlet : stream) (target : Qc)
    (n : nat) (current : stream) (pressure : Qc) (s : damp_state) : outcome stream :=
  match n with
  | O => Return current
  | S n' =>
      let z_average := (s_z inlet + s_z current) / qz 2 in
      let kappa_average := (s_kappa inlet + s_kappa current) / qz 2 in
      let! p_raw := require_positive (ph_campbell ph kappa_average efficiency head (s_molar_mass inlet) z_average
                                        (s_temperature inlet) (s_pressure inlet)) in
      let '(damped, s') := adaptive_pressure_update pressure p_raw s in
      let! damped := require_positive (Some damped) in
      let! props := compressor_flash ph inlet damped target in
      let! next := with_new_fluid inlet (mk_fluid (s_model inlet) props) in
      if Qcltb (Qcabs (pressure - damped) / damped) pressure_tolerance then Return next
      else outlet_loop ph efficiency head inlet target n' next damped s'
  end.

(** calculate_outlet_pressure_and_stream.
    src/libecalc/domain/process/compressor/core/train/utils/common.py:139-309 *)
Definition compressor_outlet (ph : physics) (efficiency head : Qc) (inlet : stream) : outcome stream :=
  let! guess := require_positive (ph_campbell ph (s_kappa inlet) efficiency head (s_molar_mass inlet) (s_z inlet)
                                    (s_temperature inlet) (s_pressure inlet)) in
  let guess := if Qcltb max_first_guess guess then max_first_guess else guess in
  if Qceqb efficiency 0 then Raise ZeroDivisionErr
  else
    let target := s_enthalpy inlet + head / efficiency in
    let! props := compressor_flash ph inlet guess target in
    let! current := with_new_fluid inlet (mk_fluid (s_model inlet) props) in
    outlet_loop ph efficiency head inlet target 30 current (guess * qc 95 100) damp_start.

(** Compressor.speed, minimum_flow_rate, maximum_flow_rate.
    src/libecalc/process/process_units/compressor.py:107-121 *)
Definition compressor_speed (h : heap) (i : unit_id) : outcome Qc :=
  match h_speed h i with Some v => Return v | None => Raise ValueErr end.

(** Compressor.propagate_stream.
    src/libecalc/process/process_units/compressor.py:44-102 *)
Definition compressor_propagate (ph : physics) (h : heap) (i : unit_id) (c : chart) (s : stream) : outcome stream :=
  if Qcltb (s_vapor_fraction s) pure_vapor_threshold then Raise LiquidError
  else
    let rate := volumetric_rate s in
    let! speed := compressor_speed h i in
    if Qcltb rate (ch_min_rate c speed) then Raise SurgeError
    else if Qcltb (ch_max_rate c speed) rate then Raise StonewallError
    else
      let! (head, efficiency) := ch_point c speed rate in
      compressor_outlet ph efficiency head s.

(** Choke.propagate_stream and PressureDropper.propagate_stream.
    src/libecalc/process/process_units/choke.py:32-50, pressure_dropper.py:32-50 *)
Definition drop_pressure (ph : physics) (drop : Qc) (s : stream) : outcome stream :=
  if Qcltb 0 drop then
    let pressure := s_pressure s - drop in
    if Qcltb pressure 0 then Raise InletPressureError
    else create_stream_from_standard_rate (ph_service ph) (s_model s) pressure (s_temperature s) (standard_rate s)
  else Return s.

(** DirectMixer.propagate_stream, DirectSplitter.propagate_stream.
    src/libecalc/process/process_units/direct_mixer.py:16-20, direct_splitter.py:16-20 *)
Definition add_rate (rate : Qc) (s : stream) : outcome stream :=
  with_mass_rate s (s_mass_rate s + rate * s_standard_density s / hours_per_day).
Definition subtract_rate (rate : Qc) (s : stream) : outcome stream :=
  with_mass_rate s (s_mass_rate s - rate * s_standard_density s / hours_per_day).

(** LiquidRemover.propagate_stream.
    src/libecalc/process/process_units/liquid_remover.py:17-45 *)
Definition remove_liquid_propagate (ph : physics) (s : stream) : outcome stream :=
  if Qcltb (s_vapor_fraction s) pure_vapor_threshold then
    let! gas := remove_liquid (ph_service ph) (s_fluid s) in
    if Qcltb 0 (s_molar_mass s) then
      let gas_mass_fraction := s_vapor_fraction s * p_molar_mass (f_properties gas) / s_molar_mass s in
      let rate := s_mass_rate s * gas_mass_fraction in
      let! s' := with_new_fluid s gas in
      with_mass_rate s' rate
    else Raise AssertionErr
  else Return s.

(** Mixer.propagate_stream. src/libecalc/process/process_units/mixer.py:31-34 *)
Definition mixer_propagate (ph : physics) (external : option stream) (s : stream) : outcome stream :=
  match external with
  | None => Raise ValueErr
  | Some e => mix_streams (ph_service ph) [s; e]
  end.

(** Splitter.propagate_stream and get_split_stream.
    src/libecalc/process/process_units/splitter.py:31-53 *)
Definition splitter_propagate (ph : physics) (rate : Qc) (s : stream) : outcome stream :=
  let remaining := standard_rate s - rate in
  if Qcltb remaining 0 then Raise OfftakeError
  else create_stream_from_standard_rate (ph_service ph) (s_model s) (s_pressure s) (s_temperature s) remaining.
Definition split_stream (ph : physics) (rate : Qc) (s : stream) : outcome stream :=
  create_stream_from_standard_rate (ph_service ph) (s_model s) (s_pressure s) (s_temperature s) rate.

(** TemperatureSetter.propagate_stream.
    src/libecalc/process/process_units/temperature_setter.py:29-54 *)
Definition temperature_propagate (ph : physics) (temperature : Qc) (s : stream) : outcome stream :=
  if negb (Qceqb (s_temperature s) temperature) then
    let! f := create_fluid (ph_service ph) (s_model s) (s_pressure s) temperature in
    with_new_fluid s f
  else Return s.

(** propagate_stream of every kind of unit (Inlet and Outlet return the stream:
    inlet.py:21-22, outlet.py:25-26). *)
Definition propagate (ph : physics) (h : heap) (u : unit_) (s : stream) : outcome stream :=
  let '(i, kind) := u in
  match kind with
  | Compressor c => compressor_propagate ph h i c s
  | DirectMixer => add_rate (h_mix h i) s
  | DirectSplitter => subtract_rate (h_split h i) s
  | Choke => drop_pressure ph (h_choke h i) s
  | PressureDropper drop => drop_pressure ph drop s
  | TemperatureSetter t => temperature_propagate ph t s
  | LiquidRemover => remove_liquid_propagate ph s
  | Mixer e => mixer_propagate ph e s
  | Splitter r => splitter_propagate ph r s
  | Inlet | Outlet => Return s
  end.

(** *** How much a compressor can take *)

Definition recirculation_tolerance : Qc := qc 1 1000000.

(** Compressor.get_minimum_standard_rate, get_maximum_standard_rate.
    src/libecalc/process/process_units/compressor.py:127-165 *)
Definition minimum_standard_rate (ph : physics) (h : heap) (i : unit_id) (c : chart) (s : stream) : outcome Qc :=
  let! speed := compressor_speed h i in
  Return (mass_rate_to_standard_rate (ph_service ph) (s_model s) (ch_min_rate c speed * s_density s) + recirculation_tolerance).
Definition maximum_standard_rate (ph : physics) (h : heap) (i : unit_id) (c : chart) (s : stream) : outcome Qc :=
  let! speed := compressor_speed h i in
  Return (mass_rate_to_standard_rate (ph_service ph) (s_model s) (ch_max_rate c speed * s_density s) - recirculation_tolerance).

(** Compressor.get_recirculation_range.
    src/libecalc/process/process_units/compressor.py:167-180 *)
Definition recirculation_range (ph : physics) (h : heap) (i : unit_id) (c : chart) (s : stream) : outcome boundary :=
  let! lo := minimum_standard_rate ph h i c s in
  let! hi := maximum_standard_rate ph h i c s in
  Return (mk_boundary (Qcmax 0 (lo - standard_rate s)) (Qcmax 0 (hi - standard_rate s))).

(** ** Pipelines *)

(** propagate_stream_many.
    src/libecalc/process/process_solver/process_pipeline_runner.py:10-14 *)
Fixpoint propagate_many (ph : physics) (h : heap) (us : list unit_) (s : stream) : outcome stream :=
  match us with
  | [] => Return s
  | u :: us' => let! s' := propagate ph h u s in propagate_many ph h us' s'
  end.

(** _propagate_stream_to_id with the assertion of run that the unit was found.
    src/libecalc/process/process_solver/process_pipeline_runner.py:36-56 *)
Fixpoint propagate_to (ph : physics) (h : heap) (us : list unit_) (to : unit_id) (s : stream) : outcome stream :=
  match us with
  | [] => Raise AssertionErr
  | u :: us' => if Nat.eqb (fst u) to then Return s
                else let! s' := propagate ph h u s in propagate_to ph h us' to s'
  end.

(** *** Handlers *)

(** The handlers: a shaft with the compressors registered on it (with one
    fixed or a variable speed), a recirculation loop with its mixer and
    splitter, and the handler of a choke.
    src/libecalc/process/shaft.py:12-91,
    src/libecalc/process/process_solver/recirculation_loop.py:14-51,
    src/libecalc/process/process_solver/choke_configuration_handler.py:9-33 *)
Inductive handler : Type :=
| SingleSpeedShaft (compressors : list unit_id)
| VariableSpeedShaft (compressors : list unit_id)
| RecirculationLoop (mixer splitter : unit_id)
| ChokeHandler (choke : unit_id).

(** Shaft._apply_speed. src/libecalc/process/shaft.py:75-78 *)
Definition apply_speed (i : handler_id) (compressors : list unit_id) (v : Qc) (h : heap) : heap :=
  fold_left (fun h c => set_speed c v h) compressors (set_shaft i (Some v) h).

(** RecirculationLoop.set_recirculation_rate.
    src/libecalc/process/process_solver/recirculation_loop.py:34-36 *)
Definition set_recirculation (mixer splitter : unit_id) (v : Qc) (h : heap) : heap :=
  set_split splitter v (set_mix mixer v h).

(** handle_configuration of the handlers.  The check that the configuration is
    for this handler cannot fail here: the runner looks the handler up by that
    id.
    src/libecalc/process/shaft.py:32-39, 81-91, recirculation_loop.py:44-51,
    choke_configuration_handler.py:23-30, choke.py:27-30 *)
Definition handle (i : handler_id) (hd : handler) (v : setting) : M heap unit := fun h =>
  match hd, v with
  | VariableSpeedShaft cs, SpeedSetting x => (Return tt, apply_speed i cs x h)
  | SingleSpeedShaft cs, SpeedSetting x =>
      match h_shaft h i with
      | None => (Return tt, apply_speed i cs x h)
      | Some y => if Qceqb x y then (Return tt, h) else (Raise AttributeErr, h)
      end
  | RecirculationLoop m s, RecirculationSetting x => (Return tt, set_recirculation m s x h)
  | ChokeHandler c, ChokeSetting x => if Qcltb x 0 then (Raise ValueErr, h) else (Return tt, set_choke c x h)
  | _, _ => (Raise AssertionErr, h)
  end.

(** reset of the handlers; a shaft forgets its speed but the compressors keep
    theirs.
    src/libecalc/process/shaft.py:41-42, 61-62, recirculation_loop.py:41-42,
    choke_configuration_handler.py:32-33 *)
Definition reset_handler (i : handler_id) (hd : handler) (h : heap) : heap :=
  match hd with
  | SingleSpeedShaft _ | VariableSpeedShaft _ => set_shaft i None h
  | RecirculationLoop m s => set_recirculation m s 0 h
  | ChokeHandler c => set_choke c 0 h
  end.

(** ProcessPipelineRunner: two dicts.
    src/libecalc/process/process_solver/process_pipeline_runner.py:17-20 *)
Record runner : Type := mk_runner { r_handlers : list (handler_id * handler); r_units : list unit_ }.
Definition new_runner (handlers : list (handler_id * handler)) (units : list unit_) : runner :=
  mk_runner (fold_left (fun d p => dict_set Nat.eqb (fst p) (snd p) d) handlers [])
            (fold_left (fun d p => dict_set Nat.eqb (fst p) (snd p) d) units []).

(** src/libecalc/process/process_solver/process_pipeline_runner.py:26-34 *)
Definition apply_configuration (r : runner) (c : configuration) : M heap unit :=
  match dict_get Nat.eqb (fst c) (r_handlers r) with
  | None => raise KeyErr
  | Some hd => handle (fst c) hd (snd c)
  end.
Definition reset_configuration (r : runner) (i : handler_id) : M heap unit :=
  match dict_get Nat.eqb i (r_handlers r) with
  | None => raise KeyErr
  | Some hd => fun h => (Return tt, reset_handler i hd h)
  end.
(** src/libecalc/process/process_solver/process_runner.py:18-21 *)
Fixpoint apply_configurations (r : runner) (cs : list configuration) : M heap unit :=
  match cs with
  | [] => ret tt
  | c :: cs' => apply_configuration r c ;;* apply_configurations r cs'
  end.

(** src/libecalc/process/process_solver/process_pipeline_runner.py:50-58 *)
Definition run (ph : physics) (r : runner) (s : stream) : M heap stream := fun h =>
  (propagate_many ph h (r_units r) s, h).
Definition run_to (ph : physics) (r : runner) (s : stream) (to : unit_id) : M heap stream := fun h =>
  (propagate_to ph h (r_units r) to s, h).

(** ** Assembly of a section *)

(** AntiSurgeType and PressureControlType.
    src/libecalc/process/process_solver/anti_surge/anti_surge_strategy.py:12-15,
    pressure_control/pressure_control_strategy.py:10-16 *)
Inductive anti_surge_type : Type := NoASV | IndividualASV | CommonASV.
Inductive pressure_control_type : Type :=
| UpstreamChoke | DownstreamChoke | CommonASVControl | IndividualASVRate | IndividualASVPressure.

(** recirculation_loop.  New ids come from a counter instead of random UUIDs.
    src/libecalc/process/process_solver/section_assembly.py:25-30 *)
Definition recirculation_loop (next : nat) (us : list unit_) : (handler_id * handler) * list unit_ * nat :=
  ((S (S next), RecirculationLoop next (S next)),
   (next, DirectMixer) :: us ++ [(S next, DirectSplitter)], S (S (S next))).

Definition is_outside (u : unit_) : bool :=
  match snd u with Mixer _ | Splitter _ => true | _ => false end.
Definition is_compressor (u : unit_) : bool := match snd u with Compressor _ => true | _ => false end.

(** The loop over the units.
    src/libecalc/process/process_solver/section_assembly.py:47-64 *)
Fixpoint assemble_loop (us : list unit_) (next : nat) (handlers : list (handler_id * handler))
    (solver_units pending : list unit_) : list (handler_id * handler) * list unit_ * nat :=
  match us with
  | [] => (handlers, solver_units ++ pending, next)
  | u :: us' =>
      if is_outside u then assemble_loop us' next handlers (solver_units ++ pending ++ [u]) []
      else
        let pending := pending ++ [u] in
        if is_compressor u then
          let '(l, assembled, next') := recirculation_loop next pending in
          assemble_loop us' next' (handlers ++ [l]) (solver_units ++ assembled) []
        else assemble_loop us' next handlers solver_units pending
  end.

(** assemble_process_section.
    src/libecalc/process/process_solver/section_assembly.py:33-76 *)
Definition assemble_section (us : list unit_) (next : nat) (anti_surge : anti_surge_type)
    (control : pressure_control_type) : list (handler_id * handler) * list unit_ :=
  let '(handlers, solver_units, next) :=
    match anti_surge with
    | CommonASV => let '(l, assembled, next) := recirculation_loop next us in ([l], assembled, next)
    | _ => assemble_loop us next [] [] []
    end in
  match control with
  | UpstreamChoke => (handlers ++ [(S next, ChokeHandler next)], (next, Choke) :: solver_units)
  | DownstreamChoke => (handlers ++ [(S next, ChokeHandler next)], solver_units ++ [(next, Choke)])
  | _ => (handlers, solver_units)
  end.

(** ProcessPipeline._create_process_unit_connections: the pairs (from, to).
    src/libecalc/process/process_pipeline/process_pipeline.py:145-184 *)
Fixpoint connections_from (previous : option unit_id) (us : list unit_) : list (unit_id * unit_id) :=
  match us with
  | [] => []
  | u :: us' =>
      match previous with
      | Some p => (p, fst u) :: connections_from (Some (fst u)) us'
      | None => connections_from (Some (fst u)) us'
      end
  end.
Fixpoint connections_of_sections (previous : option unit_id) (sections : list (list unit_)) : list (unit_id * unit_id) :=
  match sections with
  | [] => []
  | us :: rest =>
      connections_from previous us ++
      connections_of_sections (match last_opt us with Some u => Some (fst u) | None => previous end) rest
  end.
Definition connections (sections : list (list unit_)) : list (unit_id * unit_id) :=
  connections_of_sections None sections.

(** Shaft.get_speed_boundary, given the charts of the registered compressors.
    src/libecalc/process/shaft.py:68-73 *)
Definition speed_boundary (charts : list chart) : outcome boundary :=
  match charts with
  | [] => Raise ValueErr
  | c :: rest =>
      Return (mk_boundary (fold_left Qcmax (map ch_min_speed rest) (ch_min_speed c))
                          (fold_left Qcmin (map ch_max_speed rest) (ch_max_speed c)))
  end.

(** Shaft.connect: the ids stand for the compressor objects.
    src/libecalc/process/shaft.py:51-54 *)
Definition connect (compressors : list unit_id) (c : unit_id) : result (list unit_id) :=
  if existsb (Nat.eqb c) compressors then Err ProgrammingError else Ok (compressors ++ [c]).

(** calculate_power_in_megawatt.
    src/libecalc/domain/process/compressor/core/train/utils/common.py:117-136 *)
Definition power_in_megawatt (enthalpy_change mass_rate : Qc) : Qc :=
  enthalpy_change * mass_rate / qz 3600 * qc 1 1000000.

(** calculate_asv_corrected_rate.
    src/libecalc/domain/process/compressor/core/train/utils/common.py:87-114 *)
Definition asv_corrected_rate (minimum actual density : Qc) : Qc * Qc :=
  let corrected := Qcmax actual minimum in (corrected, corrected * density).

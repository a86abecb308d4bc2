(** Model of a compressor train on a common shaft: the recirculation around a
    compressor, the stages, the train at a given speed, the search for the speed,
    the pressure controls, the train with an intermediate pressure, and the
    maximum rate.  Floats are exact rationals; NaN is not modelled, and a division
    by zero that the program would not refuse is noted where it can occur.

    Paths are below src/libecalc/domain/process unless they start with src.
    IllegalStateException is [OtherProcessError], EcalcValidationException and
    its subclasses are [ValidationErr], CompressorOutletCalculationError is
    [ThermodynamicError]. *)
From Coq Require Import List Bool ZArith Lia.
From Verif Require Import QcTac Base Num Search_Model Stream_Model Process_Model.
From Verif Require Solver_Model Compressor_Model.
Import ListNotations.
Open Scope Qc_scope.

Notation area_flag := Compressor_Model.area_flag.

(** compressor/core/train/utils/common.py:17-20 *)
Definition EPSILON : Qc := qc 1 100000.
Definition pressure_calculation_tolerance : Qc := qc 1 1000.
Definition power_calculation_tolerance : Qc := qc 1 1000.
Definition rate_calculation_tolerance : Qc := qc 1 1000.

(** ** The parts of a train *)

(** What a stage reads from its compressor chart at a speed, the rate including
    recirculation and the rate before it: head [J/kg], efficiency, flag and
    validity ([Compressor_Model.single_point]; NaN, which a chart gives only
    outside its speeds, cannot occur since validate_speed comes first).
    entities/process_units/legacy_compressor/legacy_compressor.py:93-113 *)
Record point : Type := mk_point { pt_head : Qc; pt_eff : Qc; pt_flag : area_flag; pt_valid : bool }.

(** A chart: its slowest and fastest speed, the smallest and largest rate at a
    speed and on the fastest curve, the point at a speed and rates, and whether it has
    more than one curve.  Arbitrary functions here.
    legacy_compressor.py:71-85, compressor/core/train/compressor_train_common_shaft.py:116-117, 389-403 *)
Record tchart : Type := mk_tchart {
  tc_min_speed : Qc; tc_max_speed : Qc;
  tc_min_rate : Qc -> Qc; tc_max_rate : Qc -> Qc;
  tc_fast_min_rate : Qc; tc_fast_max_rate : Qc;
  tc_point : Qc -> Qc -> Qc -> outcome point;
  tc_variable : bool }.

(** src/libecalc/common/fixed_speed_pressure_control.py:4-9 *)
Inductive control : Type :=
| UpstreamChoking | DownstreamChoking | IndividualRate | IndividualPressure | CommonRecirculation.

(** CompressorTrainStage.  [st_id] identifies the rate modifier of the stage;
    [st_drop] is the pressure change of the choke (0 for none), [st_splitter] and
    [st_mixer] the number of outputs and inputs.
    compressor/core/train/stage.py:47-87 *)
Record stage : Type := mk_stage {
  st_id : nat; st_chart : tchart; st_temperature : Qc; st_liquid : bool; st_drop : Qc;
  st_splitter : option nat; st_mixer : option nat; st_controls : option (control * control) }.

(** RateModifier: the mass rate added last and the two settings.
    entities/process_units/rate_modifier/rate_modifier.py:41-45 *)
Record modifier : Type := mk_modifier { m_additional : Qc; m_mass : option Qc; m_fraction : option Qc }.

(** What evaluating a train changes: the speed of the shaft and the rate
    modifiers.  The rates of a splitter and the operational point of a compressor are also
    attributes, but they are always written before they are read.
    src/libecalc/process/shaft.py:26 *)
Record tstate : Type := mk_tstate { t_speed : option Qc; t_mod : nat -> modifier }.

(** The world around the train: the thermodynamics, the root finder of scipy
    (lower bound, upper bound, relative tolerance, iterations), the n-th root and
    the rounding to four decimals. *)
Record environment : Type := mk_env {
  e_physics : physics;
  e_finder : Qc -> Qc -> Qc -> nat -> Solver_Model.root_search;
  e_root : Qc -> nat -> Qc;
  e_round : Qc -> Qc }.
Definition e_service (e : environment) : service := ph_service (e_physics e).

Definition lift {A} (o : outcome A) : M tstate A := fun s => (o, s).
Definition modify (f : tstate -> tstate) : M tstate unit := fun s => (Return tt, f s).

(** ** Rate modifiers *)

Definition update_modifier (i : nat) (f : modifier -> modifier) (s : tstate) : tstate :=
  mk_tstate (t_speed s) (upd (t_mod s) i (f (t_mod s i))).
(** The setters and reset. rate_modifier.py:76-87, 99-110, 200-208 *)
Definition set_mass (i : nat) (v : Qc) : tstate -> tstate :=
  update_modifier i (fun m => mk_modifier (m_additional m) (Some v) None).
Definition set_fraction (i : nat) (v : Qc) : tstate -> tstate :=
  update_modifier i (fun m => mk_modifier (m_additional m) None (Some v)).
Definition reset_modifier (i : nat) : tstate -> tstate :=
  update_modifier i (fun m => mk_modifier (m_additional m) None None).

(** add_rate: the actual rate [am3/h] that is added, for a modifier, the limits
    of the chart and the actual rate and density of the stream.  In the branch of
    the fraction the program adds the whole additional rate to the actual rate.
    rate_modifier.py:151-174 *)
Definition added_rate (m : modifier) (min_rate max_rate rate density : Qc) : Qc :=
  let additional := match m_mass m with Some x => x / density | None => 0 end in
  let actual := match m_mass m with Some _ => rate + additional | None => rate end in
  let '(additional, actual) :=
    match m_fraction m with
    | Some f => let additional := additional + f * Qcmax 0 (max_rate - actual) in (additional, actual + additional)
    | None => (additional, actual)
    end in
  let needed := Qcmax 0 (min_rate - actual) in
  if Qcltb 0 needed then additional + needed else additional.

(** add_rate.  Without a speed the program goes on with NaN until validate_speed
    raises; here it raises at once.
    rate_modifier.py:132-179 *)
Definition modifier_add (st : stage) (x : stream) : M tstate stream := fun s =>
  match t_speed s with
  | None => (Raise OtherProcessError, s)
  | Some v =>
      let m := t_mod s (st_id st) in
      let added := added_rate m (tc_min_rate (st_chart st) v) (tc_max_rate (st_chart st) v) (volumetric_rate x) (s_density x) in
      let mass := added * s_density x in
      (with_mass_rate x (s_mass_rate x + mass),
       update_modifier (st_id st) (fun m => mk_modifier mass (m_mass m) (m_fraction m)) s)
  end.

(** remove_rate. rate_modifier.py:181-198 *)
Definition modifier_remove (st : stage) (x : stream) : M tstate stream := fun s =>
  (with_mass_rate x (s_mass_rate x - m_additional (t_mod s (st_id st))), s).

(** ** Splitters and mixers *)

(** LegacySplitter.rates_out_of_splitter and split_stream.  When all rates are
    zero the fractions are 0/0: ZeroDivisionError for Python floats (numpy floats
    give NaN instead).
    entities/process_units/legacy_splitter/legacy_splitter.py:44-92 *)
Definition split (outputs : nat) (rates : option (list Qc)) (x : stream) : outcome (list stream) :=
  let rates := match rates with Some l => l | None => repeat 0 (outputs - 1) end in
  if negb (Nat.eqb (length rates) (outputs - 1)) then Raise AssertionErr
  else
    let last := standard_rate x - qsum rates in
    let last := if Qcltb last 0 then 0 else last in
    let all := rates ++ [last] in
    let total := qsum all in
    if Qceqb total 0 then Raise ZeroDivisionErr
    else mapO (fun rate => new_stream (s_fluid x) (s_mass_rate x * (rate / total))) all.

(** CompressorTrainStage.split: the last stream goes to the compressor.
    compressor/core/train/stage.py:217-234 *)
Definition stage_split (outputs : nat) (rates : option (list Qc)) (x : stream) : outcome stream :=
  let! l := split outputs rates x in
  match last_opt l with Some y => Return y | None => Raise IndexErr end.

(** CompressorTrainStage.mix.
    compressor/core/train/stage.py:236-273, entities/process_units/legacy_mixer/legacy_mixer.py:13-26 *)
Definition stage_mix (e : environment) (inputs : nat) (streams : list stream) (x : stream) : outcome stream :=
  if negb (Nat.eqb inputs (length streams + 1)) then Raise OtherProcessError
  else if Qceqb (qsum (map s_mass_rate (x :: streams))) 0 then Return x
  else mix_streams (e_service e) (x :: streams).

(** get_compressor_inlet_stream.
    compressor/core/train/stage.py:105-150 *)
Definition stage_inlet (e : environment) (st : stage) (rates : option (list Qc)) (streams : option (list stream)) (x : stream) :
  outcome stream :=
  let! x := match st_splitter st with Some n => stage_split n rates x | None => Return x end in
  let! x := match st_mixer st with
            | Some n => match streams with None => Raise OtherProcessError | Some l => stage_mix e n l x end
            | None => Return x
            end in
  let! x := drop_pressure (e_physics e) (st_drop st) x in
  let! x := temperature_propagate (e_physics e) (st_temperature st) x in
  if st_liquid st then remove_liquid_propagate (e_physics e) x else Return x.

(** ** A stage *)

(** CompressorTrainStageResultSingleTimeStep as filled in by evaluate.
    compressor/core/results.py:18-61 *)
Record stage_result : Type := mk_stage_result {
  sr_inlet : stream; sr_outlet : stream; sr_inlet_asv : stream; sr_outlet_asv : stream;
  sr_head : Qc; sr_eff : Qc; sr_enthalpy_change : Qc; sr_power : Qc;
  sr_flag : area_flag; sr_point_valid : bool }.

(** LegacyCompressor.compress, after the operational point is found.
    legacy_compressor.py:115-153 *)
Definition compress (e : environment) (p : point) (x : stream) : outcome stream :=
  if Qceqb (pt_eff p) 0 then Raise ValidationErr
  else match compressor_outlet (e_physics e) (pt_eff p) (pt_head p) x with
       | Raise ThermodynamicError => if pt_valid p then Raise ThermodynamicError else Return x
       | o => o
       end.

(** LegacyCompressor.validate_speed. legacy_compressor.py:79-85 *)
Definition validate_speed (st : stage) : M tstate Qc := fun s =>
  match t_speed s with
  | Some v => if Qcleb (tc_min_speed (st_chart st)) v && Qcleb v (tc_max_speed (st_chart st))
              then (Return v, s) else (Raise OtherProcessError, s)
  | None => (Raise OtherProcessError, s)
  end.

(** CompressorTrainStage.evaluate.  Heads and enthalpy changes in J/kg.
    compressor/core/train/stage.py:152-215 *)
Definition stage_evaluate (e : environment) (st : stage) (rates : option (list Qc)) (streams : option (list stream)) (x : stream) :
  M tstate stage_result :=
  let* inlet := lift (stage_inlet e st rates streams x) in
  let* inlet_asv := modifier_add st inlet in
  let* speed := validate_speed st in
  let* p := lift (tc_point (st_chart st) speed (volumetric_rate inlet_asv) (volumetric_rate inlet)) in
  let* outlet_asv := lift (compress e p inlet_asv) in
  let* outlet := modifier_remove st outlet_asv in
  let enthalpy_change := pt_head p / pt_eff p in
  ret (mk_stage_result inlet outlet inlet_asv outlet_asv (pt_head p) (pt_eff p) enthalpy_change
         (power_in_megawatt enthalpy_change (s_mass_rate inlet_asv)) (pt_flag p) (pt_valid p)).

(** discharge_pressure, inlet_pressure, within_capacity (= is_valid),
    asv_recirculation_loss_mw (the enthalpy change is in J/kg here, in kJ/kg there).
    compressor/core/results.py:139-167 *)
Definition sr_discharge (r : stage_result) : Qc := s_pressure (sr_outlet r).
Definition sr_suction (r : stage_result) : Qc := s_pressure (sr_inlet r).
Definition sr_within (r : stage_result) : bool :=
  match sr_flag r with Compressor_Model.InternalPoint => true | _ => sr_point_valid r end.
Definition sr_loss (r : stage_result) : Qc :=
  (s_mass_rate (sr_inlet_asv r) - s_mass_rate (sr_inlet r)) * (sr_enthalpy_change r / qz 1000) * (1 / qz 3600000).

(** ** Root finding *)

(** The loop of secant_method; [n] is the number of iterations left.  The loop
    also stops when two values of the function are equal, but then the division
    before that has already raised (numpy floats give NaN instead).
    src/libecalc/common/numeric_methods.py:157-183 *)
Fixpoint secant_loop {St} (f : Qc -> M St Qc) (tolerance lowest highest : Qc) (n : nat) (x0 x1 : Qc) : M St Qc :=
  let* f0 := f x0 in
  let* f1 := f x1 in
  if Qceqb (f1 - f0) 0 then raise ZeroDivisionErr
  else
    let x2 := Qcmax (Qcmin (x1 - f1 * (x1 - x0) / (f1 - f0)) highest) lowest in
    let rel := if Qceqb x1 x2 then 0 else Qcabs (x2 - x1) / Qcmax (Qcabs x1) (Qcabs x2) in
    match n with
    | O => ret x2
    | S n' => if Qcltb tolerance (Qcabs rel) then secant_loop f tolerance lowest highest n' x1 x2 else ret x2
    end.

(** secant_method, bounded to the interval.
    src/libecalc/common/numeric_methods.py:129-183 *)
Definition secant {St} (x0 x1 : Qc) (f : Qc -> M St Qc) (tolerance : Qc) (max_iterations : nat) : M St Qc :=
  secant_loop f tolerance (Qcmin x0 x1) (Qcmax x0 x1) max_iterations x0 x1.

(** find_root: brenth (any probing strategy), and the secant method when
    anything raises.
    src/libecalc/common/numeric_methods.py:71-126 *)
Definition find_root {St} (e : environment) (lower upper : Qc) (f : Qc -> M St Qc) (tolerance : Qc) (iterations : nat) : M St Qc :=
  catch (Solver_Model.find_root (e_finder e lower upper tolerance iterations) f)
        (fun _ => Some (secant lower upper f tolerance iterations)).

(** src/libecalc/common/numeric_methods.py:10-11 *)
Definition convergence_tolerance : Qc := qc 1 100000.
Definition maximum_iterations : nat := 50.

(** ** A stage with a target pressure *)

(** LegacyCompressor.get_max_rate. legacy_compressor.py:71-73 *)
Definition current_max_rate (st : stage) : M tstate Qc := fun s =>
  match t_speed s with
  | Some v => (Return (tc_max_rate (st_chart st) v), s)
  | None => (Raise OtherProcessError, s)
  end.

(** evaluate_given_speed_and_target_discharge_pressure.
    compressor/core/train/stage.py:278-347 *)
Definition stage_with_mass (e : environment) (st : stage) (x : stream) (mass : Qc) : M tstate stage_result :=
  modify (set_mass (st_id st) mass) ;;* stage_evaluate e st None None x.
Definition stage_to_pressure (e : environment) (st : stage) (target : Qc) (x : stream) : M tstate stage_result :=
  let* without := stage_with_mass e st x 0 in
  let* maximum := current_max_rate st in
  let most := Qcmax (maximum * s_density (sr_inlet without) - s_mass_rate x - EPSILON) 0 in
  let* with_most := stage_with_mass e st x most in
  if Qcltb (sr_discharge without) target then ret without
  else if Qcltb target (sr_discharge with_most) then ret with_most
  else
    let* mass := find_root e 0 most (fun m => let* r := stage_with_mass e st x m in ret (sr_discharge r - target))
                   convergence_tolerance maximum_iterations in
    stage_with_mass e st x mass.

(** ** The train *)

(** StreamPort: whether it is an inlet, and its stage.
    compressor/core/train/base.py:62-68, 114-124 *)
Definition port : Type := (bool * nat)%type.
Definition ports_of_stage (k : nat) (st : stage) : list port :=
  match st_splitter st with Some n => repeat (false, k) (n - 1) | None => [] end ++
  match st_mixer st with Some n => repeat (true, k) (n - 1) | None => [] end.
Fixpoint ports_from (k : nat) (stages : list stage) : list port :=
  match stages with [] => [] | st :: rest => ports_of_stage k st ++ ports_from (S k) rest end.
Definition ports (stages : list stage) : list port := (true, 0%nat) :: ports_from 0 stages.

(** The numbers of the ports of a kind at a stage.
    base.py:65-66, 126-130 *)
Definition ports_at (inlet : bool) (k : nat) (ps : list port) : list nat :=
  map fst (filter (fun p => Bool.eqb (fst (snd p)) inlet && Nat.eqb (snd (snd p)) k) (combine (seq 0 (length ps)) ps)).

(** CompressorTrainCommonShaft.  [tn_variable] says that the shaft is a
    VariableSpeedShaft, [tn_models] are the fluid models of the ports.
    base.py:40-68, compressor_train_common_shaft.py:68-98 *)
Record train : Type := mk_train {
  tn_stages : list stage; tn_models : list (option fluid_model); tn_control : option control;
  tn_max_power : option Qc; tn_max_discharge : option Qc; tn_stage_number : option nat; tn_variable : bool }.

(** CompressorTrainEvaluationInput; the suction pressure and the rates are
    always given here.
    compressor/core/train/train_evaluation_input.py:4-67 *)
Record constraints : Type := mk_constraints {
  c_suction : Qc; c_discharge : option Qc; c_interstage : option Qc; c_rates : list Qc }.
Definition with_rate (c : constraints) (rate : Qc) : outcome constraints :=
  match c_rates c with
  | [] => Raise IndexErr
  | _ :: rest => Return (mk_constraints (c_suction c) (c_discharge c) (c_interstage c) (rate :: rest))
  end.
Definition with_suction (c : constraints) (p : Qc) : constraints :=
  mk_constraints p (c_discharge c) (c_interstage c) (c_rates c).
Definition with_discharge (c : constraints) (p : Qc) : constraints :=
  mk_constraints (c_suction c) (Some p) (c_interstage c) (c_rates c).
Definition inlet_rate (c : constraints) : outcome Qc :=
  match c_rates c with [] => Raise IndexErr | r :: _ => Return r end.

(** core/results/compressor.py:34-43 *)
Inductive pressure_status : Type :=
| NotCalculated | BelowSuction | AboveSuction | BelowDischarge | AboveDischarge
| BelowIntermediate | AboveIntermediate | PressuresMet.
Definition is_met (s : pressure_status) : bool := match s with PressuresMet => true | _ => false end.

(** CompressorTrainResultSingleTimeStep when the train runs.
    compressor/core/results.py:170-193 *)
Record train_result : Type := mk_train_result {
  tr_inlet : stream; tr_outlet : stream; tr_speed : option Qc; tr_stages : list stage_result;
  tr_status : pressure_status; tr_above_power : bool }.

(** Its properties. compressor/core/results.py:405-425, 557-560 *)
Definition tr_within (r : train_result) : bool := forallb sr_within (tr_stages r).
Definition tr_power (r : train_result) : Qc := qsum (map sr_power (tr_stages r)).
Definition tr_discharge (r : train_result) : Qc := s_pressure (tr_outlet r).
Definition tr_suction (r : train_result) : Qc := s_pressure (tr_inlet r).
Definition tr_constant_mass (e : environment) (r : train_result) : bool :=
  match map (fun x => e_round e (s_mass_rate (sr_inlet_asv x))) (tr_stages r) with
  | [] => true
  | x :: rest => forallb (Qceqb x) rest
  end.

(** minimum_speed, maximum_speed. base.py:74-82 *)
Definition min_speed (t : train) : outcome Qc :=
  match map (fun st => tc_min_speed (st_chart st)) (tn_stages t) with
  | [] => Raise ValueErr
  | x :: rest => Return (fold_left Qcmax rest x)
  end.
Definition max_speed (t : train) : outcome Qc :=
  match map (fun st => tc_max_speed (st_chart st)) (tn_stages t) with
  | [] => Raise ValueErr
  | x :: rest => Return (fold_left Qcmin rest x)
  end.

(** Shaft.set_speed. src/libecalc/process/shaft.py:81-91 *)
Definition set_train_speed (t : train) (v : Qc) : M tstate unit := fun s =>
  if tn_variable t then (Return tt, mk_tstate (Some v) (t_mod s))
  else match t_speed s with
       | None => (Return tt, mk_tstate (Some v) (t_mod s))
       | Some w => if Qceqb v w then (Return tt, s) else (Raise AttributeErr, s)
       end.

(** reset_rate_modifiers. base.py:155-157 *)
Definition reset_modifiers (t : train) : M tstate unit :=
  modify (fun s => fold_left (fun s st => reset_modifier (st_id st) s) (tn_stages t) s).

(** check_target_pressures for given pressures.  A zero pressure, for which the
    program raises ZeroDivisionError, is not modelled.
    base.py:337-355 *)
Definition status_of (c : constraints) (train_suction stage_suction discharge : Qc) (intermediate : option Qc) : pressure_status :=
  let over a b := Qcltb pressure_calculation_tolerance (a / b - 1) in
  if over stage_suction train_suction then AboveSuction
  else
    match (match c_discharge c with
           | Some p => if over discharge p then Some AboveDischarge else if over p discharge then Some BelowDischarge else None
           | None => None
           end) with
    | Some s => s
    | None =>
        match c_interstage c, intermediate with
        | Some p, Some q =>
            if over q p then AboveIntermediate else if over p q then BelowIntermediate else PressuresMet
        | _, _ => PressuresMet
        end
    end.

(** check_target_pressures with a list of stage results, and with a train
    result.  Index -1 (for number 0) is the last stage.
    base.py:307-336 *)
Definition check_stages (c : constraints) (l : list stage_result) : outcome pressure_status :=
  match l, last_opt l with
  | r :: _, Some z => Return (status_of c (sr_suction r) (sr_suction r) (sr_discharge z) None)
  | _, _ => Raise IndexErr
  end.
Definition nth_result (l : list stage_result) (number : nat) : outcome stage_result :=
  match (match number with O => last_opt l | S n => nth_error l n end) with
  | Some r => Return r
  | None => Raise IndexErr
  end.
Definition check_result (t : train) (c : constraints) (r : train_result) : outcome pressure_status :=
  match tr_stages r with
  | [] => Raise IndexErr
  | first :: _ =>
      let! intermediate := match tn_stage_number t with
                           | Some n => let! x := nth_result (tr_stages r) n in Return (Some (sr_discharge x))
                           | None => Return None
                           end in
      Return (status_of c (tr_suction r) (sr_suction first) (tr_discharge r) intermediate)
  end.

(** The flag for too much power: no maximum and a maximum of zero are the same.
    compressor_train_common_shaft.py:266-270, 1442-1447 *)
Definition above_power (t : train) (l : list stage_result) : bool :=
  match tn_max_power t with
  | Some p => if Qceqb p 0 then false else Qcltb p (qsum (map sr_power l))
  | None => false
  end.

(** The streams of the inlet ports.
    compressor_train_common_shaft.py:212-225 *)
Definition nth_or {A} (e : exn) (l : list A) (n : nat) : outcome A :=
  match nth_error l n with Some x => Return x | None => Raise e end.
Fixpoint inlet_streams (e : environment) (t : train) (c : constraints) (temperature : Qc) (i : nat) (ps : list port) :
  outcome (list stream) :=
  match ps with
  | [] => Return []
  | (false, _) :: rest => inlet_streams e t c temperature (S i) rest
  | (true, _) :: rest =>
      let! model := nth_or IndexErr (tn_models t) i in
      match model with
      | None => inlet_streams e t c temperature (S i) rest
      | Some m =>
          let! rate := nth_or IndexErr (c_rates c) i in
          let! x := create_stream_from_standard_rate (e_service e) m (c_suction c) temperature rate in
          let! l := inlet_streams e t c temperature (S i) rest in
          Return (x :: l)
      end
  end.

(** The streams that enter the mixer of a stage: as many of the streams left as
    the stage has inlet ports (port 0 is the inlet of the train).
    compressor_train_common_shaft.py:237-248 *)
Fixpoint mixer_streams (e : environment) (stage_stream : stream) (numbers : list nat) (remaining : list stream) :
  outcome (list stream * list stream) :=
  match numbers with
  | [] => Return ([], remaining)
  | O :: numbers' => mixer_streams e stage_stream numbers' remaining
  | S _ :: numbers' =>
      match remaining with
      | [] => mixer_streams e stage_stream numbers' remaining
      | x :: remaining' =>
          let! f := create_fluid (e_service e) (s_model x) (s_pressure stage_stream) (s_temperature stage_stream) in
          let! y := with_new_fluid x f in
          let! (l, remaining'') := mixer_streams e stage_stream numbers' remaining' in
          Return (y :: l, remaining'')
      end
  end.

(** The loop over the stages, from stage number [k].
    compressor_train_common_shaft.py:230-258 *)
Fixpoint train_loop (e : environment) (ps : list port) (c : constraints) (stages : list stage) (k : nat)
    (remaining : list stream) (x : stream) : M tstate (list stage_result * stream) :=
  match stages with
  | [] => ret ([], x)
  | st :: rest =>
      let* rates := lift (mapO (nth_or IndexErr (c_rates c)) (ports_at false k ps)) in
      let* (streams, remaining) := lift (mixer_streams e x (ports_at true k ps) remaining) in
      let* r := stage_evaluate e st (Some rates) (Some streams) x in
      let* (l, y) := train_loop e ps c rest (S k) remaining (sr_outlet r) in
      ret (r :: l, y)
  end.

(** calculate_compressor_train.
    compressor_train_common_shaft.py:182-273 *)
Definition calculate_train (e : environment) (t : train) (c : constraints) : M tstate train_result :=
  match tn_stages t with
  | [] => raise IndexErr
  | first :: _ =>
      let* streams := lift (inlet_streams e t c (st_temperature first) 0 (ports (tn_stages t))) in
      match streams with
      | [] => raise IndexErr
      | inlet :: remaining =>
          let* (results, outlet) := train_loop e (ports (tn_stages t)) c (tn_stages t) 0 remaining inlet in
          let* status := lift (check_stages c results) in
          fun s => (Return (mk_train_result inlet outlet (t_speed s) results status (above_power t results)), s)
      end
  end.

(** fluid_model. base.py:96-106 *)
Definition main_model (t : train) : outcome fluid_model :=
  match tn_models t with
  | Some m :: _ => Return m
  | None :: _ => Raise AssertionErr
  | [] => Raise IndexErr
  end.
Definition first_stage (t : train) : outcome stage :=
  match tn_stages t with st :: _ => Return st | [] => Raise IndexErr end.

(** ** Pressure controls *)

Definition set_status (r : train_result) (s : pressure_status) : train_result :=
  mk_train_result (tr_inlet r) (tr_outlet r) (tr_speed r) (tr_stages r) s (tr_above_power r).
Definition set_inlet (r : train_result) (x : stream) : train_result :=
  mk_train_result x (tr_outlet r) (tr_speed r) (tr_stages r) (tr_status r) (tr_above_power r).
Definition set_outlet (r : train_result) (x : stream) : train_result :=
  mk_train_result (tr_inlet r) x (tr_speed r) (tr_stages r) (tr_status r) (tr_above_power r).
Definition set_stages (r : train_result) (l : list stage_result) : train_result :=
  mk_train_result (tr_inlet r) (tr_outlet r) (tr_speed r) l (tr_status r) (tr_above_power r).

(** _evaluate_train_with_upstream_choking.
    compressor_train_common_shaft.py:722-776 *)
Definition with_upstream_choke (e : environment) (t : train) (c : constraints) : M tstate train_result :=
  let* rate := lift (inlet_rate c) in
  let* model := lift (main_model t) in
  let* first := lift (first_stage t) in
  let* inlet := lift (create_stream_from_standard_rate (e_service e) model (c_suction c) (st_temperature first) rate) in
  match c_discharge c with
  | None => raise AssertionErr
  | Some target =>
      let at_pressure p := calculate_train e t (with_suction c p) in
      let* p := find_root e (EPSILON + st_drop first) target
                  (fun p => let* r := at_pressure p in ret (tr_discharge r - target)) convergence_tolerance maximum_iterations in
      let* r := at_pressure p in
      let r := set_inlet r inlet in
      let* status := lift (check_result t c r) in
      ret (set_status r status)
  end.

(** _evaluate_train_with_downstream_choking.
    compressor_train_common_shaft.py:673-720 *)
Definition with_downstream_choke (e : environment) (t : train) (c : constraints) : M tstate train_result :=
  let* r := calculate_train e t c in
  let* r := match tn_max_discharge t with
            | Some limit =>
                if Qcltb limit (tr_discharge r * (1 + pressure_calculation_tolerance)) then
                  let* choked := with_upstream_choke e t (with_discharge c limit) in
                  let r := set_outlet (set_stages r (tr_stages choked)) (tr_outlet choked) in
                  let* status := lift (check_result t c r) in
                  ret (set_status r status)
                else ret r
            | None => ret r
            end in
  match tr_status r with
  | AboveDischarge =>
      match c_discharge c with
      | None => raise AssertionErr
      | Some target =>
          let* f := lift (create_fluid (e_service e) (s_model (tr_outlet r)) target (s_temperature (tr_outlet r))) in
          let* outlet := lift (with_new_fluid (tr_outlet r) f) in
          let r := set_outlet r outlet in
          let* status := lift (check_result t c r) in
          ret (set_status r status)
      end
  | _ => ret r
  end.

(** chart_area_status. compressor/core/results.py:377-394 *)
Definition tr_flag (r : train_result) : outcome area_flag :=
  match map sr_flag (filter (fun s => negb (sr_point_valid s)) (tr_stages r)) with
  | f :: _ => Return f
  | [] =>
      let flags := map sr_flag (filter sr_point_valid (tr_stages r)) in
      if existsb (fun f => match f with Compressor_Model.NoFlowRate => true | _ => false end) flags
      then Return Compressor_Model.NoFlowRate
      else match flags with f :: _ => Return f | [] => Raise IndexErr end
  end.

Definition set_all (f : nat -> tstate -> tstate) (t : train) : M tstate unit :=
  modify (fun s => fold_left (fun s st => f (st_id st) s) (tn_stages t) s).

(** _evaluate_train_with_individual_asv_rate.
    compressor_train_common_shaft.py:778-843 *)
Definition with_individual_rate (e : environment) (t : train) (c : constraints) : M tstate train_result :=
  let at_fraction f := set_all (fun i => set_fraction i f) t ;;* calculate_train e t c in
  let* least := at_fraction 0 in
  let* flag := lift (tr_flag least) in
  let too_high := match c_discharge c with Some p => Qcltb (tr_discharge least) p | None => false end in
  if match flag with Compressor_Model.AboveMaximumFlowRate => true | _ => too_high end then ret least
  else
    let* most := at_fraction 1 in
    match c_discharge c with
    | None => raise AssertionErr
    | Some target =>
        if Qcltb target (tr_discharge most) then ret most
        else
          let* f := find_root e 0 1 (fun f => let* r := at_fraction f in ret (tr_discharge r - target))
                      convergence_tolerance maximum_iterations in
          at_fraction f
    end.

(** The loop over the stages of _evaluate_train_with_individual_asv_pressure.
    compressor_train_common_shaft.py:873-882 *)
Fixpoint individual_pressure_loop (e : environment) (ratio : Qc) (stages : list stage) (x : stream) :
  M tstate (list stage_result) :=
  match stages with
  | [] => ret []
  | st :: rest =>
      let* r := stage_to_pressure e st (s_pressure x * ratio) x in
      let* l := individual_pressure_loop e ratio rest (sr_outlet r) in
      ret (r :: l)
  end.

(** _evaluate_train_with_individual_asv_pressure with
    calculate_pressure_ratio_per_stage.
    compressor_train_common_shaft.py:845-899, base.py:30-34, 295-305 *)
Definition with_individual_pressure (e : environment) (t : train) (c : constraints) : M tstate train_result :=
  match c_discharge c with
  | None => raise AssertionErr
  | Some target =>
      let* rate := lift (inlet_rate c) in
      let* model := lift (main_model t) in
      let* first := lift (first_stage t) in
      let* inlet := lift (create_stream_from_standard_rate (e_service e) model (c_suction c) (st_temperature first) rate) in
      let ratio := e_root e (target / c_suction c) (length (tn_stages t)) in
      let* results := individual_pressure_loop e ratio (tn_stages t) inlet in
      let* status := lift (check_stages c results) in
      match last_opt results with
      | None => raise IndexErr
      | Some z => fun s => (Return (mk_train_result inlet (sr_outlet z) (t_speed s) results status false), s)
      end
  end.

(** The while loop of _evaluate_train_with_common_asv over the points 0.1, 0.2,
    ..: the increment at which all masses are the same, or None.
    compressor_train_common_shaft.py:1018-1032 *)
Fixpoint common_scan (e : environment) (at_mass : Qc -> M tstate train_result) (lo hi : Qc) (n : nat) (inc : Qc) : M tstate (option Qc) :=
  let* r := at_mass (lo + inc * (hi - lo)) in
  if tr_constant_mass e r then ret (Some inc)
  else match n with
       | O => ret None
       | S n' => common_scan e at_mass lo hi n' (inc + qc 1 10)
       end.

(** The part of _evaluate_train_with_common_asv that looks for the range of mass
    rates at which all stages have the same mass rate, and the results at its
    ends.  Adding 0.1 nine times to 0.1 gives a float just below 1, so ten points
    are tested; here the tenth is the upper end itself.
    compressor_train_common_shaft.py:978-1061 *)
Definition common_range (e : environment) (at_mass : Qc -> M tstate train_result) (lo hi : Qc) :
  M tstate (option (Qc * Qc * train_result * train_result)) :=
  let constant x := let* r := at_mass x in ret (tr_constant_mass e r) in
  let* r_lo := at_mass lo in
  let* r_hi := at_mass hi in
  if tr_constant_mass e r_lo then
    if tr_constant_mass e r_hi then ret (Some (lo, hi, r_lo, r_hi))
    else
      let* hi := maximize_x 0 hi constant (qc 1 1000) 20 in
      let* r_hi := at_mass hi in
      ret (Some (lo, hi, r_lo, r_hi))
  else if tr_constant_mass e r_hi then
    let* m := maximize_x (- hi) (- lo) (fun x => constant (- x)) (qc 1 1000) 20 in
    let lo := - m in
    let* r_lo := at_mass lo in
    ret (Some (lo, hi, r_lo, r_hi))
  else
    let* inc := common_scan e at_mass lo hi 9 (qc 1 10) in
    match inc with
    | None => ret None
    | Some inc =>
        let* m := maximize_x (- (lo + inc * (hi - lo))) (- lo) (fun x => constant (- x)) (qc 1 1000) 20 in
        let lo := - m in
        let* hi := maximize_x (lo + inc * (hi - lo)) hi constant (qc 1 1000) 20 in
        let* r_lo := at_mass lo in
        let* r_hi := at_mass hi in
        ret (Some (lo, hi, r_lo, r_hi))
    end.

(** The rest of it, for given limits on the mass rate.
    compressor_train_common_shaft.py:972-976, 1062-1091 *)
Definition common_search (e : environment) (at_mass with_added : Qc -> M tstate train_result) (discharge : option Qc)
    (required lo hi : Qc) : M tstate train_result :=
  if Qcltb hi required then at_mass required
  else
    let* found := common_range e at_mass lo hi in
    match found with
    | None => at_mass required
    | Some (lo, hi, r_lo, r_hi) =>
        match discharge with
        | None => raise AssertionErr
        | Some target =>
            if Qcltb (tr_discharge r_lo) target then ret r_lo
            else if Qcltb target (tr_discharge r_hi) then ret r_hi
            else
              let* m := find_root e lo hi (fun m => let* r := at_mass m in ret (tr_discharge r - target))
                          convergence_tolerance maximum_iterations in
              with_added (m - required)
        end
    end.

(** The train with the given mass rate [kg/h] at its inlet and no recirculation
    beyond what the stages need, and with the given mass rate recirculated around
    every stage.
    compressor_train_common_shaft.py:937-954 *)
Definition at_inlet_mass (e : environment) (t : train) (c : constraints) (model : fluid_model) (m : Qc) : M tstate train_result :=
  reset_modifiers t ;;*
  (let* c' := lift (with_rate c (mass_rate_to_standard_rate (e_service e) model m)) in calculate_train e t c').
Definition with_added_mass (e : environment) (t : train) (c : constraints) (m : Qc) : M tstate train_result :=
  set_all (fun i => set_mass i m) t ;;* calculate_train e t c.

(** _evaluate_train_with_common_asv.
    compressor_train_common_shaft.py:901-1091 *)
Definition with_common_recirculation (e : environment) (t : train) (c : constraints) : M tstate train_result :=
  let* rate := lift (inlet_rate c) in
  let* model := lift (main_model t) in
  let* first := lift (first_stage t) in
  let required := standard_rate_to_mass_rate (e_service e) model rate in
  let* f := lift (create_fluid (e_service e) model (c_suction c) (st_temperature first)) in
  let density := p_density (f_properties f) in
  fun s =>
  match t_speed s with
  | None => (Raise OtherProcessError, s)
  | Some v =>
      common_search e (at_inlet_mass e t c model) (with_added_mass e t c) (c_discharge c) required
        (Qcmax required (tc_min_rate (st_chart first) v * density))
        (tc_max_rate (st_chart first) v * density * (1 - EPSILON)) s
  end.

(** evaluate_with_pressure_control_given_constraints.
    compressor_train_common_shaft.py:633-671 *)
Definition with_pressure_control (e : environment) (t : train) (c : constraints) : M tstate train_result := fun s =>
  match t_speed s with
  | None => (Raise ValueErr, s)
  | Some _ =>
      (match tn_control t with
       | Some DownstreamChoking => with_downstream_choke e t c
       | Some UpstreamChoking => with_upstream_choke e t c
       | Some IndividualRate => with_individual_rate e t c
       | Some IndividualPressure => with_individual_pressure e t c
       | Some CommonRecirculation => with_common_recirculation e t c
       | None => raise ValueErr
       end) s
  end.

(** ** The speed *)

(** find_fixed_shaft_speed_given_constraints.
    compressor_train_common_shaft.py:1093-1184 *)
Definition lower_speed (bound : option Qc) (lowest : Qc) : Qc :=
  match bound with Some b => if negb (Qceqb b 0) && Qcltb lowest b then b else lowest | None => lowest end.
Definition upper_speed (bound : option Qc) (highest : Qc) : Qc :=
  match bound with Some b => if negb (Qceqb b 0) && Qcltb b highest then b else highest | None => highest end.
Definition find_speed (e : environment) (t : train) (c : constraints) (lower upper : option Qc) : M tstate Qc :=
  let* lowest := lift (min_speed t) in
  let* highest := lift (max_speed t) in
  let lowest := lower_speed lower lowest in
  let highest := upper_speed upper highest in
  let at_speed v := set_train_speed t v ;;* calculate_train e t c in
  let* r_high := at_speed highest in
  if negb (tr_within r_high) then set_train_speed t highest ;;* ret highest
  else
    let* r_low := at_speed lowest in
    let* (lowest, r_low) :=
      if negb (tr_within r_low) then
        let* m := maximize_x (- highest) (- lowest) (fun x => let* r := at_speed (- x) in ret (tr_within r))
                    convergence_tolerance maximum_iterations in
        let lowest := - m in
        let* r_low := at_speed lowest in
        ret (lowest, r_low)
      else ret (lowest, r_low) in
    match c_discharge c with
    | None => set_train_speed t highest ;;* ret highest
    | Some target =>
        if Qcleb (tr_discharge r_low) target && Qcleb target (tr_discharge r_high) then
          let* v := find_root e lowest highest (fun v => let* r := at_speed v in ret (tr_discharge r - target))
                      convergence_tolerance maximum_iterations in
          set_train_speed t v ;;* ret v
        else if Qcltb target (tr_discharge r_low) then set_train_speed t lowest ;;* ret lowest
        else set_train_speed t highest ;;* ret highest
    end.

(** ** Two pressures *)

(** The checks of the constructor: _validate_maximum_discharge_pressure,
    _validate_stages, _validate_shaft.
    compressor_train_common_shaft.py:96-98, 275-287, 613-631 *)
Definition is_variable_speed (t : train) : bool := forallb (fun st => tc_variable (st_chart st)) (tn_stages t).
Definition construct (t : train) : M tstate unit :=
  match tn_max_discharge t with
  | Some p => if Qcltb p 0 then raise ValidationErr else ret tt
  | None => ret tt
  end ;;*
  (let* lowest := lift (min_speed t) in
   let* highest := lift (max_speed t) in
   if Qcltb highest lowest then raise ValidationErr
   else if is_variable_speed t then if tn_variable t then ret tt else raise ValueErr
   else if tn_variable t then raise ValueErr else set_train_speed t lowest).

(** split_train_on_stage_number.
    compressor_train_common_shaft.py:1186-1261 *)
Definition models_of (test : nat -> bool) (t : train) : list (option fluid_model) :=
  map snd (filter (fun p => test (snd (fst p))) (combine (ports (tn_stages t)) (tn_models t))).
Definition first_part (t : train) (n : nat) (control : option control) : train :=
  mk_train (firstn n (tn_stages t)) (models_of (fun k => Nat.ltb k n) t) control
    (tn_max_power t) None (tn_stage_number t) (tn_variable t).
Definition last_part (t : train) (n : nat) (control : option control) (model : option fluid_model) : train :=
  mk_train (skipn n (tn_stages t)) (model :: models_of (fun k => negb (Nat.ltb k n)) t) control
    (tn_max_power t) None (tn_stage_number t) (tn_variable t).

(** split_rates_on_stage_number.
    compressor_train_common_shaft.py:1263-1299 *)
Definition signed (inlet : bool) (rate : Qc) : Qc := if inlet then rate else - rate.
Definition rates_where (test : nat -> bool) (ps : list port) (rates : list Qc) : outcome (list (bool * Qc)) :=
  mapO (fun ip => let! r := nth_or IndexErr rates (fst ip) in Return (fst (snd ip), r))
       (filter (fun ip => test (snd (snd ip))) (combine (seq 0 (length ps)) ps)).
Definition net_rate (l : list (bool * Qc)) : Qc := qsum (map (fun p => signed (fst p) (snd p)) l).
Definition split_rates (ps : list port) (rates : list Qc) (n : nat) : outcome (list Qc * list Qc) :=
  let! first := rates_where (fun k => Nat.ltb k n) ps rates in
  let! rest := rates_where (fun k => negb (Nat.ltb k n)) ps rates in
  Return (map snd first, net_rate first :: map snd rest).

(** math.isclose(a, b, rel_tol=EPSILON). *)
Definition is_close (a b : Qc) : bool :=
  Qceqb a b || Qcleb (Qcabs (a - b)) (EPSILON * Qcmax (Qcabs a) (Qcabs b)).

(** pressure_control_first_part, pressure_control_last_part.  The properties are
    read only when the stage number has been checked.
    compressor_train_common_shaft.py:99-113 *)
Definition interstage_controls (t : train) (n : nat) : outcome (control * control) :=
  let! st := nth_or IndexErr (tn_stages t) n in
  match st_controls st with Some p => Return p | None => Raise AttributeErr end.

(** find_and_calculate_for_compressor_train_with_two_pressure_requirements.
    compressor_train_common_shaft.py:1301-1460 *)
Definition part_result (e : environment) (t : train) (c : constraints) (speed lowest : Qc) : M tstate train_result :=
  if is_close speed lowest then with_pressure_control e t c else calculate_train e t c.
Definition two_pressures (e : environment) (t : train) (n : nat) (c : constraints) (interstage : Qc) (controls : control * control) :
  M tstate train_result :=
  let part1 := first_part t n (Some (fst controls)) in
  construct part1 ;;*
  (let* placeholder := lift (nth_or IndexErr (tn_models t) 0) in
   construct (last_part t n (Some (snd controls)) placeholder) ;;*
   (let* (rates1, rates2) := lift (split_rates (ports (tn_stages t)) (c_rates c) n) in
    let c1 := mk_constraints (c_suction c) (Some interstage) None rates1 in
    let c2 := mk_constraints interstage (c_discharge c) None rates2 in
    let* lowest := lift (min_speed t) in
    let* highest := lift (max_speed t) in
    let* v1 := find_speed e part1 c1 (Some lowest) (Some highest) in
    let* r1 := part_result e part1 c1 v1 lowest in
    let* z := lift (match last_opt (tr_stages r1) with Some z => Return z | None => Raise IndexErr end) in
    let part2 := last_part t n (Some (snd controls)) (Some (s_model (sr_outlet z))) in
    let* v2 := find_speed e part2 c2 (Some lowest) (Some highest) in
    let* r2 := part_result e part2 c2 v2 lowest in
    let* (r1, r2) :=
      if Qcltb v2 v1 then
        set_train_speed part2 v1 ;;*
        (let* r2 := with_pressure_control e part2 c2 in ret (r1, r2))
      else
        set_train_speed part1 v2 ;;*
        (let* r1 := with_pressure_control e part1 c1 in ret (r1, r2)) in
    let results := tr_stages r1 ++ tr_stages r2 in
    fun s =>
      let r := mk_train_result (tr_inlet r1) (tr_outlet r2) (t_speed s) results NotCalculated (above_power t results) in
      (let! status := check_result t c r in Return (set_status r status), s))).

(** ** Evaluation *)

(** create_empty gives a result with as many empty stages as the train has.
    compressor/core/results.py:63-81, 562-570 *)
Inductive evaluation : Type :=
| Idle (stages : nat)
| Running (r : train_result).

(** _validate_nonnegative_stage_rates, _validate_positive_ingoing_rates.
    compressor_train_common_shaft.py:119-139 *)
Fixpoint check_net_rates (ps : list port) (rates : list Qc) (n k : nat) : outcome unit :=
  match n with
  | O => Return tt
  | S n' =>
      let! l := rates_where (fun j => Nat.leb j k) ps rates in
      if Qcltb (net_rate l) 0 then Raise ValueErr else check_net_rates ps rates n' (S k)
  end.
Definition validate_rates (t : train) (rates : list Qc) : outcome unit :=
  match rates with
  | [] => Raise ValueErr
  | _ => check_net_rates (ports (tn_stages t)) rates (length (tn_stages t)) 0
  end.
Definition any_ingoing (t : train) (rates : list Qc) : bool :=
  existsb (fun p => fst (snd p) && Qcltb 0 (fst p)) (combine rates (ports (tn_stages t))).

(** _check_intermediate_pressure_stage_number_is_valid.
    compressor_train_common_shaft.py:1462-1490 *)
Definition valid_stage_number (t : train) : outcome nat :=
  match tn_stage_number t with
  | Some n => if Nat.leb 1 n && Nat.leb n (length (tn_stages t) - 1) then Return n else Raise OtherProcessError
  | None => Raise OtherProcessError
  end.

(** evaluate_given_constraints (fixed_speed is never given).
    compressor_train_common_shaft.py:141-180 *)
Definition evaluate_constraints (e : environment) (t : train) (c : constraints) : M tstate evaluation :=
  reset_modifiers t ;;*
  (lift (validate_rates t (c_rates c)) ;;*
   (if any_ingoing t (c_rates c) then
      let* r :=
        match c_interstage c with
        | Some p =>
            let* n := lift (valid_stage_number t) in
            let* controls := lift (interstage_controls t n) in
            two_pressures e t n c p controls
        | None =>
            find_speed e t c None None ;;*
            (let* r := calculate_train e t c in
             match tr_status r with
             | PressuresMet | BelowDischarge => ret r
             | _ => match tn_control t with None => ret r | Some _ => with_pressure_control e t c end
             end)
        end in
      ret (Running r)
    else ret (Idle (length (tn_stages t))))).

(** power_megawatt, target_pressure_status, failure_status and is_valid of an
    evaluation.  A stage that is not valid sets the failure only for some flags.
    compressor/core/results.py:345-375, 396-411 *)
Definition ev_power (v : evaluation) : Qc := match v with Idle _ => 0 | Running r => tr_power r end.
Inductive failure : Type :=
| NoFailure | DischargeTooHigh | DischargeTooLow | SuctionTooHigh | IntermediateTooHigh | IntermediateTooLow
| AboveMaximumFlow | BelowMinimumFlow | AboveMaximumPower.
Fixpoint stage_failure (l : list stage_result) : option failure :=
  match l with
  | [] => None
  | r :: rest =>
      if sr_within r then stage_failure rest
      else match sr_flag r with
           | Compressor_Model.AboveMaximumFlowRate | Compressor_Model.BelowMinimumSpeedAboveMaximumFlowRate => Some AboveMaximumFlow
           | Compressor_Model.BelowMinimumFlowRate | Compressor_Model.BelowMinimumSpeedAndFlowRate => Some BelowMinimumFlow
           | _ => stage_failure rest
           end
  end.
Definition tr_failure (r : train_result) : failure :=
  match stage_failure (tr_stages r) with
  | Some f => f
  | None =>
      match tr_status r with
      | AboveSuction => DischargeTooHigh
      | BelowSuction => SuctionTooHigh
      | AboveDischarge => DischargeTooLow
      | BelowDischarge => DischargeTooHigh
      | AboveIntermediate => IntermediateTooLow
      | BelowIntermediate => IntermediateTooHigh
      | _ => if tr_above_power r then AboveMaximumPower else NoFailure
      end
  end.
Definition ev_failure (v : evaluation) : failure := match v with Idle _ => NoFailure | Running r => tr_failure r end.
Definition is_no_failure (f : failure) : bool := match f with NoFailure => true | _ => false end.
Definition ev_valid (v : evaluation) : bool :=
  match v with Idle _ => true | Running r => is_no_failure (tr_failure r) && forallb sr_within (tr_stages r) end.

(** The power that is reported: the adjustment applies to positive power only.
    base.py:214-219 *)
Definition adjusted_power (factor constant power : Qc) : Qc :=
  if Qcltb 0 power then power * factor + constant else power.

(** evaluate, without the maximum rates: one evaluation for each period.
    base.py:191-212 *)
Fixpoint evaluate_periods (e : environment) (t : train) (cs : list constraints) : M tstate (list evaluation) :=
  match cs with
  | [] => ret []
  | c :: rest =>
      reset_modifiers t ;;*
      (let* v := evaluate_constraints e t c in
       let* l := evaluate_periods e t rest in
       ret (v :: l))
  end.

(** ** The maximum rate *)

(** _get_max_std_rate_single_timestep; allow_asv is never given, so a smallest
    rate that is not within capacity gives 0.
    compressor_train_common_shaft.py:289-611 *)
Definition max_rate (e : environment) (t : train) (c : constraints) : M tstate Qc :=
  let* model := lift (main_model t) in
  let* first := lift (first_stage t) in
  let* f := lift (create_fluid (e_service e) model (c_suction c) (st_temperature first)) in
  let density := p_density (f_properties f) in
  let ch := st_chart first in
  let standard m := mass_rate_to_standard_rate (e_service e) model m in
  let at_mass m := let* c' := lift (with_rate c (standard m)) in calculate_train e t c' in
  let result v m := set_train_speed t v ;;* at_mass m in
  let solved rate := let* c' := lift (with_rate c rate) in evaluate_constraints e t c' in
  let* fastest := lift (max_speed t) in
  let* slowest := lift (min_speed t) in
  let m_min := tc_fast_min_rate ch * density in
  let m_max := tc_fast_max_rate ch * density in
  let m_slow := tc_max_rate ch (tc_min_speed ch) * density in
  let* r_min := result fastest m_min in
  let* r_max := result fastest m_max in
  let* r_slow := result slowest m_slow in
  let within v m := let* r := result v m in ret (tr_within r) in
  if negb (tr_within r_min) then ret 0
  else
    let* (m_max', r_max) :=
      if negb (tr_within r_max) then
        let* m := maximize_x m_min m_max (within fastest) (qc 1 1000) 20 in
        let* r := result fastest m in
        ret (m, r)
      else ret (m_max, r_max) in
    let target := c_discharge c in
    let* mass :=
      if match target with Some p => Qcltb (tr_discharge r_min) p | None => false end then ret None
      else if match target with Some p => Qcleb (tr_discharge r_max) p | None => false end then
        match target with
        | None => raise AssertionErr
        | Some p =>
            let* m := find_root e m_min m_max' (fun m => let* r := result fastest m in ret (tr_discharge r - p)) (qc 1 1000) 20 in
            ret (Some (m * (1 - rate_calculation_tolerance)))
        end
      else match tn_control t with
      | Some DownstreamChoking => ret (Some (m_max' * (1 - rate_calculation_tolerance)))
      | Some UpstreamChoking =>
          let* m := maximize_x 0 m_max
                      (fun m => let* v := solved (standard m) in
                                ret (match v with Running r => tr_within r | Idle _ => true end)) (qc 1 1000) 20 in
          ret (Some m)
      | _ =>
          let* r_slow :=
            if negb (tr_within r_slow) then
              let* m := maximize_x EPSILON m_slow (within slowest) convergence_tolerance maximum_iterations in
              result slowest m
            else ret r_slow in
          match target with
          | None => raise OtherProcessError
          | Some p =>
              if Qcleb p (tr_discharge r_max) && Qcleb (tr_discharge r_slow) p then
                let stone_wall v :=
                  let* m := maximize_x (tc_min_rate ch v * density) (tc_max_rate ch v * density) (within v) (qc 1 1000) 20 in
                  at_mass m in
                let* v := find_root e slowest fastest (fun v => let* r := stone_wall v in ret (tr_discharge r - p))
                            convergence_tolerance maximum_iterations in
                set_train_speed t v ;;*
                (let* r := stone_wall v in
                 match tr_stages r with
                 | [] => raise IndexErr
                 | x :: _ => ret (Some (s_mass_rate (sr_inlet x) * (1 - rate_calculation_tolerance)))
                 end)
              else if Qcltb p (tr_discharge r_slow) then ret None
              else raise OtherProcessError
          end
      end in
    match mass with
    | None => ret 0
    | Some mass =>
        match tn_max_power t with
        | None => ret (standard mass)
        | Some limit =>
            if Qceqb limit 0 then ret (standard mass)
            else
              let* v := solved (standard mass) in
              if Qcltb limit (ev_power v) then
                let* low := solved EPSILON in
                if Qcltb limit (ev_power low) then ret 0
                else
                  let* m0 := match low with
                             | Running r => match tr_stages r with x :: _ => ret (s_mass_rate (sr_inlet_asv x)) | [] => raise IndexErr end
                             | Idle _ => ret 0
                             end in
                  let* m := find_root e m0 mass
                              (fun m => let* v := solved (standard m) in ret (ev_power v - limit * (1 - power_calculation_tolerance)))
                              (qc 1 1000) 20 in
                  ret (standard m)
              else ret (standard mass)
        end
    end.

(** The exceptions that are not subclasses of EcalcError.
    src/libecalc/common/errors/exceptions.py, process_pipeline/process_error.py,
    fluid_stream/exceptions.py *)
Definition is_ecalc_error (x : exn) : bool :=
  match x with
  | AssertionErr | ValueErr | KeyErr | IndexErr | ZeroDivisionErr | AttributeErr | RecursionErr => false
  | _ => true
  end.

(** get_max_standard_rate, for the given suction and discharge pressures; None is
    NaN.
    base.py:357-410 *)
Fixpoint max_rates_loop (e : environment) (t : train) (pressures : list (Qc * Qc)) : M tstate (list (option Qc)) :=
  match pressures with
  | [] => ret []
  | (suction, discharge) :: rest =>
      let* rate :=
        if Qcleb suction 0 || Qcleb discharge 0 then ret (Some 0)
        else catch (let* x := max_rate e t (mk_constraints suction (Some discharge) None [EPSILON]) in ret (Some x))
                   (fun x => if is_ecalc_error x then Some (ret None) else None) in
      let* l := max_rates_loop e t rest in
      ret (rate :: l)
  end.
Definition max_rates (e : environment) (t : train) (pressures : list (Qc * Qc)) : M tstate (list (option Qc)) :=
  if Nat.ltb 1 (length (ports (tn_stages t))) then raise ValidationErr else max_rates_loop e t pressures.

(** evaluate with the maximum rates (calculate_max_rate).
    base.py:191-226 *)
Definition evaluate_with_max_rate (e : environment) (t : train) (cs : list constraints) : M tstate (list evaluation * list (option Qc)) :=
  let* l := evaluate_periods e t cs in
  let* m := max_rates e t (map (fun c => (c_suction c, match c_discharge c with Some p => p | None => 0 end)) cs) in
  ret (l, m).

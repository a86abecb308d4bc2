(** Model of the solvers of a process pipeline: merging of configurations,
    solutions, the finders of speed, recirculation rate and choke, the
    anti-surge and pressure control strategies, and the solvers of one section,
    of several shafts, of several pressures and of feasibility.
    Floats are exact rationals ([Qc]); log messages are dropped. *)
From Coq Require Import List Bool ZArith Lia Qround.
From Verif Require Import QcTac Base Num Stream_Model Flash_Model Process_Model Search_Model.
Import ListNotations.
Open Scope Qc_scope.

(** ** Failures and solutions *)

(** The failures.  Simplified: the ids, rates and messages they carry are
    dropped, except those of an unreachable pressure.
    src/libecalc/process/process_solver/solver.py:33-131, 152-175,
    anti_surge/anti_surge_strategy.py:48-51 *)
Inductive direction : Type := MaxBelowTarget | MinAboveTarget.
Inductive failure : Type :=
| StonewallFailure
| SurgeFailure
| ThermodynamicFailure
| ConvergenceFailure
| LiquidFailure
| InletPressureFailure
| OfftakeFailure
| ProcessFailure
| NoAntiSurgeFailure
| Unreachable (achievable target : Qc) (d : direction) (source : option nat).

(** Solution: a configuration and possibly a failure.
    src/libecalc/process/process_solver/solver.py:177-184 *)
Record solution : Type := mk_solution { sol_configuration : list configuration; sol_failure : option failure }.
Definition success (s : solution) : bool := match sol_failure s with None => true | Some _ => false end.

(** except ProcessError: which exceptions are process errors, and the failure
    they become.
    src/libecalc/process/process_solver/solver.py:133-149 *)
Definition process_failure (e : exn) : option failure :=
  match e with
  | LiquidError => Some LiquidFailure
  | OfftakeError => Some OfftakeFailure
  | InletPressureError => Some InletPressureFailure
  | ThermodynamicError => Some ThermodynamicFailure
  | StonewallError => Some StonewallFailure
  | SurgeError => Some SurgeFailure
  | OtherProcessError => Some ProcessFailure
  | _ => None
  end.

(** merge_configurations: a dict by handler id, in the order of insertion.
    src/libecalc/process/process_solver/configuration.py:58-65 *)
Definition merge_configurations (first second : list configuration) : list configuration :=
  let put d (c : configuration) := dict_set Nat.eqb (fst c) (snd c) d in
  fold_left put second (fold_left put first []).

(** Solution.get_configuration.
    src/libecalc/process/process_solver/solver.py:216-224 *)
Definition get_configuration (s : solution) (i : handler_id) : outcome setting :=
  match find (fun c : configuration => Nat.eqb (fst c) i) (sol_configuration s) with
  | Some c => Return (snd c)
  | None => Raise ValueErr
  end.

(** Solution.combine.
    src/libecalc/process/process_solver/solver.py:226-245 *)
Definition combine_solutions (a b : solution) : solution :=
  if success a then mk_solution (merge_configurations (sol_configuration a) (sol_configuration b)) (sol_failure b)
  else a.

(** ** Root finding *)

(** A root finder (scipy's brenth in production) is any strategy that asks for
    values of the function at points of its choice and then answers or raises.
    src/libecalc/process/process_solver/search_strategies.py:129-181 *)
Inductive root_search : Type :=
| Found (x : Qc)
| Stop (e : exn)
| Probe (x : Qc) (k : Qc -> root_search).
Definition root_finder : Type := boundary -> root_search.

Fixpoint find_root {St} (t : root_search) (f : Qc -> M St Qc) : M St Qc :=
  match t with
  | Found x => ret x
  | Stop e => raise e
  | Probe x k => let* y := f x in find_root (k y) f
  end.

(** ** Finders *)

(** Finding: a configuration and possibly a failure.
    src/libecalc/process/process_solver/finder.py:11-23 *)
Definition finding : Type := (Qc * option failure)%type.

(** The exception classes named by an except clause. *)
Definition is_one_of (es : list exn) (e : exn) : bool := existsb (fun x => if exn_eq_dec e x then true else false) es.

(** A float compared with a FloatConstraint: Python evaluates the reflected
    comparison of the constraint.
    src/libecalc/process/process_solver/float_constraint.py:19-55 *)
Definition below_target (p : Qc) (c : float_constraint) : bool := fc_gt c p.
Definition at_target (p : Qc) (c : float_constraint) : bool := fc_eq c p.
Definition above_target (p : Qc) (c : float_constraint) : bool := fc_lt c p.
Definition at_or_below_target (p : Qc) (c : float_constraint) : bool := fc_ge c p.

Section Finders.
Context {St : Type}.
Variable func : Qc -> M St stream.

(** ShaftSpeedFinder._eos_ok.
    src/libecalc/process/process_solver/finders/shaft_speed_finder.py:132-143 *)
Definition eos_ok (speed : Qc) : M St bool :=
  catch (func speed ;;* ret true)
        (fun e => if is_one_of [ThermodynamicError; StonewallError; SurgeError; InletPressureError] e
                  then Some (ret false) else None).

(** The probe of _find_min_within_capacity_speed.
    src/libecalc/process/process_solver/finders/shaft_speed_finder.py:162-173 *)
Definition bool_speed (x : Qc) : M St (bool * bool) :=
  catch (func x ;;* ret (false, true))
        (fun e => if is_one_of [StonewallError; ThermodynamicError; InletPressureError] e then Some (ret (true, false))
                  else if is_one_of [SurgeError] e then Some (ret (false, false)) else None).

(** ShaftSpeedFinder._find_min_within_capacity_speed.
    src/libecalc/process/process_solver/finders/shaft_speed_finder.py:145-181 *)
Definition min_capacity_speed (b : boundary) : M St (Qc * stream) :=
  catch (let* s := func (b_min b) in ret (b_min b, s))
        (fun e => if is_one_of [StonewallError; ThermodynamicError; InletPressureError] e then
                    Some (let* x := search default_tolerance default_iterations b bool_speed in
                          let* s := func x in ret (x, s))
                  else None).

(** ShaftSpeedFinder.find.  [depth] is what is left of Python's recursion
    limit.  The result of the first call and the errors caught around it are
    a sum here, because the recursive call is made inside the except clause.
    src/libecalc/process/process_solver/finders/shaft_speed_finder.py:40-130 *)
Fixpoint find_speed (root : root_finder) (target : Qc) (depth : nat) (b : boundary) : M St finding :=
  match depth with
  | O => raise RecursionErr
  | S depth' =>
    let* first :=
      catch (let* s := func (b_max b) in ret (inl s))
            (fun e => match e with
                      | StonewallError => Some (ret (inr (b_max b, Some StonewallFailure)))
                      | SurgeError => Some (ret (inr (b_max b, Some SurgeFailure)))
                      | ThermodynamicError =>
                          Some (let* valid_max := highest_true default_tolerance default_iterations b eos_ok in
                                match valid_max with
                                | None => ret (inr (b_max b, Some ThermodynamicFailure))
                                | Some v => let* r := find_speed root target depth' (mk_boundary (b_min b) v) in ret (inr r)
                                end)
                      | InletPressureError => Some (ret (inr (b_max b, Some InletPressureFailure)))
                      | _ => None
                      end) in
    match first with
    | inr r => ret r
    | inl at_max =>
      if Qcltb (s_pressure at_max) target then
        ret (b_max b, Some (Unreachable (s_pressure at_max) target MaxBelowTarget None))
      else
        let* at_min :=
          catch (let* p := min_capacity_speed b in ret (inl p))
                (fun e => match e with
                          | SurgeError => Some (ret (inr SurgeFailure))
                          | StonewallError => Some (ret (inr StonewallFailure))
                          | InletPressureError => Some (ret (inr InletPressureFailure))
                          | _ => None
                          end) in
        match at_min with
        | inr f => ret (b_min b, Some f)
        | inl (min_speed, at_min) =>
            if Qcltb target (s_pressure at_min) then
              ret (min_speed, Some (Unreachable (s_pressure at_min) target MinAboveTarget None))
            else if Qcleb (s_pressure at_min) target && Qcleb target (s_pressure at_max) then
              let* speed := find_root (root (mk_boundary min_speed (b_max b)))
                                      (fun x => let* out := func x in ret (s_pressure out - target)) in
              ret (speed, None)
            else raise AssertionErr
        end
    end
  end.

(** RecirculationLoopRateFinder._bool_func.
    src/libecalc/process/process_solver/finders/recirculation_loop_rate_finder.py:124-141 *)
Definition bool_rate (minimize : bool) (x : Qc) : M St (bool * bool) :=
  catch (func x ;;* ret (negb minimize, true))
        (fun e => if is_one_of [SurgeError] e then Some (ret (true, false))
                  else if is_one_of [StonewallError; InletPressureError] e then Some (ret (false, false)) else None).

(** _find_min_within_capacity_rate, _find_max_within_capacity_rate.
    src/libecalc/process/process_solver/finders/recirculation_loop_rate_finder.py:93-122 *)
Definition min_capacity_rate (tolerance : Qc) (b : boundary) : M St Qc :=
  catch (func (b_min b) ;;* ret (b_min b))
        (fun e => if is_one_of [SurgeError] e
                  then Some (search tolerance default_iterations b (bool_rate true)) else None).
Definition max_capacity_rate (tolerance : Qc) (b : boundary) : M St Qc :=
  catch (func (b_max b) ;;* ret (b_max b))
        (fun e => if is_one_of [StonewallError] e
                  then Some (search tolerance default_iterations b (bool_rate false)) else None).

(** RecirculationLoopRateFinder.find.
    src/libecalc/process/process_solver/finders/recirculation_loop_rate_finder.py:36-91 *)
Definition find_rate (root : root_finder) (tolerance : Qc) (target : option float_constraint) (b : boundary)
    : M St finding :=
  let* first :=
    catch (let* x := min_capacity_rate tolerance b in ret (inl x))
          (fun e => match e with
                    | StonewallError => Some (ret (inr StonewallFailure))
                    | InletPressureError => Some (ret (inr InletPressureFailure))
                    | _ => None
                    end) in
  match first, target with
  | inr f, _ => ret (b_min b, Some f)
  | inl minimum_rate, None => ret (minimum_rate, None)
  | inl minimum_rate, Some target =>
      let* maximum_rate := max_capacity_rate tolerance b in
      let* at_min := func minimum_rate in
      if below_target (s_pressure at_min) target then
        ret (minimum_rate, Some (Unreachable (s_pressure at_min) (fc_value target) MaxBelowTarget None))
      else if at_target (s_pressure at_min) target then ret (minimum_rate, None)
      else
        let* at_max := func maximum_rate in
        if at_target (s_pressure at_max) target then ret (maximum_rate, None)
        else if above_target (s_pressure at_max) target then
          ret (maximum_rate, Some (Unreachable (s_pressure at_max) (fc_value target) MinAboveTarget None))
        else
          let* rate := find_root (root (mk_boundary minimum_rate maximum_rate))
                                 (fun x => let* out := func x in ret (s_pressure out - fc_value target)) in
          ret (rate, None)
  end.

(** The loop of UpstreamChokeDeltaPressureFinder.find.  [n] bounds the number
    of rounds; [halvings] is a bound that is never reached (the width is
    halved in every round).  [exceeded] is capacity_error.
    src/libecalc/process/process_solver/finders/choke_delta_pressure_finders.py:51-58 *)
Definition outlet_pressure (delta : Qc) : M St Qc := let* s := func delta in ret (s_pressure s).

Fixpoint capacity_loop (n : nat) (lo hi : Qc) (exceeded : exn) : M St (Qc * exn) :=
  if Qcltb pressure_tolerance (hi - lo) then
    match n with
    | O => raise RecursionErr
    | S n' =>
        let mid := (lo + hi) / qz 2 in
        let* r := catch (outlet_pressure mid ;;* ret None)
                        (fun e => if is_one_of [StonewallError; InletPressureError] e then Some (ret (Some e)) else None) in
        match r with
        | None => capacity_loop n' mid hi exceeded
        | Some e => capacity_loop n' lo mid e
        end
    end
  else ret (lo, exceeded).
Definition halvings (width : Qc) : nat :=
  Z.to_nat (Z.log2_up (Z.max 1 (Qceiling (this (width / pressure_tolerance))))).

(** UpstreamChokeDeltaPressureFinder.find.  The last [raise capacity_error] is
    unreachable: the error is of one of the two classes tested before it.
    src/libecalc/process/process_solver/finders/choke_delta_pressure_finders.py:34-87 *)
Definition find_upstream (root : root_finder) (target : Qc) (b : boundary) : M St finding :=
  let* p0 := outlet_pressure 0 in
  if Qcltb target p0 then
    let* found :=
      catch (outlet_pressure (b_max b) ;;* ret (b_max b, None))
            (fun e => if is_one_of [StonewallError; InletPressureError] e
                      then Some (let* r := capacity_loop (halvings (b_max b - b_min b)) (b_min b) (b_max b) e in
                                 ret (fst r, Some (snd r)))
                      else None) in
    let '(search_max, capacity_error) := found in
    let* max_pressure := outlet_pressure search_max in
    if Qcltb target max_pressure then
      match capacity_error with
      | Some StonewallError => ret (search_max, Some StonewallFailure)
      | Some InletPressureError => ret (search_max, Some InletPressureFailure)
      | Some e => raise e
      | None => ret (search_max, Some (Unreachable max_pressure target MinAboveTarget None))
      end
    else
      let* delta := find_root (root (mk_boundary (b_min b) search_max))
                              (fun x => let* p := outlet_pressure x in ret (p - target)) in
      ret (delta, None)
  else raise AssertionErr.

(** DownstreamChokeDeltaPressureFinder.find.
    src/libecalc/process/process_solver/finders/choke_delta_pressure_finders.py:94-108 *)
Definition find_downstream (target : Qc) : M St finding :=
  let* out := func 0 in
  if Qcltb (s_pressure out) target then
    ret (0, Some (Unreachable (s_pressure out) target MaxBelowTarget None))
  else ret (s_pressure out - target, None).

End Finders.

(** ** Strategies *)

(** A compressor object: its id and chart. *)
Definition compressor : Type := (unit_id * chart)%type.

(** The anti-surge strategies and the pressure control strategies, with what
    their constructors are given.  Simplified: their simulator is the runner of
    the section and their root finder is that of the section, and the
    anti-surge strategy of an upstream choke is that of the section, as
    assemble_solver wires them.
    src/libecalc/process/process_solver/anti_surge (all files),
    pressure_control (all files), solver_assembly.py:155-230 *)
Inductive anti_surge : Type :=
| ASNone
| ASIndividual (loops : list handler_id) (compressors : list compressor)
| ASCommon (loop : handler_id) (first : compressor).
Inductive pressure_control : Type :=
| PCUpstream (choke : handler_id)
| PCDownstream (choke : handler_id)
| PCCommon (loop : handler_id) (first : compressor)
| PCRate (loops : list handler_id) (compressors : list compressor)
| PCPressure (loops : list handler_id) (compressors : list compressor).

(** PipelineSection, with the root finder and the real powers it uses:
    [sec_root x n] is x ** (1.0 / n).
    src/libecalc/process/process_solver/pipeline_section.py:14-64 *)
Record section : Type := mk_section {
  sec_id : nat;
  sec_shaft : handler_id;
  sec_runner : runner;
  sec_anti : anti_surge;
  sec_control : pressure_control;
  sec_bounds : boundary;
  sec_finder : root_finder;
  sec_root : Qc -> nat -> Qc }.

Section Strategies.
Variable ph : physics.
Variable sec : section.
Let r := sec_runner sec.

(** 10e-3. src/libecalc/process/process_solver/anti_surge/common_asv.py:74 *)
Definition asv_tolerance : Qc := qc 1 100.

(** Running up to a compressor and asking for its recirculation range.
    src/libecalc/process/process_solver/anti_surge/individual_asv.py:49-50 *)
Definition range_at (inlet : stream) (c : compressor) : M heap boundary :=
  let* s := run_to ph r inlet (fst c) in
  fun h => (recirculation_range ph h (fst c) (snd c) s, h).

Definition set_rate (loop : handler_id) (x : Qc) : M heap unit :=
  apply_configuration r (loop, RecirculationSetting x).

Fixpoint reset_all (loops : list handler_id) : M heap unit :=
  match loops with
  | [] => ret tt
  | l :: rest => reset_configuration r l ;;* reset_all rest
  end.

(** The closure that most strategies search over: set the rate of a loop and
    run.
    src/libecalc/process/process_solver/anti_surge/common_asv.py:67-69,
    pressure_control/common_asv.py:49-53 *)
Definition with_rate (inlet : stream) (loop : handler_id) (x : Qc) : M heap stream :=
  set_rate loop x ;;* run ph r inlet.

(** reset and apply of the anti-surge strategies.
    src/libecalc/process/process_solver/anti_surge/anti_surge_strategy.py:66-74,
    individual_asv.py:40-62, common_asv.py:42-79.  The zip is strict; the
    constructor has compared the lengths. *)
Definition anti_surge_reset (a : anti_surge) : M heap unit :=
  match a with
  | ASNone => ret tt
  | ASIndividual loops _ => reset_all loops
  | ASCommon loop _ => reset_configuration r loop
  end.

(** Stage by stage: choose a rate from the range of the compressor, set it.
    src/libecalc/process/process_solver/anti_surge/individual_asv.py:47-58,
    pressure_control/individual_asv.py:140-151, 208-216 *)
Fixpoint stages (inlet : stream) (choose : boundary -> Qc) (ps : list (handler_id * compressor))
    : M heap (list configuration) :=
  match ps with
  | [] => ret []
  | (loop, c) :: rest =>
      let* b := range_at inlet c in
      set_rate loop (choose b) ;;*
      let* confs := stages inlet choose rest in
      ret ((loop, RecirculationSetting (choose b)) :: confs)
  end.

Definition anti_surge_apply (inlet : stream) (a : anti_surge) : M heap solution :=
  match a with
  | ASNone => ret (mk_solution [] (Some NoAntiSurgeFailure))
  | ASIndividual loops cs =>
      anti_surge_reset a ;;*
      let* confs := stages inlet b_min (combine loops cs) in
      ret (mk_solution confs None)
  | ASCommon loop c =>
      anti_surge_reset a ;;*
      let* b := range_at inlet c in
      let* f := find_rate (with_rate inlet loop) (sec_finder sec) asv_tolerance None b in
      ret (mk_solution [(loop, RecirculationSetting (fst f))] (snd f))
  end.

(** reset of the pressure control strategies.
    src/libecalc/process/process_solver/pressure_control/common_asv.py:39-40,
    downstream_choke.py:31-32, individual_asv.py:44-46, 129-131,
    upstream_choke.py:49-50 *)
Definition control_reset (p : pressure_control) : M heap unit :=
  match p with
  | PCUpstream choke | PCDownstream choke => reset_configuration r choke
  | PCCommon loop _ => reset_configuration r loop
  | PCRate loops _ | PCPressure loops _ => reset_all loops
  end.

(** compute_minimum_achievable_pressure.
    src/libecalc/process/process_solver/pressure_control/individual_asv.py:198-221 *)
Definition minimum_achievable (inlet : stream) (loops : list handler_id) (cs : list compressor)
    : M heap (list configuration * Qc) :=
  let* confs := stages inlet b_max (combine loops cs) in
  let* out := run ph r inlet in
  reset_all loops ;;*
  ret (confs, s_pressure out).

(** The closure of IndividualASVPressureControlStrategy.apply.
    src/libecalc/process/process_solver/pressure_control/individual_asv.py:79-84 *)
Definition stage_outlet (inlet : stream) (loop : handler_id) (c : compressor) (x : Qc) : M heap stream :=
  set_rate loop x ;;*
  let* s := run_to ph r inlet (fst c) in
  fun h => (compressor_propagate ph h (fst c) (snd c) s, h).

(** FloatConstraint's default tolerance.
    src/libecalc/process/process_solver/float_constraint.py:3, 9 *)
Definition default_abs_tol : Qc := qc 1 1000.

Fixpoint power (x : Qc) (n : nat) : Qc := match n with O => 1 | S n' => x * power x n' end.

(** The loop of IndividualASVPressureControlStrategy.apply; [i] counts the
    stages from 0.
    src/libecalc/process/process_solver/pressure_control/individual_asv.py:73-106 *)
Fixpoint pressure_stages (inlet : stream) (ratio : Qc) (i : nat) (ps : list (handler_id * compressor))
    (configurations : list configuration) : M heap solution :=
  match ps with
  | [] => ret (mk_solution configurations None)
  | (loop, c) :: rest =>
      let stage_target := s_pressure inlet * power ratio (S i) in
      let* b := range_at inlet c in
      let* f := find_rate (stage_outlet inlet loop c) (sec_finder sec) asv_tolerance
                          (Some (mk_constraint stage_target default_abs_tol)) b in
      match snd f with
      | Some _ => ret (mk_solution configurations (snd f))
      | None => pressure_stages inlet ratio (S i) rest (configurations ++ [(loop, RecirculationSetting (fst f))])
      end
  end.

(** x ** (1.0 / n) after the division x = a / b.
    src/libecalc/process/process_solver/pressure_control/individual_asv.py:69,
    multi_shaft_equal_ratio_solver.py:39 *)
Definition equal_ratio (target inlet_pressure : Qc) (n : nat) : outcome Qc :=
  if Qceqb inlet_pressure 0 then Raise ZeroDivisionErr
  else match n with
       | O => Raise ZeroDivisionErr
       | _ => Return (sec_root sec (target / inlet_pressure) n)
       end.

Definition lift {A} (o : outcome A) : M heap A := fun h => (o, h).

(** IndividualASVPressureControlStrategy.apply.
    src/libecalc/process/process_solver/pressure_control/individual_asv.py:48-106 *)
Definition individual_pressure (target : float_constraint) (inlet : stream) (loops : list handler_id)
    (cs : list compressor) : M heap solution :=
  reset_all loops ;;*
  let* m := minimum_achievable inlet loops cs in
  if Qcltb (fc_value target) (snd m) then
    ret (mk_solution (fst m) (Some (Unreachable (snd m) (fc_value target) MinAboveTarget None)))
  else
    let* ratio := lift (equal_ratio (fc_value target) (s_pressure inlet) (length loops)) in
    pressure_stages inlet ratio 0 (combine loops cs) [].

(** IndividualASVRateControlStrategy._get_configurations_from_fraction.
    src/libecalc/process/process_solver/pressure_control/individual_asv.py:133-151 *)
Definition from_fraction (inlet : stream) (loops : list handler_id) (cs : list compressor) (fraction : Qc)
    : M heap (list configuration) :=
  reset_all loops ;;*
  stages inlet (fun b => b_min b + fraction * (b_max b - b_min b)) (combine loops cs).

Definition fraction_outlet (inlet : stream) (loops : list handler_id) (cs : list compressor) (fraction : Qc)
    : M heap stream :=
  let* confs := from_fraction inlet loops cs fraction in
  apply_configurations r confs ;;*
  run ph r inlet.

(** IndividualASVRateControlStrategy.apply.
    src/libecalc/process/process_solver/pressure_control/individual_asv.py:153-195 *)
Definition individual_rate (target : float_constraint) (inlet : stream) (loops : list handler_id)
    (cs : list compressor) : M heap solution :=
  reset_all loops ;;*
  let* m := minimum_achievable inlet loops cs in
  if Qcltb (fc_value target) (snd m) then
    ret (mk_solution (fst m) (Some (Unreachable (snd m) (fc_value target) MinAboveTarget None)))
  else
    let* fraction := find_root (sec_finder sec (mk_boundary 0 1))
                       (fun x => let* out := fraction_outlet inlet loops cs x in ret (s_pressure out - fc_value target)) in
    let* confs := from_fraction inlet loops cs fraction in
    ret (mk_solution confs None).

(** CommonASVPressureControlStrategy.apply.
    src/libecalc/process/process_solver/pressure_control/common_asv.py:42-74 *)
Definition common_pressure (target : float_constraint) (inlet : stream) (loop : handler_id) (c : compressor)
    : M heap solution :=
  reset_configuration r loop ;;*
  let* b := range_at inlet c in
  let* f := find_rate (with_rate inlet loop) (sec_finder sec) asv_tolerance (Some target) b in
  ret (mk_solution [(loop, RecirculationSetting (fst f))] (snd f)).

(** DownstreamChokePressureControlStrategy.apply.
    src/libecalc/process/process_solver/pressure_control/downstream_choke.py:34-77 *)
Definition with_choke (inlet : stream) (choke : handler_id) (x : Qc) : M heap stream :=
  apply_configuration r (choke, ChokeSetting x) ;;* run ph r inlet.
Definition downstream_choke (target : float_constraint) (inlet : stream) (choke : handler_id) : M heap solution :=
  let* baseline := with_choke inlet choke 0 in
  if at_or_below_target (s_pressure baseline) target then
    if at_target (s_pressure baseline) target then ret (mk_solution [(choke, ChokeSetting 0)] None)
    else ret (mk_solution [(choke, ChokeSetting 0)]
                (Some (Unreachable (s_pressure baseline) (fc_value target) MaxBelowTarget None)))
  else
    let* f := find_downstream (with_choke inlet choke) (fc_value target) in
    ret (mk_solution [(choke, ChokeSetting (fst f))] (snd f)).

(** UpstreamChokePressureControlStrategy.apply.
    src/libecalc/process/process_solver/pressure_control/upstream_choke.py:52-87 *)
Definition choke_func (inlet : stream) (choke : handler_id) (x : Qc) : M heap stream :=
  apply_configuration r (choke, ChokeSetting x) ;;*
  let* a := anti_surge_apply inlet (sec_anti sec) in
  apply_configurations r (sol_configuration a) ;;*
  (fun h => (Return tt, set_last choke (sol_configuration a) h)) ;;*
  run ph r inlet.
Definition upstream_choke (target : float_constraint) (inlet : stream) (choke : handler_id) : M heap solution :=
  let* f := find_upstream (choke_func inlet choke) (sec_finder sec) (fc_value target)
              (mk_boundary pressure_tolerance (s_pressure inlet - pressure_tolerance)) in
  let* last := (fun h => (Return (h_last h choke), h)) in
  ret (mk_solution (last ++ [(choke, ChokeSetting (fst f))]) (snd f)).

Definition control_apply (target : float_constraint) (inlet : stream) (p : pressure_control) : M heap solution :=
  match p with
  | PCUpstream choke => upstream_choke target inlet choke
  | PCDownstream choke => downstream_choke target inlet choke
  | PCCommon loop c => common_pressure target inlet loop c
  | PCRate loops cs => individual_rate target inlet loops cs
  | PCPressure loops cs => individual_pressure target inlet loops cs
  end.

(** ** One section *)

(** The closure of _find_speed_solution.
    src/libecalc/process/process_solver/pipeline_section_solver.py:56-66 *)
Definition speed_func (inlet : stream) (speed : Qc) : M heap stream :=
  anti_surge_reset (sec_anti sec) ;;*
  apply_configuration r (sec_shaft sec, SpeedSetting speed) ;;*
  catch (run ph r inlet)
        (fun e => if is_one_of [SurgeError] e then
                    Some (let* a := anti_surge_apply inlet (sec_anti sec) in
                          apply_configurations r (sol_configuration a) ;;*
                          run ph r inlet)
                  else None).

(** Python's recursion limit, of which the search for a valid speed uses at
    most two levels. *)
Definition recursion_limit : nat := 1000.

(** _find_speed_solution.
    src/libecalc/process/process_solver/pipeline_section_solver.py:42-68 *)
Definition find_speed_solution (target : float_constraint) (inlet : stream) : M heap finding :=
  control_reset (sec_control sec) ;;*
  find_speed (speed_func inlet) (sec_finder sec) (fc_value target) recursion_limit (sec_bounds sec).

Definition with_source (i : nat) (f : failure) : failure :=
  match f with Unreachable a t d _ => Unreachable a t d (Some i) | _ => f end.

(** _find_solution.
    src/libecalc/process/process_solver/pipeline_section_solver.py:103-163 *)
Definition solve_section (target : float_constraint) (inlet : stream) : M heap solution :=
  let* speed_finding := find_speed_solution target inlet in
  let shaft_config := (sec_shaft sec, SpeedSetting (fst speed_finding)) in
  match snd speed_finding with
  | Some ((StonewallFailure | SurgeFailure | ThermodynamicFailure | InletPressureFailure) as f) =>
      ret (mk_solution [shaft_config] (Some f))
  | speed_failure =>
      apply_configuration r shaft_config ;;*
      let* a := anti_surge_apply inlet (sec_anti sec) in
      let confs := shaft_config :: sol_configuration a in
      if negb (success a) then ret (mk_solution confs (sol_failure a))
      else
        match speed_failure with
        | Some ((Unreachable _ _ MaxBelowTarget _) as f) => ret (mk_solution confs (Some (with_source (sec_id sec) f)))
        | _ =>
            apply_configurations r confs ;;*
            let* out := run ph r inlet in
            if at_target (s_pressure out) target then ret (mk_solution confs None)
            else
              let* p := control_apply target inlet (sec_control sec) in
              let f := match sol_failure p with
                       | Some (Unreachable a t d None) => Some (Unreachable a t d (Some (sec_id sec)))
                       | f => f
                       end in
              ret (mk_solution (merge_configurations confs (sol_configuration p)) f)
        end
  end.

(** except DidNotConvergeError / except ProcessError around a solver.
    src/libecalc/process/process_solver/pipeline_section_solver.py:93-101,
    multi_shaft_solver.py:43-48, multi_pressure_solver.py:79-84 *)
Definition caught (confs : list configuration) (m : M heap solution) : M heap solution :=
  catch m (fun e => match e with
                    | DidNotConverge => Some (ret (mk_solution confs (Some ConvergenceFailure)))
                    | _ => match process_failure e with
                           | Some f => Some (ret (mk_solution confs (Some f)))
                           | None => None
                           end
                    end).

(** PipelineSectionSolver.find_solution.
    src/libecalc/process/process_solver/pipeline_section_solver.py:74-101 *)
Definition find_solution (targets : list float_constraint) (inlet : stream) : M heap solution :=
  match targets with
  | [target] => caught [(sec_shaft sec, SpeedSetting (b_min (sec_bounds sec)))] (solve_section target inlet)
  | _ => raise AssertionErr
  end.

End Strategies.

(** ** Assembly *)

(** _resolve_anti_surge_strategy and _resolve_pressure_control_strategy;
    the constructor of the individual anti-surge strategy compares lengths.
    src/libecalc/process/process_solver/solver_assembly.py:155-230,
    anti_surge/individual_asv.py:35 *)
Definition resolve_strategies (control : pressure_control_type) (loops : list handler_id) (cs : list compressor)
    (choke : option handler_id) : outcome (anti_surge * pressure_control) :=
  let individual := if Nat.eqb (length loops) (length cs) then Return (ASIndividual loops cs) else Raise AssertionErr in
  match control with
  | CommonASVControl =>
      match cs, loops with
      | c :: _, l :: _ => Return (ASCommon l c, PCCommon l c)
      | _, _ => Raise IndexErr
      end
  | DownstreamChoke =>
      let! a := individual in
      match choke with None => Raise AssertionErr | Some k => Return (a, PCDownstream k) end
  | UpstreamChoke =>
      let! a := individual in
      match choke with None => Raise AssertionErr | Some k => Return (a, PCUpstream k) end
  | IndividualASVRate => let! a := individual in Return (a, PCRate loops cs)
  | IndividualASVPressure => let! a := individual in Return (a, PCPressure loops cs)
  end.

(** assemble_solver.  The pipeline object it also builds is dropped;
    [shaft_charts] are the charts of the compressors registered on the shaft.
    src/libecalc/process/process_solver/solver_assembly.py:65-152 *)
Definition assemble_solver (id : nat) (units : list unit_) (handlers : list (handler_id * handler))
    (compressors : list compressor) (loops : list handler_id) (shaft : handler_id) (shaft_charts : list chart)
    (control : pressure_control_type) (choke : option handler_id) (finder : root_finder) (nth_root : Qc -> nat -> Qc)
    : outcome section :=
  let! (a, p) := resolve_strategies control loops compressors choke in
  let! bounds := speed_boundary shaft_charts in
  Return (mk_section id shaft (new_runner handlers units) a p bounds finder nth_root).

(** ** Several sections *)

(** MultiShaftSolver._find_solution: the sections in flow order.
    src/libecalc/process/process_solver/multi_shaft_solver.py:50-72 *)
Fixpoint multi_shaft_loop (ph : physics) (ps : list (section * float_constraint)) (inlet : stream)
    (all_configurations : list configuration) : M heap solution :=
  match ps with
  | [] => ret (mk_solution all_configurations None)
  | (sec, target) :: rest =>
      let* s := find_solution ph sec [target] inlet in
      let all_configurations := all_configurations ++ sol_configuration s in
      if negb (success s) then ret (mk_solution all_configurations (sol_failure s))
      else
        apply_configurations (sec_runner sec) (sol_configuration s) ;;*
        let* out := run ph (sec_runner sec) inlet in
        multi_shaft_loop ph rest out all_configurations
  end.

(** MultiShaftSolver.find_solution.
    src/libecalc/process/process_solver/multi_shaft_solver.py:33-48 *)
Definition multi_shaft (ph : physics) (secs : list section) (targets : list float_constraint) (inlet : stream)
    : M heap solution :=
  if Nat.eqb (length targets) (length secs) then
    caught [] (multi_shaft_loop ph (combine secs targets) inlet [])
  else raise AssertionErr.

(** The rolling targets of MultiShaftEqualRatioSolver.find_solution, before
    the last one is replaced.
    src/libecalc/process/process_solver/multi_shaft_equal_ratio_solver.py:43-47 *)
Fixpoint rolling_targets (n : nat) (ratio tolerance current : Qc) : list float_constraint :=
  match n with
  | O => []
  | S n' => let current := current * ratio in
            mk_constraint current tolerance :: rolling_targets n' ratio tolerance current
  end.

(** targets[-1] = pressure_target, on a list that is not empty (n > 0).
    src/libecalc/process/process_solver/multi_shaft_equal_ratio_solver.py:48 *)
Definition equal_ratio_targets (n : nat) (ratio : Qc) (target : float_constraint) (inlet_pressure : Qc)
    : list float_constraint :=
  removelast (rolling_targets n ratio (fc_abs_tol target) inlet_pressure) ++ [target].

(** MultiShaftEqualRatioSolver.find_solution; [nth_root x n] is x ** (1.0 / n).
    src/libecalc/process/process_solver/multi_shaft_equal_ratio_solver.py:25-50 *)
Definition multi_shaft_equal_ratio (ph : physics) (nth_root : Qc -> nat -> Qc) (secs : list section)
    (targets : list float_constraint) (inlet : stream) : M heap solution :=
  match targets with
  | [target] =>
      match secs with
      | [] => ret (mk_solution [] None)
      | _ =>
          if Qceqb (s_pressure inlet) 0 then raise ZeroDivisionErr
          else
            let n := length secs in
            let ratio := nth_root (fc_value target / s_pressure inlet) n in
            multi_shaft ph secs (equal_ratio_targets n ratio target (s_pressure inlet)) inlet
      end
  | _ => raise AssertionErr
  end.

(** *** Several pressures on one shaft *)

(** MultiPressureSolver.__init__ and _validate_pressure_control_placement.
    src/libecalc/process/process_solver/multi_pressure_solver.py:38-67 *)
Definition control_placed (n i : nat) (p : pressure_control) : bool :=
  match p with
  | PCUpstream _ => Nat.eqb i 0
  | PCDownstream _ => Nat.eqb i (n - 1)
  | _ => true
  end.
Definition multi_pressure_valid (secs : list section) : outcome handler_id :=
  match secs with
  | s :: _ :: _ =>
      if forallb (fun x => Nat.eqb (sec_shaft x) (sec_shaft s)) secs then
        if forallb (fun p => control_placed (length secs) (fst p) (sec_control (snd p)))
                   (combine (seq 0 (length secs)) secs)
        then Return (sec_shaft s) else Raise ValidationErr
      else Raise ValidationErr
  | _ => Raise ValidationErr
  end.

(** The first pass: the speed every section needs by itself.
    src/libecalc/process/process_solver/multi_pressure_solver.py:92-104.
    A failed solution ends the whole search (inr). *)
Fixpoint first_pass (ph : physics) (shaft : handler_id) (ps : list (section * float_constraint)) (inlet : stream)
    : M heap (list Qc + solution) :=
  match ps with
  | [] => ret (inl [])
  | (sec, target) :: rest =>
      let* s := find_solution ph sec [target] inlet in
      if negb (success s) then ret (inr s)
      else
        let* v := lift (get_configuration s shaft) in
        match v with
        | SpeedSetting x =>
            apply_configurations (sec_runner sec) (sol_configuration s) ;;*
            let* out := run ph (sec_runner sec) inlet in
            let* speeds := first_pass ph shaft rest out in
            match speeds with
            | inl xs => ret (inl (x :: xs))
            | inr s => ret (inr s)
            end
        | _ => raise AssertionErr
        end
  end.

(** The second pass, at the binding speed.
    src/libecalc/process/process_solver/multi_pressure_solver.py:112-148 *)
Fixpoint second_pass (ph : physics) (shaft_config : configuration) (ps : list (section * float_constraint))
    (inlet : stream) (so_far : solution) : M heap solution :=
  match ps with
  | [] => ret so_far
  | (sec, target) :: rest =>
      control_reset sec (sec_control sec) ;;*
      apply_configuration (sec_runner sec) shaft_config ;;*
      let* a := anti_surge_apply ph sec inlet (sec_anti sec) in
      apply_configurations (sec_runner sec) (sol_configuration a) ;;*
      let so_far := combine_solutions so_far a in
      if negb (success so_far) then ret so_far
      else
        let* out := run ph (sec_runner sec) inlet in
        if above_target (s_pressure out) target then
          let* p := control_apply ph sec target inlet (sec_control sec) in
          let so_far := combine_solutions so_far p in
          if negb (success so_far) then ret so_far
          else
            apply_configurations (sec_runner sec) (sol_configuration p) ;;*
            let* out := run ph (sec_runner sec) inlet in
            second_pass ph shaft_config rest out so_far
        else if below_target (s_pressure out) target then
          ret (mk_solution (sol_configuration so_far)
                 (Some (Unreachable (s_pressure out) (fc_value target) MaxBelowTarget (Some (sec_id sec)))))
        else second_pass ph shaft_config rest out so_far
  end.

(** max(speed_configurations): the first of the largest.
    src/libecalc/process/process_solver/multi_pressure_solver.py:106-109 *)
Definition largest (xs : list Qc) : outcome Qc :=
  match xs with
  | [] => Raise ValueErr
  | x :: rest => Return (fold_left (fun m y => if Qcltb m y then y else m) rest x)
  end.

(** MultiPressureSolver.find_solution of a solver whose constructor accepted
    the sections.
    src/libecalc/process/process_solver/multi_pressure_solver.py:69-148 *)
Definition multi_pressure (ph : physics) (shaft : handler_id) (secs : list section) (targets : list float_constraint)
    (inlet : stream) : M heap solution :=
  if Nat.eqb (length targets) (length secs) then
    caught []
      (let ps := combine secs targets in
       let* speeds := first_pass ph shaft ps inlet in
       match speeds with
       | inr s => ret s
       | inl xs =>
           let* x := lift (largest xs) in
           let shaft_config := (shaft, SpeedSetting x) in
           second_pass ph shaft_config ps inlet (mk_solution [shaft_config] None)
       end)
  else raise ValidationErr.

(** *** Feasibility *)

(** FeasibilitySolver._is_feasible.
    src/libecalc/process/process_solver/feasibility_solver.py:72-73 *)
Definition is_feasible (ph : physics) (sec : section) (target : float_constraint) (inlet : stream) : M heap bool :=
  let* s := find_solution ph sec [target] inlet in ret (success s).

(** _largest_feasible_rate.
    src/libecalc/process/process_solver/feasibility_solver.py:54-70 *)
Definition largest_feasible_rate (ph : physics) (sec : section) (target : float_constraint) (inlet : stream)
    (upper : Qc) : M heap Qc :=
  catch (search (qc 1 10000) 40 (mk_boundary 0 upper)
           (fun rate => let* s := lift (with_standard_rate inlet rate) in
                        let* ok := is_feasible ph sec target s in ret (ok, true)))
        (fun e => match e with DidNotConverge => Some (ret 0) | _ => None end).

(** FeasibilitySolver.get_excess_rate.
    src/libecalc/process/process_solver/feasibility_solver.py:34-52 *)
Definition get_excess_rate (ph : physics) (sec : section) (target : float_constraint) (inlet : stream) : M heap Qc :=
  let full_rate := standard_rate inlet in
  if Qcleb full_rate 0 then ret 0
  else
    let* ok := is_feasible ph sec target inlet in
    if ok then ret 0
    else
      let* capacity := largest_feasible_rate ph sec target inlet full_rate in
      ret (Qcmax 0 (full_rate - capacity)).

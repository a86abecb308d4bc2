(** Model of a simplified compressor train: every stage has the same pressure ratio, the shaft is left out.  A stage for a target
    pressure ratio, the iteration for the polytropic head, the train for one period, its maximum rate, and the series of periods.
    Floats are exact rationals; where the program would go on with NaN or infinity this is noted.

    Paths are below src/libecalc/domain/process unless they start with src. *)
From Coq Require Import List Bool ZArith Lia.
From Verif Require Import QcTac Base Num Search_Model Stream_Model Process_Model Chart_Model Train_Model.
From Verif Require Compressor_Model.
Import ListNotations.
Local Open Scope list_scope.
Local Open Scope Qc_scope.

(** The world around the train: the thermodynamics, the n-th root x ** (1.0 / n), the real power x ** y of two numbers, and what
    the efficiency of a chart is found with (shapely's closest point of a polyline and numpy's standard deviation). *)
Record world : Type := mk_world {
  w_physics : physics; w_root : Qc -> nat -> Qc; w_power : Qc -> Qc -> Qc;
  w_closest : list (Qc * Qc) -> Qc -> Qc -> Qc * (Qc * Qc); w_std : list Qc -> Qc }.
Definition w_service (w : world) : service := ph_service (w_physics w).

(** What a chart answers, as an outcome.  The program raises the exceptions of numpy and scipy there. *)
Definition chart_call {A} (r : result A) : outcome A :=
  match r with
  | Ok a => Return a
  | Err IndexError => Raise IndexErr
  | Err ValueError => Raise ValueErr
  | Err KeyError => Raise KeyErr
  | Err ZeroDivisionError => Raise ZeroDivisionErr
  | Err _ => Raise OtherProcessError
  end.

(** efficiency_as_function_of_rate_and_head of the chart of a stage.
    value_objects/chart/chart.py:365-451 *)
Definition chart_efficiency (w : world) (cs : list curve) (rate head : Qc) : outcome Qc :=
  chart_call (efficiency_at (w_closest w) (w_std w) cs rate head).

(** UnitConstants.GAS_CONSTANT, TO_KILO. src/libecalc/common/units.py:32-39 *)
Definition gas_constant : Qc := qc 8314472 1000000.

(** calculate_polytropic_head_campbell with _calculate_head and _calculate_polytropic_exponent_expression_n_minus_1_over_n.  When a divisor
    is zero (efficiency, kappa or molar mass zero, or kappa one) numpy goes on with NaN or infinity; here it raises.
    compressor/core/train/utils/enthalpy_calculations.py:141-210 *)
Definition campbell_head (w : world) (efficiency kappa z molar_mass ratio temperature : Qc) : outcome Qc :=
  let exponent := (kappa - 1) / (kappa * efficiency) in
  if Qceqb (kappa * efficiency) 0 || Qceqb exponent 0 || Qceqb molar_mass 0 then Raise ZeroDivisionErr
  else Return (1 / exponent * (z * gas_constant * temperature) / molar_mass * (w_power w ratio exponent - 1)).

(** The loop of calculate_enthalpy_change_head_iteration for one stream; [n] is the number of iterations left, [last] the change of enthalpy
    and the efficiency of the iteration before.
    compressor/core/train/utils/enthalpy_calculations.py:83-133 *)
Fixpoint head_loop (w : world) (cs : list curve) (inlet : stream) (pressure : Qc) (n : nat) (z kappa head : Qc) (last : Qc * Qc) :
  outcome (Qc * Qc) :=
  match n with
  | O => Return last
  | S n' =>
      let! efficiency := chart_efficiency w cs (volumetric_rate inlet) head in
      let! next := campbell_head w efficiency kappa z (s_molar_mass inlet) (pressure / s_pressure inlet) (s_temperature inlet) in
      let change := next / efficiency in
      let! props := flash_ph (w_service w) (s_model inlet) pressure (s_enthalpy inlet + change) (Some (s_temperature inlet)) in
      let! outlet := with_new_fluid inlet (mk_fluid (s_model inlet) props) in
      let close := if Qceqb head 0 then false else Qcltb (Qcabs (next - head) / Qcabs head) (qc 1 1000) in
      if close then Return (change, efficiency)
      else head_loop w cs inlet pressure n' ((s_z inlet + s_z outlet) / qz 2) ((s_kappa inlet + s_kappa outlet) / qz 2) next
             (change, efficiency)
  end.
(** calculate_enthalpy_change_head_iteration for one stream: the change of enthalpy [J/kg] and the efficiency.
    compressor/core/train/utils/enthalpy_calculations.py:24-138 *)
Definition head_iteration (w : world) (cs : list curve) (inlet : stream) (pressure : Qc) : outcome (Qc * Qc) :=
  let! efficiency := chart_efficiency w cs (volumetric_rate inlet) 0 in
  head_loop w cs inlet pressure 20 (s_z inlet) (s_kappa inlet) 0 (0, efficiency).

(** ** A stage *)

(** CompressorTrainStage as far as a simplified train uses it.
    compressor/core/train/stage.py:47-87 *)
Record sim_stage : Type := mk_sim_stage { si_chart : list curve; si_temperature : Qc }.

(** CompressorTrainStageResultSingleTimeStep as filled in for a target pressure ratio.  Changes of enthalpy and heads in J/kg (the
    program divides them by 1000 to get kJ/kg).
    compressor/core/results.py:18-61 *)
Record sim_result : Type := mk_sim_result {
  ss_inlet : stream; ss_outlet : stream; ss_inlet_asv : stream; ss_outlet_asv : stream;
  ss_power : num; ss_flag : area_flag; ss_change : Qc; ss_change_before : Qc; ss_head : num; ss_efficiency : num;
  ss_recirculates : bool; ss_rate_exceeds : bool; ss_choked : bool; ss_head_exceeds : bool; ss_valid : bool }.

(** The flag of a stage. compressor/core/train/stage.py:436-449 *)
Definition flag_of (recirculates rate_exceeds choked head_exceeds : bool) : area_flag :=
  if choked && recirculates then Compressor_Model.BelowMinimumSpeedAndFlowRate
  else if choked && rate_exceeds then Compressor_Model.BelowMinimumSpeedAboveMaximumFlowRate
  else if recirculates then Compressor_Model.BelowMinimumFlowRate
  else if rate_exceeds then Compressor_Model.AboveMaximumFlowRate
  else if choked then Compressor_Model.BelowMinimumSpeed
  else if head_exceeds then Compressor_Model.AboveMaximumSpeed
  else Compressor_Model.InternalPoint.

(** The end of evaluate_given_target_pressure_ratio: the outlet and the power, for the change of enthalpy and the mass rate that are used.
    compressor/core/train/stage.py:413-469 *)
Definition finish_stage (w : world) (inlet : stream) (pressure used before : Qc) (efficiency : num) (mass : Qc)
  (recirculates rate_exceeds choked head_exceeds exceeds : bool) : outcome sim_result :=
  let! props := flash_ph (w_service w) (s_model inlet) pressure (s_enthalpy inlet + used) (Some (s_temperature inlet)) in
  let! outlet := with_new_fluid inlet (mk_fluid (s_model inlet) props) in
  let power := if exceeds then None else Some (mass * used / qz 3600 * qc 1 1000000) in
  let! inlet_asv := with_mass_rate inlet mass in
  let! outlet_asv := with_mass_rate outlet mass in
  Return (mk_sim_result inlet outlet inlet_asv outlet_asv power (flag_of recirculates rate_exceeds choked head_exceeds) used before
            (nmul (Some used) efficiency) efficiency recirculates rate_exceeds choked head_exceeds
            (match power with Some _ => true | None => false end)).

(** evaluate_given_target_pressure_ratio (adjust_for_chart is always True).
    compressor/core/train/stage.py:349-411 *)
Definition stage_to_ratio (w : world) (st : sim_stage) (ratio : Qc) (x : stream) : outcome sim_result :=
  let pressure := s_pressure x * ratio in
  let! f := create_fluid (w_service w) (s_model x) (s_pressure x) (si_temperature st) in
  let! inlet := with_new_fluid x f in
  if Qcltb 0 (s_mass_rate inlet) then
    let! (change, efficiency) := head_iteration w (si_chart st) inlet pressure in
    let! c := chart_call (Compressor_Model.evaluate_capacity (si_chart st) true (volumetric_rate inlet) (change * efficiency)) in
    finish_stage w inlet pressure (Compressor_Model.ca_head c / efficiency) change (Some efficiency)
      (Compressor_Model.ca_rate c * s_density inlet)
      (Compressor_Model.ca_recirculates c) (Compressor_Model.ca_rate_exceeds c) (Compressor_Model.ca_choked c)
      (Compressor_Model.ca_head_exceeds c) (Compressor_Model.ca_exceeds c)
  else finish_stage w inlet pressure 0 0 None (s_mass_rate inlet) false false false false false.

(** within_capacity, is_valid of a stage. compressor/core/results.py:139-155 *)
Definition ss_within (r : sim_result) : bool :=
  match ss_flag r with Compressor_Model.InternalPoint => true | _ => ss_valid r end.

(** ** The train *)

(** CompressorTrainSimplified with its fluid model.
    compressor/core/train/simplified_train/simplified_train.py:72-100 *)
Record sim_train : Type := mk_sim_train { sn_stages : list sim_stage; sn_model : fluid_model; sn_max_power : option Qc }.

(** calculate_pressure_ratio_per_stage.  A suction pressure of zero raises for Python floats (numpy floats give infinity).
    compressor/core/train/base.py:30-34 *)
Definition ratio_per_stage (w : world) (suction discharge : Qc) (n : nat) : outcome Qc :=
  match n with
  | O => Raise ValueErr
  | _ => if Qceqb suction 0 then Raise ZeroDivisionErr else Return (w_root w (discharge / suction) n)
  end.

(** The loop over the stages: each starts from the outlet of the one before.
    simplified_train.py:133-142 *)
Fixpoint run_stages (w : world) (ratio : Qc) (stages : list sim_stage) (x : stream) : outcome (list sim_result) :=
  match stages with
  | [] => Return []
  | st :: rest =>
      let! r := stage_to_ratio w st ratio x in
      let! l := run_stages w ratio rest (ss_outlet r) in
      Return (r :: l)
  end.

(** The sum of the powers; it is NaN if one of them is. *)
Definition nsum (l : list num) : num := fold_right nadd (Some 0) l.

(** The result of a train for one period: standing still, or running.
    compressor/core/results.py:63-81, 170-193 *)
Record sim_running : Type := mk_sim_running {
  sv_inlet : stream; sv_outlet : stream; sv_stages : list sim_result; sv_status : pressure_status; sv_above_power : bool }.
Inductive sim_evaluation : Type :=
| SIdle (stages : nat)
| SRunning (r : sim_running).

(** The flag for too much power: no maximum and a maximum of zero are the same; NaN is not above anything.
    simplified_train.py:148-151 *)
Definition sim_above_power (limit : option Qc) (l : list sim_result) : bool :=
  match limit with
  | Some p => if Qceqb p 0 then false else match nsum (map ss_power l) with Some x => Qcltb p x | None => false end
  | None => false
  end.

(** evaluate_given_constraints.
    simplified_train.py:102-160, base.py:268-336 *)
Definition sim_constraints (w : world) (t : sim_train) (suction discharge rate : Qc) : outcome sim_evaluation :=
  let! ratio := ratio_per_stage w suction discharge (length (sn_stages t)) in
  let! first := match sn_stages t with [] => Raise IndexErr | st :: _ => Return st end in
  let! x := create_stream_from_standard_rate (w_service w) (sn_model t) suction (si_temperature first) rate in
  if Qcltb 0 (s_mass_rate x) then
    let! l := run_stages w ratio (sn_stages t) x in
    match l, last_opt l with
    | r :: _, Some z =>
        let status := status_of (mk_constraints suction (Some discharge) None [rate]) (s_pressure (ss_inlet r)) (s_pressure (ss_inlet r))
                        (s_pressure (ss_outlet z)) None in
        Return (SRunning (mk_sim_running (ss_inlet r) (ss_outlet z) l status (sim_above_power (sn_max_power t) l)))
    | _, _ => Raise IndexErr
    end
  else Return (SIdle (length (sn_stages t))).

(** power_megawatt, failure_status, is_valid of the result of a period.
    compressor/core/results.py:345-411 *)
Definition sim_power (v : sim_evaluation) : num :=
  match v with SIdle _ => Some 0 | SRunning r => nsum (map ss_power (sv_stages r)) end.
Fixpoint sim_stage_failure (l : list sim_result) : option failure :=
  match l with
  | [] => None
  | r :: rest =>
      if ss_within r then sim_stage_failure rest
      else match ss_flag r with
           | Compressor_Model.AboveMaximumFlowRate | Compressor_Model.BelowMinimumSpeedAboveMaximumFlowRate => Some AboveMaximumFlow
           | Compressor_Model.BelowMinimumFlowRate | Compressor_Model.BelowMinimumSpeedAndFlowRate => Some BelowMinimumFlow
           | _ => sim_stage_failure rest
           end
  end.
Definition sim_failure (v : sim_evaluation) : failure :=
  match v with
  | SIdle _ => NoFailure
  | SRunning r =>
      match sim_stage_failure (sv_stages r) with
      | Some f => f
      | None =>
          match sv_status r with
          | AboveSuction => DischargeTooHigh
          | BelowSuction => SuctionTooHigh
          | AboveDischarge => DischargeTooLow
          | BelowDischarge => DischargeTooHigh
          | AboveIntermediate => IntermediateTooLow
          | BelowIntermediate => IntermediateTooHigh
          | _ => if sv_above_power r then AboveMaximumPower else NoFailure
          end
      end
  end.
Definition sim_valid (v : sim_evaluation) : bool :=
  is_no_failure (sim_failure v) && match v with SIdle _ => true | SRunning r => forallb ss_within (sv_stages r) end.

(** The power that is reported: positive power is adjusted (NaN is not positive). base.py:214-219 *)
Definition sim_adjusted (factor constant : Qc) (power : num) : num := option_map (adjusted_power factor constant) power.

(** ** The maximum rate *)

(** The loop of calculate_maximum_rate_for_stage; [n] is the number of iterations left, [previous] the rate of the iteration before.  A
    relative change from zero is infinite or NaN, and so never small.
    simplified_train.py:250-350 *)
Fixpoint max_rate_loop (w : world) (cs : list curve) (inlet : stream) (pressure ratio highest : Qc) (n : nat) (z kappa head previous : Qc) :
  outcome Qc :=
  match n with
  | O => Return previous
  | S n' =>
      let! rate := chart_call (maximum_rate_no_choking_at cs head) in
      let! efficiency := chart_efficiency w cs rate head in
      let! next := campbell_head w efficiency kappa z (s_molar_mass inlet) ratio (s_temperature inlet) in
      match compressor_flash (w_physics w) inlet pressure (s_enthalpy inlet + next / efficiency) with
      | Raise ThermodynamicError =>
          if Qcltb highest next then chart_call (maximum_rate_no_choking_at cs next) else Raise ThermodynamicError
      | Raise x => Raise x
      | Return props =>
          let! outlet := with_new_fluid inlet (mk_fluid (s_model inlet) props) in
          let close := if Qceqb previous 0 then false else Qcltb (Qcabs (rate - previous) / Qcabs previous) (qc 1 1000) in
          if close then Return rate
          else max_rate_loop w cs inlet pressure ratio highest n' ((s_z inlet + s_z outlet) / qz 2) ((s_kappa inlet + s_kappa outlet) / qz 2)
                 next rate
      end
  end.
(** calculate_maximum_rate_for_stage.  A standard density of zero, which raises, gives 0 here.
    simplified_train.py:232-360 *)
Definition max_rate_of_stage (w : world) (cs : list curve) (ratio : Qc) (inlet : stream) : outcome Qc :=
  if Qcltb ratio 1 then Raise OtherProcessError
  else
    let! fast := chart_call (fast_curve cs) in
    let! highest := chart_call (qc_max_of (cv_head fast)) in
    let! rate := max_rate_loop w cs inlet (s_pressure inlet * ratio) ratio highest 20 (s_z inlet) (s_kappa inlet) (np_mean (cv_head fast))
                   (qc 1 100000) in
    Return (rate * s_density inlet / s_standard_density inlet * hours_per_day).

(** _calculate_inlet_pressure_stages, and the rates of the stages at these pressures.
    simplified_train.py:189-230 *)
Fixpoint max_rates_of_stages (w : world) (m : fluid_model) (ratio : Qc) (stages : list sim_stage) (pressure : Qc) : outcome (list Qc) :=
  match stages with
  | [] => Return []
  | st :: rest =>
      let! inlet := create_stream_from_mass_rate (w_service w) m pressure (si_temperature st) 1 in
      let! rate := max_rate_of_stage w (si_chart st) ratio inlet in
      let! l := max_rates_of_stages w m ratio rest (pressure * ratio) in
      Return (rate :: l)
  end.
(** _get_max_std_rate_single_timestep: min of the rates of the stages.
    simplified_train.py:161-214 *)
Definition sim_max_rate (w : world) (t : sim_train) (suction discharge : Qc) : outcome Qc :=
  let! ratio := ratio_per_stage w suction discharge (length (sn_stages t)) in
  let! l := max_rates_of_stages w (sn_model t) ratio (sn_stages t) suction in
  match l with
  | [] => Raise ValueErr
  | x :: rest => Return (fold_left Qcmin rest x)
  end.
(** get_max_standard_rate for one period (a simplified train has one port); None is NaN.
    base.py:381-410 *)
Definition sim_max_rate_reported (w : world) (t : sim_train) (suction discharge : Qc) : outcome num :=
  if Qcleb suction 0 || Qcleb discharge 0 then Return (Some 0)
  else match sim_max_rate w t suction discharge with
       | Return x => Return (Some x)
       | Raise x => if is_ecalc_error x then Return None else Raise x
       end.

(** evaluate: the periods one after the other, then the maximum rates if they are asked for.
    base.py:191-226 *)
Definition sim_evaluate (w : world) (t : sim_train) (calculate_max_rate : bool) (periods : list (Qc * Qc * Qc)) :
  outcome (list (sim_evaluation * num)) :=
  let! evaluations := mapO (fun p => sim_constraints w t (fst (fst p)) (snd (fst p)) (snd p)) periods in
  let! rates := if calculate_max_rate then mapO (fun p => sim_max_rate_reported w t (fst (fst p)) (snd (fst p))) periods
                else Return (map (fun _ => None) periods) in
  Return (combine evaluations rates).

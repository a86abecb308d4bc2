(** Model of liquid streams, the pump, the pump process graph and the older pump model. *)
From Coq Require Import PeanoNat.
From Verif Require Import QcTac Base BaseLemmas Num Units_Model Interp_Model Chart_Model.
Local Open Scope list_scope.
Local Open Scope Qc_scope.

(** ** process/pump/liquid_stream.py *)
(** 21-33, LiquidStream *)
Record liquid : Type := mkLiquid { l_pressure : Qc; l_density : Qc; l_mass : Qc }.
(** 35-41, __post_init__; the three exceptions of process/pump/exceptions.py are [DomainError] *)
Definition new_liquid (pressure density mass : Qc) : result liquid :=
  if Qcleb density 0 then Err DomainError
  else if Qcltb mass 0 then Err DomainError
  else if Qcleb pressure 0 then Err DomainError
  else Ok (mkLiquid pressure density mass).
(** 43-51 *)
Definition l_rate_per_hour (s : liquid) : Qc := l_mass s / l_density s.
Definition l_rate_per_day (s : liquid) : Qc := l_rate_per_hour s * qz 24.
(** 53-59 *)
Definition with_mass (s : liquid) (m : Qc) : result liquid := new_liquid (l_pressure s) (l_density s) m.
Definition with_pressure (s : liquid) (p : Qc) : result liquid := new_liquid p (l_density s) (l_mass s).
(** 61-74 *)
Definition liquid_from_volume (rate_per_day pressure density : Qc) : result liquid :=
  new_liquid pressure density (rate_per_day * density / qz 24).

(** ** process/pump/pump.py *)
(** 34-38 *)
Inductive failure : Type := NO_FAILURE | ABOVE_RATE | ABOVE_HEAD | ABOVE_RATE_AND_HEAD.
(** 41-88, PumpEvaluationResult (the identity of the pump is not modelled) *)
Record pump_result : Type := mkPumpResult {
  pr_inlet : liquid; pr_power : Qc; pr_efficiency : option Qc; pr_work : option Qc; pr_required_head : Qc;
  pr_head : Qc; pr_rate : Qc; pr_recirculation : Qc; pr_required_discharge : Qc; pr_discharge : Qc;
  pr_speed : option Qc; pr_failure : failure }.
(** 90-99, is_valid and choke_pressure_drop_bara *)
Definition pr_valid (r : pump_result) : bool := match pr_failure r with NO_FAILURE => true | _ => false end.
Definition choke_drop (r : pump_result) : Qc := Qcmax 0 (pr_discharge r - pr_required_discharge r).

(** 115-140, Pump *)
Record pump : Type := mkPump { pu_chart : list curve; pu_min_flow : Qc }.
Definition make_pump (curves : list curve) (min_flow : option Qc) : result pump :=
  do cs <- make_chart curves;
  (* 316-318, _validate_pump_chart_efficiency *)
  if existsb (fun e => Qcleb e 0) (flat_map cv_eff cs) then Err ValidationError
  else
    do lo <- chart_min_rate cs;
    let m := match min_flow with None => lo | Some m => m end in
    if Qcltb m lo then Err ValidationError else Ok (mkPump cs m).

(** 263-266, _calculate_head *)
Definition head_of (suction discharge density : Qc) : result Qc :=
  do to_pascal <- unit_to BARA PASCAL;
  if Qceqb density 0 then Err ZeroDivisionError else Ok (to_pascal (discharge - suction) / density).

(** 278-296, _speed_at_operating_point: the search between neighbouring curves, given as (speed, head) *)
Fixpoint speed_between (pairs : list (Qc * Qc)) (head : Qc) : option Qc :=
  match pairs with
  | (s0, h0) :: rest =>
      match rest with
      | (s1, h1) :: _ =>
          if Qcleb h0 head && Qcleb head h1 then
            Some (s0 + (if Qceqb h1 h0 then 0 else (head - h0) / (h1 - h0)) * (s1 - s0))
          else speed_between rest head
      | [] => None
      end
  | [] => None
  end.
Definition speed_at (cs : list curve) (rate head : Qc) : result Qc :=
  let sorted := sort (fun a b => Qcleb (cv_speed a) (cv_speed b)) cs in
  match sorted with
  | [c] => Ok (cv_speed c)
  | _ =>
      do heads <- mapM (fun c => curve_head_at c rate) sorted;
      let pairs := combine (map cv_speed sorted) heads in
      do first <- of_option IndexError (hd_error pairs);
      do final <- of_option IndexError (last_opt pairs);
      if Qcleb head (snd first) then Ok (fst first)
      else if Qcleb (snd final) head then Ok (fst final)
      else Ok (match speed_between pairs head with Some s => s | None => fst final end)
  end.

(** 298-314, _determine_failure_status *)
Definition failure_of (above_head above_rate : bool) : failure :=
  if above_head && above_rate then ABOVE_RATE_AND_HEAD
  else if above_head then ABOVE_HEAD else if above_rate then ABOVE_RATE else NO_FAILURE.

Section Pump.
(** shapely's closest point on a polyline and numpy's standard deviation (see Chart_Model) *)
Variable closest : list (Qc * Qc) -> Qc -> Qc -> Qc * (Qc * Qc).
Variable np_std : list Qc -> Qc.

(** 268-276, _efficiency *)
Definition pump_efficiency (cs : list curve) (rate head : Qc) : result Qc :=
  if chart_100 cs then Ok 1 else efficiency_at closest np_std cs rate head.

(** 166-250, evaluate *)
Definition pump_evaluate (p : pump) (inlet : liquid) (discharge : Qc) : result pump_result :=
  if Qcleb discharge 0 then Err DomainError
  else
    let density := l_density inlet in
    let rate := l_rate_per_hour inlet in
    do required <- head_of (l_pressure inlet) discharge density;
    if Qcleb rate 0 then
      Ok (mkPumpResult inlet 0 None None required 0 0 0 discharge (l_pressure inlet) None NO_FAILURE)
    else
      let cs := pu_chart p in
      do chart_minimum <- minimum_rate_at cs required;
      let operating := Qcmax (Qcmax rate (pu_min_flow p)) chart_minimum in
      do minimum_head <- minimum_head_at cs operating;
      let head := Qcmax required minimum_head in
      do efficiency <- pump_efficiency cs operating head;
      do speed <- speed_at cs operating head;
      do work <- (if Qceqb efficiency 0 then Err ZeroDivisionError else Ok (head / efficiency));
      let power := operating * density * work / qz 3600 / qz 1000000 in
      do to_bara <- unit_to PASCAL BARA;
      let delivered := l_pressure inlet + to_bara (head * density) in
      do maximum_head <- maximum_head_at cs operating;
      do maximum_rate <- chart_max_rate cs;
      Ok (mkPumpResult inlet power (Some efficiency) (Some work) required head operating (operating - rate) discharge
            delivered (Some speed) (failure_of (Qcltb maximum_head head) (Qcltb maximum_rate operating))).

(** 148-164, set_discharge_pressure and propagate_stream: the pump with its target (None: not set) *)
Definition set_discharge (target : Qc) : result (option Qc) :=
  if Qcleb target 0 then Err DomainError else Ok (Some target).
Definition pump_propagate (p : pump) (target : option Qc) (inlet : liquid) : result liquid :=
  match target with
  | None => Err ValueError
  | Some d => do r <- pump_evaluate p inlet d; with_pressure inlet (pr_discharge r)
  end.

(** 252-259, get_max_volumetric_rate_m3_per_day *)
Definition max_rate_per_day (p : pump) (suction discharge density : Qc) : result Qc :=
  do head <- head_of suction discharge density;
  do r <- maximum_rate_at (pu_chart p) head;
  Ok (r * qz 24).

(** ** process/pump/pump_process_simulation.py *)
(** 222-255, _project_streams: the streams inlet to mixer, mixer to pump, pump to splitter, splitter to choke and choke to
    outlet, in that order *)
Definition project_streams (r : pump_result) : result (list liquid) :=
  let requested := pr_inlet r in
  do at_suction <- with_mass requested (pr_rate r * l_density requested);
  do after_pump <- with_pressure at_suction (pr_discharge r);
  do before_choke <- with_pressure requested (pr_discharge r);
  do after_choke <- with_pressure requested (Qcmin (pr_discharge r) (pr_required_discharge r));
  Ok [requested; at_suction; after_pump; before_choke; after_choke].
(** 211-220, evaluate and _evaluate_one: the inputs are inlet stream and required discharge pressure *)
Definition simulate_one (p : pump) (i : liquid * Qc) : result (pump_result * list liquid) :=
  do r <- pump_evaluate p (fst i) (snd i);
  do streams <- project_streams r;
  Ok (r, streams).
Definition simulate (p : pump) (inputs : list (liquid * Qc)) : result (list (pump_result * list liquid)) :=
  mapM (simulate_one p) inputs.

(** ** domain/process/pump/pump.py, PumpModel *)
(** Adding EPSILON = 1e-15 to a float: exact arithmetic would be wrong here, as the sum is the float itself from 16
    upwards; the function stands for the rounded sum. *)
Variable bump : Qc -> Qc.
(** 291-305, _adjust_for_head_margin *)
Definition adjust_head (head maximum margin : Qc) : Qc :=
  if negb (Qceqb margin 0) then
    if Qcltb maximum head && Qcleb head (maximum + margin) then maximum else head
  else head.
(** 95-111, _calculate_power with efficiency 1 *)
Definition power_before_efficiency (density head rate : Qc) : Qc := density * head * rate / qz 3600 / qz 1000000 / 1.
(** 170-256, simulate: power, head and failure status *)
Definition model_simulate (cs : list curve) (margin rate suction discharge density : Qc) : result (Qc * Qc * failure) :=
  if Qcleb rate 0 then Ok (0, 0, NO_FAILURE)
  else
    do operational <- head_of suction discharge density;
    do minimum_flow <- minimum_rate_at cs operational;
    let rate := Qcmax (rate / qz 24) (bump minimum_flow) in
    do minimum_head <- minimum_head_at cs rate;
    let head := Qcmax operational (bump minimum_head) in
    do maximum_head <- maximum_head_at cs rate;
    let head := adjust_head head maximum_head margin in
    do maximum_rate <- chart_max_rate cs;
    let status := failure_of (Qcltb maximum_head head) (Qcltb maximum_rate rate) in
    let power := power_before_efficiency density head rate in
    if chart_100 cs then Ok (power, operational, status)
    else do efficiency <- efficiency_at closest np_std cs rate head;
         if Qceqb efficiency 0 then Err ZeroDivisionError (* numpy: a warning and an infinite power *)
         else Ok (power / efficiency, operational, status).
(** 113-168, evaluate_rate_ps_pd_density: power and validity (core/results/pump.py:60-64) per period *)
Fixpoint model_evaluate (cs : list curve) (margin : Qc) (inputs : list (Qc * Qc * Qc * Qc)) : result (list (Qc * bool)) :=
  match inputs with
  | [] => Ok []
  | (rate, suction, discharge, density) :: rest =>
      do r <- model_simulate cs margin rate suction discharge density;
      do rs <- model_evaluate cs margin rest;
      Ok ((fst (fst r), match snd r with NO_FAILURE => true | _ => false end) :: rs)
  end.
(** 60-91, get_max_standard_rate *)
Definition model_max_rate (cs : list curve) (suction discharge density : Qc) : result Qc :=
  do head <- head_of suction discharge density;
  do r <- maximum_rate_at cs head;
  Ok (r * qz 24).
End Pump.

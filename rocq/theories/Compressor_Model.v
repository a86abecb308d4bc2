(** Model of compressor charts: the head and the efficiency at a speed and a rate, and the capacity check for a rate and
    a head. *)
From Coq Require Import PeanoNat.
From Verif Require Import QcTac Base BaseLemmas Num Interp_Model Chart_Model.
Local Open Scope list_scope.
Local Open Scope Qc_scope.

(** ** domain/process/value_objects/chart/chart_area_flag.py: the flags that a compressor chart uses *)
Inductive area_flag : Type :=
| InternalPoint | BelowMinimumFlowRate | BelowMinimumSpeed | AboveMaximumFlowRate | AboveMaximumSpeed
| BelowMinimumSpeedAndFlowRate | BelowMinimumSpeedAboveMaximumFlowRate | NoFlowRate.

(** ** domain/process/value_objects/chart/compressor/compressor_chart.py

    17-18 *)
Definition EPSILON : Qc := qc 1 100000.
Definition NUMERICAL_TOLERANCE : Qc := qc 1 10000000.

(** chart.py:132-138, minimum_speed and maximum_speed *)
Definition minimum_speed (cs : list curve) : result Qc := do c <- slow_curve cs; Ok (cv_speed c).
Definition maximum_speed (cs : list curve) : result Qc := do c <- fast_curve cs; Ok (cv_speed c).

(** chart.py:468-476, closest_curve_below_speed; 478-486, closest_curve_above_speed; 488-493, get_curve_by_speed *)
Definition closest_curve_below (cs : list curve) (speed : Qc) : option curve :=
  hd_error (filter (fun c => Qcleb (cv_speed c) speed) (rev cs)).
Definition closest_curve_above (cs : list curve) (speed : Qc) : option curve :=
  hd_error (filter (fun c => Qcleb speed (cv_speed c)) cs).
Definition curve_by_speed (cs : list curve) (speed : Qc) : option curve :=
  hd_error (filter (fun c => Qceqb (cv_speed c) speed) cs).

(** 226-299, _evaluate_point_validity_chart_area_flag_and_adjusted_speed_and_rate: validity, flag, speed and rate to use *)
Definition place_point (cs : list curve) (speed : Qc) (choke : bool) (rate_with_asv rate : Qc) (asv : bool) :
  result (bool * area_flag * Qc * Qc) :=
  do lowest <- minimum_speed cs;
  do highest <- maximum_speed cs;
  let '(valid, flag, speed_to_use, increased) :=
    if Qcltb speed lowest then
      if choke then (true, BelowMinimumSpeed, lowest, true) else (false, BelowMinimumSpeed, speed, false)
    else if Qcltb highest speed then (false, AboveMaximumSpeed, speed, false)
    else (true, InternalPoint, speed, false) in
  if valid then
    do minimum <- minimum_rate_of_speed cs speed_to_use;
    do maximum <- maximum_rate_of_speed cs speed_to_use;
    let '(valid, rate_to_use) :=
      if Qcltb rate_with_asv minimum then if asv then (true, minimum) else (false, rate_with_asv)
      else (true, rate_with_asv) in
    let '(valid, flag) :=
      if Qcleb rate EPSILON then (valid, NoFlowRate)
      else if Qcltb rate minimum then (valid, if increased then BelowMinimumSpeedAndFlowRate else BelowMinimumFlowRate)
      else if Qcltb maximum rate then
        (false, if increased then BelowMinimumSpeedAboveMaximumFlowRate else AboveMaximumFlowRate)
      else (valid, flag) in
    Ok (valid, flag, speed_to_use, rate_to_use)
  else Ok (valid, flag, speed_to_use, rate_with_asv).

(** 454-468, _calculate_scaling_factors_for_speed_below_and_above *)
Definition scaling_factors (speed speed_above speed_below : Qc) : Qc * Qc :=
  let distance_above := speed_above - speed in
  let distance_below := speed - speed_below in
  let total := distance_above + distance_below in
  let factor_below := if Qceqb total 0 then 0 else distance_above / total in
  (factor_below, 1 - factor_below).

(** 470-519, _calculate_equivalent_rates_for_speed_below_and_above (IllegalStateException is OtherError).  A rate range of
    width zero is ZeroDivisionError, also where numpy only warns and goes on with NaN. *)
Definition equivalent_rates (min_below max_below min_above max_above factor_below factor_above rate : Qc) :
  result (Qc * Qc) :=
  let scaled_minimum := factor_below * min_below + factor_above * min_above in
  let scaled_maximum := factor_below * max_below + factor_above * max_above in
  if (Qcltb scaled_maximum rate && Qcltb NUMERICAL_TOLERANCE (Qcabs (rate - scaled_maximum)))
     || (Qcltb rate scaled_minimum && Qcltb NUMERICAL_TOLERANCE (Qcabs (rate - scaled_minimum)))
  then Err OtherError
  else if Qceqb (scaled_maximum - scaled_minimum) 0 then Err ZeroDivisionError
  else
    let fraction := (rate - scaled_minimum) / (scaled_maximum - scaled_minimum) in
    Ok (min_below + (max_below - min_below) * fraction, min_above + (max_above - min_above) * fraction).

(** 341-419, calculate_head_and_efficiency_for_internal_point_between_given_speeds *)
Definition between_speeds (cs : list curve) (speed rate : Qc) : result (Qc * Qc) :=
  match closest_curve_below cs speed, closest_curve_above cs speed with
  | Some below, Some above =>
      let '(factor_below, factor_above) := scaling_factors speed (cv_speed above) (cv_speed below) in
      do min_above <- curve_min_rate above;
      do max_above <- curve_max_rate above;
      do min_below <- curve_min_rate below;
      do max_below <- curve_max_rate below;
      do rs <- equivalent_rates min_below max_below min_above max_above factor_below factor_above rate;
      let '(rate_below, rate_above) := rs in
      do head_below <- curve_head_at below rate_below;
      do eff_below <- curve_eff_at below rate_below;
      do head_above <- curve_head_at above rate_above;
      do eff_above <- curve_eff_at above rate_above;
      Ok (head_below * factor_below + head_above * factor_above, eff_below * factor_below + eff_above * factor_above)
  | _, _ => Err OtherError
  end.

(** base.py:153-161, the head and the efficiency at the first and at the last rate of a curve *)
Definition head_at_minimum_rate (c : curve) : result Qc := of_option IndexError (hd_error (cv_head c)).
Definition eff_at_minimum_rate (c : curve) : result Qc := of_option IndexError (hd_error (cv_eff c)).
Definition head_at_maximum_rate (c : curve) : result Qc := of_option IndexError (last_opt (cv_head c)).
Definition eff_at_maximum_rate (c : curve) : result Qc := of_option IndexError (last_opt (cv_eff c)).
(** 126-172, the four extrapolation functions *)
Definition along_speed (f : curve -> result Qc) (cs : list curve) (speed : Qc) : result Qc :=
  do ys <- mapM f cs; interp1d_ends (map cv_speed cs) ys speed.

(** 421-452, _calculate_extrapolated_values_for_external_points *)
Definition extrapolated (cs : list curve) (speed : Qc) (flag : area_flag) : result (num * num) :=
  match flag with
  | BelowMinimumSpeed | AboveMaximumSpeed => Ok (None, None)
  | AboveMaximumFlowRate | BelowMinimumSpeedAboveMaximumFlowRate =>
      do h <- along_speed head_at_maximum_rate cs speed;
      do e <- along_speed eff_at_maximum_rate cs speed;
      Ok (Some h, Some e)
  | BelowMinimumFlowRate | BelowMinimumSpeedAndFlowRate =>
      do h <- along_speed head_at_minimum_rate cs speed;
      do e <- along_speed eff_at_minimum_rate cs speed;
      Ok (Some h, Some e)
  | _ => Err OtherError
  end.

(** 301-339, _calculate_polytropic_head_and_efficiency *)
Definition head_and_efficiency (cs : list curve) (valid : bool) (speed rate : Qc) (flag : area_flag) : result (num * num) :=
  if valid then
    match curve_by_speed cs speed with
    | Some c => do h <- curve_head_at c rate; do e <- curve_eff_at c rate; Ok (Some h, Some e)
    | None => do he <- between_speeds cs speed rate; Ok (Some (fst he), Some (snd he))
    end
  else extrapolated cs speed flag.

(** types.py:4-11, CompressorChartHeadEfficiencyResultSinglePoint *)
Record chart_point : Type := mkChartPoint { cp_head : num; cp_eff : num; cp_flag : area_flag; cp_valid : bool }.

(** 174-224, calculate_polytropic_head_and_efficiency_single_point *)
Definition single_point (cs : list curve) (speed rate : Qc) (rate_with_asv : option Qc) (choke asv : bool) :
  result chart_point :=
  let with_asv := match rate_with_asv with None => rate | Some r => r end in
  do p <- place_point cs speed choke with_asv rate asv;
  let '(valid, flag, speed_to_use, rate_to_use) := p in
  do he <- head_and_efficiency cs valid speed_to_use rate_to_use flag;
  Ok (mkChartPoint (fst he) (snd he) flag valid).

(** types.py:14-43, one element of every list of CompressorChartResult *)
Record capacity : Type := mkCapacity {
  ca_rate : Qc; ca_head : Qc; ca_recirculates : bool; ca_choked : bool;
  ca_rate_exceeds : bool; ca_head_exceeds : bool; ca_exceeds : bool
}.

(** 51-114, evaluate_capacity_and_extrapolate_below_minimum for one point (the code maps it over arrays; the rates and
    heads are numbers, so that np.fmax is the maximum) *)
Definition evaluate_capacity (cs : list curve) (choke : bool) (rate head : Qc) : result capacity :=
  do minimum_rate <- (if choke then minimum_rate_at cs head else minimum_rate_no_choking_at cs head);
  let corrected_rate := Qcmax minimum_rate rate in
  do minimum_head <- minimum_head_at cs corrected_rate;
  let '(corrected_head, choked, below) :=
    if choke then (Qcmax minimum_head head, Qcltb head minimum_head, false) else (head, false, Qcltb head minimum_head) in
  do maximum_rate <- (if choke then maximum_rate_at cs head else maximum_rate_no_choking_at cs head);
  let rate_exceeds := Qcltb maximum_rate corrected_rate in
  do maximum_head <- maximum_head_at cs rate;
  let head_exceeds := Qcltb maximum_head corrected_head in
  Ok (mkCapacity corrected_rate corrected_head (Qcltb rate minimum_rate) choked rate_exceeds head_exceeds
                 (negb (negb rate_exceeds && negb head_exceeds && negb below))).
Definition evaluate_capacities (cs : list curve) (choke : bool) (rates heads : list Qc) : result (list capacity) :=
  mapM (fun p => evaluate_capacity cs choke (fst p) (snd p)) (combine rates heads).

(** types.py:45-65 *)
Definition any_below_stone_wall (l : list capacity) : bool := existsb (fun c => ca_rate_exceeds c && negb (ca_head_exceeds c)) l.
Definition any_above_maximum_speed (l : list capacity) : bool := existsb (fun c => ca_rate_exceeds c && ca_head_exceeds c) l.

(** Model of pump and compressor charts: chart curves, the control margin, the envelope functions and efficiency. *)
From Coq Require Import PeanoNat.
From Verif Require Import QcTac Base BaseLemmas Num Interp_Model.
Local Open Scope list_scope.
Local Open Scope Qc_scope.

(** ** domain/process/value_objects/chart/base.py

    15-68, ChartCurve: the three lists of the code are one list of (rate, head, efficiency). *)
Record curve : Type := mkCurve { cv_points : list (Qc * Qc * Qc); cv_speed : Qc }.
Definition p_rate (p : Qc * Qc * Qc) : Qc := fst (fst p).
Definition p_head (p : Qc * Qc * Qc) : Qc := snd (fst p).
Definition p_eff (p : Qc * Qc * Qc) : Qc := snd p.
(** 70-96, rate, head and efficiency *)
Definition cv_rate (c : curve) : list Qc := map p_rate (cv_points c).
Definition cv_head (c : curve) : list Qc := map p_head (cv_points c).
Definition cv_eff (c : curve) : list Qc := map p_eff (cv_points c).

(** 28-68, ChartCurve.__init__: the checks in their order (all EcalcValidationException), then the sort by rate
    (argsort; taken to be stable, which matters for equal rates only).  The two warnings are only logged. *)
Definition make_curve (rates heads effs : list Qc) (speed : Qc) : result curve :=
  if negb (forallb (fun e => Qcleb 0 e && Qcleb e 1) effs) then Err ValidationError
  else if negb (Nat.eqb (List.length rates) (List.length heads) && Nat.eqb (List.length heads) (List.length effs))
  then Err ValidationError
  else if Nat.ltb (List.length rates) 2 then Err ValidationError
  else Ok (mkCurve (sort (fun p q => Qcleb (p_rate p) (p_rate q)) (combine (combine rates heads) effs)) speed).

(** 98-101, is_100_percent_efficient *)
Definition curve_100 (c : curve) : bool := forallb (fun e => Qceqb e 1) (cv_eff c).
(** 103-109, minimum_rate and maximum_rate *)
Definition curve_min_rate (c : curve) : result Qc := of_option IndexError (hd_error (cv_rate c)).
Definition curve_max_rate (c : curve) : result Qc := of_option IndexError (last_opt (cv_rate c)).

(** scipy's interp1d with fill values, applied to a number (the result is always a number: there are points) *)
Definition interp1d_at (xs ys : list Qc) (below above x : Qc) : result Qc :=
  do f <- make_interpolator xs ys (Some below) (Some above);
  of_option OtherError (interpolate_1d f (Some x)).
(** interp1d(x, y, fill_value=(y[0], y[-1])) applied to a number *)
Definition interp1d_ends (xs ys : list Qc) (x : Qc) : result Qc :=
  do below <- of_option IndexError (hd_error ys);
  do above <- of_option IndexError (last_opt ys);
  interp1d_at xs ys below above x.

(** 111-129, efficiency_as_function_of_rate and head_as_function_of_rate *)
Definition curve_eff_at (c : curve) (rate : Qc) : result Qc := interp1d_ends (cv_rate c) (cv_eff c) rate.
Definition curve_head_at (c : curve) (rate : Qc) : result Qc := interp1d_ends (cv_rate c) (cv_head c) rate.
(** 131-140, rate_as_function_of_head: the fill values are (last, first) *)
Definition curve_rate_at (c : curve) (head : Qc) : result Qc :=
  do below <- of_option IndexError (last_opt (cv_rate c));
  do above <- of_option IndexError (hd_error (cv_rate c));
  interp1d_at (cv_head c) (cv_rate c) below above head.

Definition qc_max_of (l : list Qc) : result Qc :=
  match l with [] => Err ValueError | a :: l => Ok (fold_left Qcmax l a) end.
Definition qc_min_of (l : list Qc) : result Qc :=
  match l with [] => Err ValueError | a :: l => Ok (fold_left Qcmin l a) end.
(** 197-201, _get_new_point: the fill values are the smallest and the largest value *)
Definition new_point (xs ys : list Qc) (x : Qc) : result Qc :=
  do below <- qc_min_of ys; do above <- qc_max_of ys; interp1d_at xs ys below above x.
(** 181-228, adjust_for_control_margin *)
Definition adjust_for_control_margin (c : curve) (margin : option Qc) : result curve :=
  match margin with
  | None => Ok c
  | Some m =>
      if Qceqb m 0 then Ok c
      else
        do hi <- qc_max_of (cv_rate c);
        do lo <- qc_min_of (cv_rate c);
        let new_minimum_rate := lo + (hi - lo) * m in
        let kept := filter (fun p => Qcltb new_minimum_rate (p_rate p)) (cv_points c) in
        do head <- new_point (cv_rate c) (cv_head c) new_minimum_rate;
        do eff <- new_point (cv_rate c) (cv_eff c) new_minimum_rate;
        Ok (mkCurve ((new_minimum_rate, head, eff) :: kept) (cv_speed c))
  end.

(** ** presentation/yaml/mappers/charts/user_defined_chart_data.py:28-53: the adjusted curves of user-defined chart data
    (a stable sort by speed, then the margin) *)
Definition user_defined_curves (curves : list curve) (margin : option Qc) : result (list curve) :=
  mapM (fun c => adjust_for_control_margin c margin) (sort (fun a b => Qcleb (cv_speed a) (cv_speed b)) curves).

(** ** domain/process/value_objects/chart/chart.py

    A chart is the list of the adjusted curves of its chart data. *)
Notation chart_curves := (list curve) (only parsing).
(** 85-107, Chart.__init__: at least one curve (ProcessChartTypeValidationException); charts generated from input always
    have two *)
Definition make_chart (cs : chart_curves) : result chart_curves :=
  match cs with [] => Err ValidationError | _ => Ok cs end.
(** 125-131, minimum_speed_curve and maximum_speed_curve: first and last curve *)
Definition slow_curve (cs : chart_curves) : result curve := of_option IndexError (hd_error cs).
Definition fast_curve (cs : chart_curves) : result curve := of_option IndexError (last_opt cs).
(** 133-147 *)
Definition chart_min_rate (cs : chart_curves) : result Qc := do rs <- mapM curve_min_rate cs; qc_min_of rs.
Definition chart_max_rate (cs : chart_curves) : result Qc := do rs <- mapM curve_max_rate cs; qc_max_of rs.
(** 149-155 *)
Definition chart_100 (cs : chart_curves) : bool := forallb curve_100 cs.

(** 157-206, minimum_head_as_function_of_rate: the slowest curve, then the stone wall up to the end of the fastest curve
    when that lies to the right *)
Definition minimum_head_at (cs : chart_curves) (rate : Qc) : result Qc :=
  do slow <- slow_curve cs;
  do fast <- fast_curve cs;
  do r <- curve_max_rate fast;
  do r0 <- curve_max_rate slow;
  if Qcltb r0 r then
    do h <- of_option IndexError (last_opt (cv_head fast));
    interp1d_ends (cv_rate slow ++ [r]) (cv_head slow ++ [h]) rate
  else interp1d_ends (cv_rate slow) (cv_head slow) rate.

(** 208-233, minimum_rate_as_function_of_head: the line between the left ends of the slowest and the fastest curve *)
Definition minimum_rate_at (cs : chart_curves) (head : Qc) : result Qc :=
  do slow <- slow_curve cs;
  do fast <- fast_curve cs;
  do h1 <- of_option IndexError (hd_error (cv_head fast));
  do r1 <- curve_min_rate fast;
  do h0 <- of_option IndexError (hd_error (cv_head slow));
  do r0 <- curve_min_rate slow;
  interp1d_at [h0; h1] [r0; r1] r0 r1 head.

(** 235-263, minimum_rate_as_function_of_head_no_choking: the slowest curve and the left end of the fastest *)
Definition minimum_rate_no_choking_at (cs : chart_curves) (head : Qc) : result Qc :=
  do slow <- slow_curve cs;
  do fast <- fast_curve cs;
  do h1 <- of_option IndexError (hd_error (cv_head fast));
  do r1 <- curve_min_rate fast;
  interp1d_ends (rev (cv_head slow) ++ [h1]) (rev (cv_rate slow) ++ [r1]) head.

(** 269-271: the points of the fastest curve in order of head (argsort, taken to be stable) *)
Definition by_head (c : curve) : list (Qc * Qc) :=
  sort (fun p q => Qcleb (fst p) (fst q)) (combine (cv_head c) (cv_rate c)).
(** 265-285, maximum_rate_as_function_of_head *)
Definition maximum_rate_at (cs : chart_curves) (head : Qc) : result Qc :=
  do fast <- fast_curve cs;
  interp1d_ends (map fst (by_head fast)) (map snd (by_head fast)) head.
(** 287-325, maximum_rate_as_function_of_head_no_choking *)
Definition maximum_rate_no_choking_at (cs : chart_curves) (head : Qc) : result Qc :=
  do slow <- slow_curve cs;
  do r0 <- curve_max_rate slow;
  do h0 <- of_option IndexError (last_opt (cv_head slow));
  do fast <- fast_curve cs;
  interp1d_ends (h0 :: map fst (by_head fast)) (r0 :: map snd (by_head fast)) head.
(** 327-335, maximum_head_as_function_of_rate *)
Definition maximum_head_at (cs : chart_curves) (rate : Qc) : result Qc := do fast <- fast_curve cs; curve_head_at fast rate.
(** 337-363, minimum_rate_as_function_of_speed and maximum_rate_as_function_of_speed *)
Definition minimum_rate_of_speed (cs : chart_curves) (speed : Qc) : result Qc :=
  do rs <- mapM curve_min_rate cs; interp1d_ends (map cv_speed cs) rs speed.
Definition maximum_rate_of_speed (cs : chart_curves) (speed : Qc) : result Qc :=
  do rs <- mapM curve_max_rate cs; interp1d_ends (map cv_speed cs) rs speed.

(** the nearest curve above a point and the nearest below: distance and efficiency *)
Notation nearest := (option (Qc * Qc) * option (Qc * Qc))%type (only parsing).

Section Efficiency.
(** shapely: the distance from a point to a polyline, and the point of the polyline closest to it; numpy's standard
    deviation *)
Variable closest : list (Qc * Qc) -> Qc -> Qc -> Qc * (Qc * Qc).
Variable np_std : list Qc -> Qc.

(** base.py:163-175, get_distance_and_efficiency_from_closest_point_on_curve *)
Definition closest_on_curve (c : curve) (rate head : Qc) : result (Qc * Qc) :=
  let '(d, (x, y)) := closest (combine (cv_rate c) (cv_head c)) rate head in
  do e <- curve_eff_at c x;
  Ok (if Qcltb y head then - d else d, e).
(** np.mean of a non-empty list *)
Definition np_mean (l : list Qc) : Qc := qsum l / qz (Z.of_nat (List.length l)).
(** 414-423, a curve in the scaled coordinates (the inner construction at 435-440 repeats it) *)
Definition scale_curve (mean_r std_r mean_h std_h : Qc) (c : curve) : result curve :=
  make_curve (map (fun r => (r - mean_r) / std_r) (cv_rate c)) (map (fun h => (h - mean_h) / std_h) (cv_head c))
             (cv_eff c) (cv_speed c).
(** 434-446, the nearest curve above and the nearest below so far, with its distance and efficiency (None: infinitely
    far away) *)
Definition keep_nearest (q h : Qc) (acc : result nearest) (c : curve) : result nearest :=
  do n <- acc;
  do de <- closest_on_curve c q h;
  let '(above, below) := n in
  let '(d, e) := de in
  if Qcleb 0 d && match above with None => true | Some (d', _) => Qcltb d d' end then Ok (Some (d, e), below)
  else if Qcltb d 0 && match below with None => true | Some (d', _) => Qcltb d' d end then Ok (above, Some (d, e))
  else Ok (above, below).
(** 453-466, _get_alpha_from_distances *)
Definition alpha_of (n : nearest) : result Qc :=
  match n with
  | (None, _) => Ok 1
  | (_, None) => Ok 0
  | (Some (a, _), Some (b, _)) =>
      let s := Qcabs a + Qcabs b in if Qceqb s 0 then Err ZeroDivisionError else Ok (Qcabs a / s)
  end.
(** 365-451, efficiency_as_function_of_rate_and_head for one point *)
Definition efficiency_at (cs : chart_curves) (rate head : Qc) : result Qc :=
  if chart_100 cs then Ok 1
  else
    let rates := flat_map cv_rate cs in
    let heads := flat_map cv_head cs in
    let mean_r := np_mean rates in
    let mean_h := np_mean heads in
    let degenerate := Qceqb (np_std rates) 0 || Qceqb (np_std heads) 0 in
    let std_r := if degenerate then 1 else np_std rates in
    let std_h := if degenerate then 1 else np_std heads in
    do scaled <- mapM (scale_curve mean_r std_r mean_h std_h) cs;
    do n <- fold_left (keep_nearest ((rate - mean_r) / std_r) ((head - mean_h) / std_h)) scaled (Ok (None, None));
    do alpha <- alpha_of n;
    let eff o := match o with None => 1 | Some de => snd de end in
    Ok (alpha * eff (snd n) + (1 - alpha) * eff (fst n)).
End Efficiency.

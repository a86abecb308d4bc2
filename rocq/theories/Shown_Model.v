(** Model of the charts in the results: src/libecalc/presentation/json_result/serializable_chart.py and the chart data of
    src/libecalc/presentation/yaml/mappers/charts/ it is made from.  The warnings (55-68) are only logged. *)
From Coq Require Import PeanoNat.
From Verif Require Import QcTac Base Chart_Model.
Local Open Scope list_scope.
Local Open Scope Qc_scope.

(** the chart data of a compressor: user defined (user_defined_chart_data.py 27-53, with its curves as given and its
    control margin), or generic, with a design point (generic_from_design_point_chart_data.py and
    generic_from_input_chart_data.py 76-92; the making of the generic curves is not repeated here) *)
Inductive chart_data : Type :=
| UserDefined (curves : list curve) (margin : option Qc)
| Generic (curves : list curve) (design_rate design_head : Qc).

(** user_defined_chart_data.py 29: sorted by speed *)
Definition own_curves (d : chart_data) : list curve :=
  match d with
  | UserDefined cs _ => sort (fun a b => Qcleb (cv_speed a) (cv_speed b)) cs
  | Generic cs _ _ => cs
  end.

(** 25-28, OperationalPointDTO: the constraints of the fields *)
Definition point_ok (p : Qc * Qc * Qc) : bool :=
  Qcleb 0 (p_rate p) && Qcleb 0 (p_head p) && Qcltb 0 (p_eff p) && Qcleb (p_eff p) 1.
Definition point_dto (p : Qc * Qc * Qc) : result (Qc * Qc * Qc) := if point_ok p then Ok p else Err ValidationError.

(** 31-71 and 89-96, ChartCurveDTO: the constraints of the fields, more than one point, sorted by rate (argsort; taken to be
    stable, which matters for equal rates only).  The lengths (42-43) are equal as a curve is a list of points. *)
Definition curve_dto (c : curve) : result curve :=
  if negb (Qcleb 0 (cv_speed c)) then Err ValidationError
  else if negb (forallb point_ok (cv_points c)) then Err ValidationError
  else if Nat.ltb 1 (List.length (cv_points c))
  then Ok (mkCurve (sort (fun p q => Qcleb (p_rate p) (p_rate q)) (cv_points c)) (cv_speed c))
  else Err ValidationError.

(** 99-104, ChartDTO *)
Record chart_dto : Type := mkChartDto {
  cd_curves : list curve;
  cd_line : option (list (Qc * Qc * Qc));
  cd_margin : option Qc;
  cd_design_rate : option Qc;
  cd_design_head : option Qc }.
Definition at_least_zero (x : option Qc) : bool := match x with Some q => Qcleb 0 q | None => true end.

(** 113-128, the control margin line: the first point of each adjusted curve, if there is a margin above 0 *)
Definition control_margin_line (d : chart_data) : result (list (Qc * Qc * Qc)) :=
  match d with
  | UserDefined cs (Some m) =>
      if Qcltb 0 m then
        do adjusted <- mapM (fun c => adjust_for_control_margin c (Some m)) (own_curves d);
        mapM (fun c => do p <- of_option IndexError (hd_error (cv_points c)); point_dto p) adjusted
      else Ok []
  | _ => Ok []
  end.

(** 106-136, ChartDTO.from_domain *)
Definition show_chart (d : chart_data) : result chart_dto :=
  let design := match d with Generic _ r h => (Some r, Some h) | _ => (None, None) end in
  let margin := match d with UserDefined _ m => m | _ => None end in
  do line <- control_margin_line d;
  do curves <- mapM curve_dto (own_curves d);
  if at_least_zero (fst design) && at_least_zero (snd design)
  then Ok (mkChartDto curves (match line with [] => None | _ => Some line end) margin (fst design) (snd design))
  else Err ValidationError.

(** Model of the generic compressor charts: scaled from a design point, or from rates and heads. *)
From Verif Require Import QcTac Base Num Interp_Model Chart_Model Compressor_Model Search_Model.
Import Base.
Local Open Scope list_scope.
Local Open Scope Qc_scope.

(** ** domain/process/value_objects/chart/compressor/generic_chart_data.py

    12-24 and 41-51: the curves at 105 % and at 75 % of the speed *)
Definition q9 (z : Z) : Qc := qc z 1000000000.
Definition unified_105 : list (Qc * Qc) := map (fun p => (q9 (fst p), q9 (snd p)))
  [(878913798, 1289869247); (929112832, 1271644457); (972698180, 1247344747); (1038726745, 1200770298); (1099463139, 1148120922);
   (1158871891, 1089396618); (1231463064, 998272690); (1278951663, 913223698); (1323778851, 809949924)]%Z.
Definition unified_75 : list (Qc * Qc) := map (fun p => (q9 (fst p), q9 (snd p)))
  [(498902665, 558852888); (529285159, 546703033); (553058057, 532528200); (612499498, 506203512); (667962103, 465703990);
   (708890130, 427229447); (730015921, 409004665)]%Z.

(** ** domain/process/value_objects/chart/compressor/chart_creator.py

    208-252, from_rate_and_head_design_point: the curves of the chart data *)
Definition generic_curve (unified : list (Qc * Qc)) (rate head efficiency speed : Qc) : result curve :=
  make_curve (map (fun p => rate * fst p) unified) (map (fun p => head * snd p) unified) (map (fun _ => efficiency) unified) speed.
Definition from_design_point (rate head efficiency : Qc) : result (list curve) :=
  do slow <- generic_curve unified_75 rate head efficiency (qz 75);
  do fast <- generic_curve unified_105 rate head efficiency (qz 105);
  Ok [slow; fast].

(** 63-72, the ends of the unified curves *)
Definition max_rate_105 : Qc := q9 1323778851.
Definition max_head_105 : Qc := q9 1289869247.
Definition min_head_105 : Qc := q9 809949924.
Definition max_rate_75 : Qc := q9 730015921.
Definition change_in_rate : Qc := max_rate_105 - max_rate_75.
Definition change_in_head : Qc := max_head_105 - min_head_105.

(** numeric_methods.py:10-11 *)
Definition convergence_tolerance : Qc := qc 1 100000.
Definition maximum_iterations : nat := 50.

(** maximize_x_given_boolean_condition_function with a condition that may fail *)
Definition maximize (x_min x_max : Qc) (condition : Qc -> result bool) : result Qc :=
  match fst (maximize_x x_min x_max
               (fun x s => match condition x with Ok b => (Return b, s) | Err _ => (Raise OtherProcessError, s) end)
               convergence_tolerance maximum_iterations tt) with
  | Return x => Ok x
  | Raise _ => Err OtherError
  end.

Section Values.
Variables (rates heads : list Qc) (efficiency : Qc).
Variables scale_rate scale_head : Qc.

(** 84-100, _create_compressor_chart_result_from_unified_design_point *)
Definition chart_result (rate head : Qc) : result (list capacity) :=
  do cs <- from_design_point (rate * scale_rate) (head * scale_head) efficiency;
  evaluate_capacities cs false rates heads.
Definition below_wall (rate head : Qc) : result bool := do r <- chart_result rate head; Ok (any_below_stone_wall r).
Definition above_curve (rate head : Qc) : result bool := do r <- chart_result rate head; Ok (any_above_maximum_speed r).
Definition not_r (r : result bool) : result bool := do b <- r; Ok (negb b).

(** 131-148 and 177-193: the loop that increases the rate by 1 % and finds the head; [None] when it still runs after [n]
    rounds *)
Fixpoint increase (n : nat) (rate head : Qc) : result (option (Qc * Qc)) :=
  do above <- above_curve rate head;
  if above then
    match n with
    | O => Ok None
    | S n' =>
        let rate := rate + qc 1 100 in
        do head <- maximize head (1 + change_in_head) (fun x => not_r (below_wall rate x));
        increase n' rate head
    end
  else Ok (Some (rate, head)).

(** 102-193, the unified design point *)
Definition unified_design (n : nat) : result (option (Qc * Qc)) :=
  do below <- below_wall 1 1;
  if below then
    let maximum := 1 + change_in_rate in
    do x <- maximize 0 (maximum - 1) (fun x => not_r (below_wall (maximum - x) 1));
    increase n (maximum - x) 1
  else
    do above <- above_curve 1 1;
    if above then
      do head <- maximize 1 (1 + change_in_head) (fun x => not_r (below_wall 1 x));
      do still <- above_curve 1 head;
      if negb still then
        do change <- maximize 0 change_in_head (fun x => not_r (above_curve 1 (head - x)));
        Ok (Some (1 - change, head))
      else increase n 1 head
    else Ok (Some (1, 1)).
End Values.

(** 23-206, from_rate_and_head_values ([None]: the loop still runs after [n] rounds) *)
Definition from_values (n : nat) (rates heads : list Qc) (efficiency : Qc) : result (option (list curve)) :=
  do maximum_rate <- qc_max_of rates;
  do maximum_head <- qc_max_of heads;
  let scale_rate := maximum_rate / max_rate_105 in
  let scale_head := maximum_head / max_head_105 in
  do design <- unified_design rates heads efficiency scale_rate scale_head n;
  match design with
  | None => Ok None
  | Some (rate, head) => do cs <- from_design_point (rate * scale_rate) (head * scale_head) efficiency; Ok (Some cs)
  end.

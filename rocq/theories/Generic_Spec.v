(** What the generic charts mean, independently of how they are computed. *)
From Verif Require Import QcTac Base Chart_Model Compressor_Model Generic_Model.
Local Open Scope list_scope.
Local Open Scope Qc_scope.

(** the unified generic chart, in billionths: the rates and heads at 75 % and at 105 % of the speed *)
Definition billionths (l : list (Z * Z)) : list (Qc * Qc) := map (fun p => (qc (fst p) 1000000000, qc (snd p) 1000000000)) l.
Definition unified_slow : list (Qc * Qc) := billionths
  [(498902665, 558852888); (529285159, 546703033); (553058057, 532528200); (612499498, 506203512); (667962103, 465703990);
   (708890130, 427229447); (730015921, 409004665)]%Z.
Definition unified_fast : list (Qc * Qc) := billionths
  [(878913798, 1289869247); (929112832, 1271644457); (972698180, 1247344747); (1038726745, 1200770298); (1099463139, 1148120922);
   (1158871891, 1089396618); (1231463064, 998272690); (1278951663, 913223698); (1323778851, 809949924)]%Z.
(** the chart of a design point: the unified curves, scaled *)
Definition design_chart (rate head efficiency : Qc) (cs : list curve) : Prop :=
  cs = [mkCurve (map (fun p => (rate * fst p, head * snd p, efficiency)) unified_slow) (qz 75);
        mkCurve (map (fun p => (rate * fst p, head * snd p, efficiency)) unified_fast) (qz 105)].
(** [m] is the greatest of the numbers *)
Definition greatest (l : list Qc) (m : Qc) : Prop := In m l /\ forall x, In x l -> x <= m.
(** the largest rate and the greatest head of the unified curves *)
Definition largest_unified_rate : Qc := qc 1323778851 1000000000.
Definition greatest_unified_head : Qc := qc 1289869247 1000000000.

(** the same chart, and the same answer, with rates in a unit [a] times smaller and heads in a unit [b] times smaller *)
Definition curve_in_units (a b : Qc) (c : curve) : curve :=
  mkCurve (map (fun p => (a * p_rate p, b * p_head p, p_eff p)) (cv_points c)) (cv_speed c).
Definition capacity_in_units (a b : Qc) (c : capacity) : capacity :=
  mkCapacity (a * ca_rate c) (b * ca_head c) (ca_recirculates c) (ca_choked c) (ca_rate_exceeds c) (ca_head_exceeds c) (ca_exceeds c).

(** What charts mean, independently of how their functions are computed. *)
From Verif Require Import QcTac Base Interp_Spec Chart_Model.
Local Open Scope list_scope.
Local Open Scope Qc_scope.

(** a curve with at least two points, in order of rate, and efficiencies that are fractions *)
Definition proper_curve (c : curve) : Prop :=
  (2 <= List.length (cv_points c))%nat /\
  StronglySorted Qcle (cv_rate c) /\
  forall e, In e (cv_eff c) -> 0 <= e /\ e <= 1.

(** the (rate, head) and (rate, efficiency) points of a curve *)
Definition head_points (c : curve) : list (Qc * Qc) := combine (cv_rate c) (cv_head c).
Definition eff_points (c : curve) : list (Qc * Qc) := combine (cv_rate c) (cv_eff c).

(** [y] is the value at [x] of the function through the points that is constant outside their range *)
Definition value_at (data : list (Qc * Qc)) (x y : Qc) : Prop :=
  (in_range data x /\ interpolates data x y) \/
  exists a, In (a, y) data /\
    ((x < a /\ forall b yb, In (b, yb) data -> a <= b) \/ (a < x /\ forall b yb, In (b, yb) data -> b <= a)).

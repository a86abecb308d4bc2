(** Vocabulary for C116 and C117. *)
From Coq Require Import String.
From Verif Require Import QcTac Base Num Equipment_Model.
Local Open Scope list_scope.

(** the operating points of the periods: rate and pressures at the same place of their series *)
Definition points_of (rates : list Qc) (suction discharge : option (list Qc)) (points : list operating_point) : Prop :=
  List.length points = List.length rates /\
  forall k p, nth_error points k = Some p -> exists r, nth_error rates k = Some r /\ op_rates p = [r] /\
    op_suction p = match suction with Some l => nth_error l k | None => None end /\
    op_discharge p = match discharge with Some l => nth_error l k | None => None end.

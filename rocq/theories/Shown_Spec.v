(** Vocabulary for the charts in the results. *)
From Verif Require Import QcTac Base Interp_Spec Chart_Model Chart_Spec Compressor_Spec Shown_Model.
Local Open Scope list_scope.
Local Open Scope Qc_scope.

(** what the results can show: no negative speed, rate or head, and efficiencies above 0 *)
Definition showable (c : curve) : Prop :=
  proper_curve c /\ NoDup (cv_rate c) /\ 0 <= cv_speed c /\
  forall p, In p (cv_points c) -> 0 <= p_rate p /\ 0 <= p_head p /\ 0 < p_eff p.

(** the point of a curve at the fraction [m] of its range of rates *)
Definition margin_point (m : Qc) (c : curve) (p : Qc * Qc * Qc) : Prop :=
  exists left right, left_end c left /\ right_end c right /\
    p_rate p = p_rate left + m * (p_rate right - p_rate left) /\
    interpolates (quantity p_head c) (p_rate p) (p_head p) /\ interpolates (quantity p_eff c) (p_rate p) (p_eff p).
(** the curves in order of speed *)
Definition by_speed (given shown : list curve) : Prop := Permutation given shown /\ StronglySorted Qcle (map cv_speed shown).

(** What a pump evaluation is expected to mean, independently of how it is computed. *)
From Verif Require Import QcTac Base Num Chart_Model Chart_Spec Pump_Model.
Local Open Scope list_scope.
Local Open Scope Qc_scope.

(** a physical liquid stream *)
Definition physical (s : liquid) : Prop := 0 < l_density s /\ 0 <= l_mass s /\ 0 < l_pressure s.
(** the requested volume rate (m3/h) *)
Definition requested (s : liquid) : Qc := l_mass s / l_density s.
(** the head (J/kg) that lifts a liquid between two pressures (bar) *)
Definition head_between (suction discharge density : Qc) : Qc := (discharge - suction) * qz 100000 / density.
(** the power (MW) of a mass rate (kg/h) lifted by a head with an efficiency *)
Definition shaft_power (mass head efficiency : Qc) : Qc := mass * head / efficiency / (qz 3600 * qz 1000000).
(** to the right of the whole chart *)
Definition beyond_chart (cs : list curve) (rate : Qc) : Prop := forall c r, In c cs -> In r (cv_rate c) -> r < rate.
(** above the fastest curve *)
Definition above_curve (fast : curve) (rate head : Qc) : Prop := exists m, value_at (head_points fast) rate m /\ m < head.
(** the status that reports exactly these two *)
Definition reports (f : failure) (too_much_rate too_much_head : Prop) : Prop :=
  match f with
  | NO_FAILURE => ~ too_much_rate /\ ~ too_much_head
  | ABOVE_RATE => too_much_rate /\ ~ too_much_head
  | ABOVE_HEAD => ~ too_much_rate /\ too_much_head
  | ABOVE_RATE_AND_HEAD => too_much_rate /\ too_much_head
  end.
(** the head falls as the rate grows *)
Definition falling (data : list (Qc * Qc)) : Prop := forall a ya b yb, In (a, ya) data -> In (b, yb) data -> a < b -> yb < ya.

(** Vocabulary for the pump process simulations of a model file. *)
From Coq Require Import String.
From Verif Require Import QcTac Base Time_Model Time_Spec Num Expr_Model Expr_Spec Units_Model Input_Model Chart_Model Chart_Spec Pump_Model Pump_Spec
  Consumer_Model Consumer_Spec Duty_Model.
Local Open Scope list_scope.
Local Open Scope Qc_scope.

Section Duty.
  Variable pow : Qc -> Qc -> Qc.
  Variables (vars : variables_dict) (n : nat).

  (** the expressions of a simulation can be evaluated over the periods of the run *)
  Definition duty_evaluable (d : duty) : Prop :=
    evaluable pow vars n (du_rate d) /\ evaluable pow vars n (du_pressure d) /\
    evaluable pow vars n (du_density d) /\ evaluable pow vars n (du_discharge d).
  (** what is written for period number [k]: rate (m3/day), suction pressure, density and required discharge pressure *)
  Definition duty_at (d : duty) (k : nat) (rate suction density discharge : Qc) : Prop :=
    input_at pow vars n (du_rate d) k rate /\ input_at pow vars n (du_pressure d) k suction /\
    input_at pow vars n (du_density d) k density /\ input_at pow vars n (du_discharge d) k discharge.
  (** a pump can be made: curves with positive efficiencies, a minimum flow not below all of them, and no head margin *)
  Definition duty_pump_ok (d : duty) : Prop :=
    du_head_margin d = 0 /\ du_curves d <> [] /\ (forall c e, In c (du_curves d) -> In e (cv_eff c) -> 0 < e) /\
    (forall m, du_minimum_flow d = Some m -> exists c r, In c (du_curves d) /\ In r (cv_rate c) /\ r <= m).
  (** the values of every period describe a liquid; where it flows there is a pressure to reach *)
  Definition duty_values_ok (d : duty) : Prop :=
    forall k rate suction density discharge, (k < n)%nat -> duty_at d k rate suction density discharge ->
      0 <= rate /\ 0 < suction /\ 0 < density /\ 0 <= discharge /\ (0 < rate -> 0 < discharge).
  (** the input of one period *)
  Definition duty_input (d : duty) (k : nat) (i : liquid * Qc) : Prop :=
    forall rate suction density discharge, duty_at d k rate suction density discharge ->
      physical (fst i) /\ requested (fst i) * qz 24 = rate /\ l_pressure (fst i) = suction /\ l_density (fst i) = density /\
      0 < snd i /\ (0 < discharge -> snd i = discharge) /\ (discharge = 0 -> snd i = suction).
End Duty.

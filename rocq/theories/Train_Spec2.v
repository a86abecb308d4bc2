(** What the reason for a failure of a train says (C82). *)
From Coq Require Import List Bool ZArith Lia.
From Verif Require Import QcTac Base Num Stream_Model Train_Model Train_Spec.
From Verif Require Compressor_Model.
Import ListNotations.
Local Open Scope Qc_scope.

(** The rate of some stage that is outside its capacity is too large, or too small. *)
Definition too_much (x : stage_result) : Prop := ~ in_capacity x /\
  (sr_flag x = Compressor_Model.AboveMaximumFlowRate \/ sr_flag x = Compressor_Model.BelowMinimumSpeedAboveMaximumFlowRate).
Definition too_little (x : stage_result) : Prop := ~ in_capacity x /\
  (sr_flag x = Compressor_Model.BelowMinimumFlowRate \/ sr_flag x = Compressor_Model.BelowMinimumSpeedAndFlowRate).

(** The outlet pressure is lower, or higher, than requested. *)
Definition outlet_low (c : constraints) (r : train_result) : Prop := exists p, c_discharge c = Some p /\ exceeds p (s_pressure (tr_outlet r)).
Definition outlet_high (c : constraints) (r : train_result) : Prop := exists p, c_discharge c = Some p /\ exceeds (s_pressure (tr_outlet r)) p.
(** The first stage needs a higher pressure than the train is given. *)
Definition inlet_short (r : train_result) : Prop :=
  exists x, nth_error (tr_stages r) 0 = Some x /\ exceeds (s_pressure (sr_inlet x)) (s_pressure (tr_inlet r)).
Definition middle_low (t : train) (c : constraints) (r : train_result) : Prop :=
  exists p n q, c_interstage c = Some p /\ tn_stage_number t = Some n /\ ((1 <= n)%nat -> intermediate_pressure r n q) /\ exceeds p q.
Definition middle_high (t : train) (c : constraints) (r : train_result) : Prop :=
  exists p n q, c_interstage c = Some p /\ tn_stage_number t = Some n /\ ((1 <= n)%nat -> intermediate_pressure r n q) /\ exceeds q p.
Definition too_powerful (t : train) (r : train_result) : Prop := exists limit, tn_max_power t = Some limit /\ limit < ev_power (Running r).

(** The reason is so. *)
Definition explained (t : train) (c : constraints) (r : train_result) (f : failure) : Prop :=
  match f with
  | AboveMaximumFlow => Exists too_much (tr_stages r)
  | BelowMinimumFlow => Exists too_little (tr_stages r)
  | DischargeTooHigh => outlet_low c r \/ inlet_short r
  | DischargeTooLow => outlet_high c r
  | IntermediateTooHigh => middle_low t c r
  | IntermediateTooLow => middle_high t c r
  | AboveMaximumPower => power_controlled t c -> too_powerful t r
  | SuctionTooHigh => False
  | NoFailure => (forall p, c_discharge c = Some p -> meets (s_pressure (tr_outlet r)) p) /\ (power_controlled t c -> ~ (exists limit, tn_max_power t = Some limit /\ limit <> 0 /\ limit < ev_power (Running r)))
  end.

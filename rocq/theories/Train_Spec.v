(** Vocabulary for compressor trains on a common shaft (C76-C87). *)
From Coq Require Import List Bool ZArith Lia.
From Verif Require Import QcTac Base Num Search_Model Stream_Model Stream_Spec Process_Model Process_Spec Train_Model.
Import ListNotations.
Local Open Scope Qc_scope.

(** ** A stage *)

(** Actual rate [am3/h] of a stream. *)
Definition actual_rate (x : stream) : Qc := s_mass_rate x / s_density x.

(** Power [MW] to raise the enthalpy of a flow [kg/h] by so much [J/kg]. *)
Definition megawatts (change mass : Qc) : Qc := change * mass / qz 3600 / qz 1000000.

(** At most one of the two ways to recirculate is chosen. *)
Definition settled (m : modifier) : Prop := m_mass m = None \/ m_fraction m = None.

(** The rate asked for: the rate that comes in, more by a given mass rate, or more by a fraction of the room up to the largest
    rate. *)
Definition asked_rate (m : modifier) (rate density most : Qc) : Qc :=
  match m_mass m, m_fraction m with
  | Some mass, _ => rate + mass / density
  | None, Some f => rate + f * (if Qcltb rate most then most - rate else 0)
  | None, None => rate
  end.

(** The larger of two numbers. *)
Definition larger (a b : Qc) : Qc := if Qcltb a b then b else a.

(** [r] describes stage [st] running at speed [v]: the speed is one of its chart, head, efficiency and position are those of the
    chart at the rates that are reported, what leaves is what entered, the anti-surge valve keeps the rate above the smallest one,
    and the power is the one for the mass that goes through. *)
Definition stage_at (v : Qc) (st : stage) (r : stage_result) : Prop :=
  tc_min_speed (st_chart st) <= v /\ v <= tc_max_speed (st_chart st) /\
  tc_point (st_chart st) v (actual_rate (sr_inlet_asv r)) (actual_rate (sr_inlet r)) =
    Return (mk_point (sr_head r) (sr_eff r) (sr_flag r) (sr_point_valid r)) /\
  sr_eff r <> 0 /\
  s_fluid (sr_inlet_asv r) = s_fluid (sr_inlet r) /\
  s_fluid (sr_outlet r) = s_fluid (sr_outlet_asv r) /\
  s_model (sr_outlet r) = s_model (sr_inlet r) /\
  s_mass_rate (sr_outlet r) = s_mass_rate (sr_inlet r) /\
  s_mass_rate (sr_outlet_asv r) = s_mass_rate (sr_inlet_asv r) /\
  (0 < s_density (sr_inlet r) -> tc_min_rate (st_chart st) v <= actual_rate (sr_inlet_asv r)) /\
  sr_power r = megawatts (sr_head r / sr_eff r) (s_mass_rate (sr_inlet_asv r)).

(** The outlet of a stage whose point is valid has the enthalpy of the inlet plus head over efficiency, up to the tolerance of the
    flash. *)
Definition energy_balance (r : stage_result) : Prop :=
  sr_point_valid r = true ->
  Qcabs (s_enthalpy (sr_outlet r) - (s_enthalpy (sr_inlet r) + sr_head r / sr_eff r)) <=
    larger (qz 10) (Qcabs (s_enthalpy (sr_inlet r) + sr_head r / sr_eff r) * qc 1 10000).

(** ** A train *)

(** More than 0.1 percent above. *)
Definition exceeds (a b : Qc) : Prop := 1 + qc 1 1000 < a / b.
(** The same within 0.1 percent of each other. *)
Definition meets (a b : Qc) : Prop := ~ exceeds a b /\ ~ exceeds b a.

(** The discharge pressure of the stage before the intermediate pressure; [number] counts from 1. *)
Definition intermediate_pressure (r : train_result) (number : nat) (p : Qc) : Prop :=
  exists x, nth_error (tr_stages r) (number - 1) = Some x /\ p = s_pressure (sr_outlet x).

(** What is said about the pressures is so. *)
Definition truthful (t : train) (c : constraints) (r : train_result) : Prop :=
  match tr_status r with
  | PressuresMet =>
      (forall p, c_discharge c = Some p -> meets (s_pressure (tr_outlet r)) p) /\
      (forall p n, c_interstage c = Some p -> tn_stage_number t = Some n -> (1 <= n)%nat ->
         exists q, intermediate_pressure r n q /\ meets q p)
  | BelowDischarge => exists p, c_discharge c = Some p /\ exceeds p (s_pressure (tr_outlet r))
  | AboveDischarge => exists p, c_discharge c = Some p /\ exceeds (s_pressure (tr_outlet r)) p
  | AboveSuction => exists x, nth_error (tr_stages r) 0 = Some x /\ exceeds (s_pressure (sr_inlet x)) (s_pressure (tr_inlet r))
  | BelowIntermediate => exists p n q, c_interstage c = Some p /\ tn_stage_number t = Some n /\
      ((1 <= n)%nat -> intermediate_pressure r n q) /\ exceeds p q
  | AboveIntermediate => exists p n q, c_interstage c = Some p /\ tn_stage_number t = Some n /\
      ((1 <= n)%nat -> intermediate_pressure r n q) /\ exceeds q p
  | BelowSuction | NotCalculated => False
  end.

(** The train takes in its fluid at the suction pressure and the temperature of its first stage, at the given standard rate. *)
Definition takes_in (e : environment) (t : train) (c : constraints) (rate : Qc) (r : train_result) : Prop :=
  forall m ms first rest, tn_models t = Some m :: ms -> tn_stages t = first :: rest ->
    exists f, create_fluid (ph_service (e_physics e)) m (c_suction c) (st_temperature first) = Return f /\
      s_fluid (tr_inlet r) = f /\
      s_mass_rate (tr_inlet r) = rate * standard_density_of (ph_service (e_physics e)) m / qz 24.

(** A stage through which one stream passes: nothing is taken out or mixed in, and no liquid is removed. *)
Definition plain_stage (st : stage) : Prop := st_splitter st = None /\ st_mixer st = None /\ st_liquid st = false.
Definition plain (t : train) : Prop := Forall plain_stage (tn_stages t).

(** The same fluid at the same mass rate [kg/h] enters and leaves the train and every stage. *)
Definition carries (m : fluid_model) (mass : Qc) (r : train_result) : Prop :=
  let same x := s_model x = m /\ s_mass_rate x = mass in
  same (tr_inlet r) /\ same (tr_outlet r) /\ Forall (fun x => same (sr_inlet x) /\ same (sr_outlet x)) (tr_stages r).

(** Nothing is controlled by the common recirculation. *)
Definition no_common (t : train) : Prop :=
  tn_control t <> Some CommonRecirculation /\
  forall st controls, In st (tn_stages t) -> st_controls st = Some controls -> fst controls <> CommonRecirculation /\ snd controls <> CommonRecirculation.

(** The cases in which the power of the result is compared with the maximum: not for individual pressures, and not when the
    maximum discharge pressure may change the stages after the comparison. *)
Definition power_controlled (t : train) (c : constraints) : Prop :=
  match c_interstage c with
  | Some _ => True
  | None => tn_control t <> Some IndividualPressure /\ (tn_control t = Some DownstreamChoking -> tn_max_discharge t = None)
  end.

(** The operating point is inside the chart, or is accepted as valid. *)
Definition in_capacity (r : stage_result) : Prop := sr_flag r = Compressor_Model.InternalPoint \/ sr_point_valid r = true.

(** ** Recirculation in a train *)

(** The compressor of [st] handles, at speed [v], the rate that comes in and [extra] of it [am3/h], and never less than its
    smallest rate. *)
Definition handles (v : Qc) (st : stage) (r : stage_result) (extra : Qc) : Prop :=
  0 < s_density (sr_inlet r) ->
  actual_rate (sr_inlet_asv r) = larger (tc_min_rate (st_chart st) v) (actual_rate (sr_inlet r) + extra).
(** What is left up to the largest rate. *)
Definition room (v : Qc) (st : stage) (r : stage_result) : Qc :=
  let most := tc_max_rate (st_chart st) v in
  if Qcltb (actual_rate (sr_inlet r)) most then most - actual_rate (sr_inlet r) else 0.
(** Recirculation for three kinds of control: only what surge protection needs; the same fraction of the room of every stage; the
    same mass rate [kg/h] around every stage. *)
Definition protected (t : train) (r : train_result) : Prop :=
  exists v, tr_speed r = Some v /\ Forall2 (fun st x => handles v st x 0) (tn_stages t) (tr_stages r).
Definition same_fraction_of_room (t : train) (fraction : Qc) (r : train_result) : Prop :=
  exists v, tr_speed r = Some v /\ Forall2 (fun st x => handles v st x (fraction * room v st x)) (tn_stages t) (tr_stages r).
Definition same_mass_around (t : train) (mass : Qc) (r : train_result) : Prop :=
  exists v, tr_speed r = Some v /\ Forall2 (fun st x => handles v st x (mass / s_density (sr_inlet x))) (tn_stages t) (tr_stages r).

(** The root finder answers inside its interval. *)
Inductive answers_in (lo hi : Qc) : Solver_Model.root_search -> Prop :=
| answers_found : forall x, lo <= x -> x <= hi -> answers_in lo hi (Solver_Model.Found x)
| answers_stop : forall x, answers_in lo hi (Solver_Model.Stop x)
| answers_probe : forall x k, (forall y, answers_in lo hi (k y)) -> answers_in lo hi (Solver_Model.Probe x k).
Definition bracketing (e : environment) : Prop := forall lo hi tol n, lo <= hi -> answers_in lo hi (e_finder e lo hi tol n).

(** ** Streams in and out *)

(** The ports of a train besides its inlet, stage by stage: outlets ([false]) before inlets ([true]). *)
Definition stage_ports (st : stage) : list bool :=
  match st_splitter st with Some n => repeat false (n - 1) | None => [] end ++
  match st_mixer st with Some n => repeat true (n - 1) | None => [] end.
Definition train_ports (stages : list stage) : list bool := true :: flat_map stage_ports stages.
(** What comes in less what goes out. *)
Fixpoint net (kinds : list bool) (rates : list Qc) : Qc :=
  match kinds, rates with
  | inlet :: kinds', rate :: rates' => (if inlet then rate else - rate) + net kinds' rates'
  | _, _ => 0
  end.

(** The maximum rate is found without evaluating the train for a rate: no choke upstream and no maximum power. *)
Definition unlimited (t : train) : Prop := tn_control t <> Some UpstreamChoking /\ (tn_max_power t = None \/ tn_max_power t = Some 0).

(** What a simplified compressor train should do, independently of how it is evaluated. *)
From Coq Require Import List Bool ZArith.
From Verif Require Import QcTac Base Num Search_Model Stream_Model Process_Model Chart_Model Chart_Spec Compressor_Spec Train_Model Simplified_Model.
From Verif Require Compressor_Model.
Import ListNotations.
Local Open Scope list_scope.
Local Open Scope Qc_scope.

(** [x] to the power [n] *)
Fixpoint raised (x : Qc) (n : nat) : Qc := match n with O => 1 | S n' => x * raised x n' end.

(** ** The polytropic head *)

(** what is added to the enthalpy when a compressor lifts the gas by [head] with this efficiency *)
Definition work (head efficiency : Qc) : Qc := head / efficiency.

(** Campbell's formula, with [e] = (kappa - 1) / (kappa efficiency): (1 / e) z R T / M (ratio^e - 1) *)
Definition campbell (pow : Qc -> Qc -> Qc) (efficiency kappa z molar_mass ratio temperature head : Qc) : Prop :=
  kappa * efficiency <> 0 /\ molar_mass <> 0 /\ exists e, e * (kappa * efficiency) = kappa - 1 /\ e <> 0 /\
    head * (e * molar_mass) = z * qc 8314472 1000000 * temperature * (pow ratio e - 1).

(** [next] and [efficiency] follow from the guess [head], [z] and [kappa] for gas [inlet] that is to reach [pressure]: the efficiency is that of
    the chart at the guess, the head is Campbell's *)
Definition improves (w : world) (cs : list curve) (inlet : stream) (pressure head z kappa efficiency next : Qc) : Prop :=
  efficiency_at (w_closest w) (w_std w) cs (s_mass_rate inlet / s_density inlet) head = Ok efficiency /\
  campbell (w_power w) efficiency kappa z (s_molar_mass inlet) (pressure / s_pressure inlet) (s_temperature inlet) next.

(** [out] is what the gas becomes at [pressure] with the work added to its enthalpy *)
Definition leaves_with (w : world) (inlet : stream) (pressure added : Qc) (out : properties) : Prop :=
  flash_ph (ph_service (w_physics w)) (s_model inlet) pressure (s_enthalpy inlet + added) (Some (s_temperature inlet)) = Return out.

(** the guesses one after the other: the first is no head with the z and kappa of the inlet; a later one is the improved head, with the
    averages of z and kappa between inlet and outlet *)
Inductive guess (w : world) (cs : list curve) (inlet : stream) (pressure : Qc) : nat -> Qc -> Qc -> Qc -> Prop :=
| guess_first : guess w cs inlet pressure 0 0 (s_z inlet) (s_kappa inlet)
| guess_next : forall i head z kappa efficiency next out,
    guess w cs inlet pressure i head z kappa ->
    improves w cs inlet pressure head z kappa efficiency next ->
    leaves_with w inlet pressure (work next efficiency) out ->
    ~ (head <> 0 /\ Qcabs (next - head) < qc 1 1000 * Qcabs head) ->
    guess w cs inlet pressure (S i) next ((s_z inlet + p_z out) / qz 2) ((s_kappa inlet + p_kappa out) / qz 2).

(** [head] and [efficiency] are what the guesses end with: the first that differs from the guess before by less than a thousandth, or the
    twentieth *)
Definition head_found (w : world) (cs : list curve) (inlet : stream) (pressure efficiency head : Qc) : Prop :=
  exists i before z kappa, guess w cs inlet pressure i before z kappa /\
    improves w cs inlet pressure before z kappa efficiency head /\
    (((i < 20)%nat /\ before <> 0 /\ Qcabs (head - before) < qc 1 1000 * Qcabs before) \/ i = 19%nat).

(** ** A stage *)

(** what a chart makes of a rate and a head: [m] is the least rate, [k] and [h] the least and the greatest head at the rate that is used, which
    is the larger of [m] and [rate]; [e] is the end of the chart *)
Definition limits (cs : list curve) (rate head m k h e : Qc) : Prop :=
  flow_line cs head m /\ least_head cs (Qcmax m rate) k /\ greatest_head cs (Qcmax m rate) h /\ end_of_chart cs e.

(** the power [MW] for a mass rate [kg/h] and a change of enthalpy [J/kg] *)
Definition megawatt (mass change : Qc) : Qc := mass * change / qz 3600000000.

(** the flag of a stage tells which limits are passed: the least rate, the least head, the end of the chart (not with the least rate), and the
    greatest head (only if nothing else is); a stage is within its capacity if the last two are not *)
Definition flag_tells (r : sim_result) : Prop :=
  (In (ss_flag r) [Compressor_Model.BelowMinimumFlowRate; Compressor_Model.BelowMinimumSpeedAndFlowRate] <-> ss_recirculates r = true) /\
  (In (ss_flag r) [Compressor_Model.BelowMinimumSpeed; Compressor_Model.BelowMinimumSpeedAndFlowRate; Compressor_Model.BelowMinimumSpeedAboveMaximumFlowRate] <->
     ss_choked r = true) /\
  (In (ss_flag r) [Compressor_Model.AboveMaximumFlowRate; Compressor_Model.BelowMinimumSpeedAboveMaximumFlowRate] <->
     ss_rate_exceeds r = true /\ ss_recirculates r = false) /\
  (ss_flag r = Compressor_Model.AboveMaximumSpeed <->
     ss_head_exceeds r = true /\ ss_rate_exceeds r = false /\ ss_recirculates r = false /\ ss_choked r = false) /\
  (ss_within r = true <-> ss_rate_exceeds r = false /\ ss_head_exceeds r = false).

(** a stage with the given chart and temperature that lifts [mass] of gas [f] from pressure [p] to pressure [p'] *)
Record lifts (w : world) (cs : list curve) (temperature : Qc) (f : fluid_model) (mass p p' : Qc) (r : sim_result) : Prop := mk_lifts {
  li_in : s_model (ss_inlet r) = f /\ s_mass_rate (ss_inlet r) = mass /\
          flash_pt (ph_service (w_physics w)) f p temperature = Return (f_properties (s_fluid (ss_inlet r)));
  li_out : s_model (ss_outlet r) = f /\ s_mass_rate (ss_outlet r) = mass;
  li_work : exists efficiency head m k h e,
    let rate := mass / s_density (ss_inlet r) in
    let rate' := Qcmax m rate in
    let head' := Qcmax k head in
    let inside := rate' <= e /\ head' <= h in
    head_found w cs (ss_inlet r) p' efficiency head /\
    limits cs rate head m k h e /\
    leaves_with w (ss_inlet r) p' (work head' efficiency) (f_properties (s_fluid (ss_outlet r))) /\
    s_mass_rate (ss_inlet_asv r) = rate' * s_density (ss_inlet r) /\
    s_mass_rate (ss_outlet_asv r) = rate' * s_density (ss_inlet r) /\
    (ss_recirculates r = true <-> rate < m) /\ (ss_choked r = true <-> head < k) /\
    (inside -> ss_power r = Some (megawatt (rate' * s_density (ss_inlet r)) (work head' efficiency))) /\
    (~ inside -> ss_power r = None) /\
    (ss_within r = true <-> inside);
  li_flag : flag_tells r }.

(** [total] is the sum of the powers of the stages, all of which are known *)
Definition total_power (l : list sim_result) (total : Qc) : Prop :=
  exists powers, Forall2 (fun r p => ss_power r = Some p) l powers /\ total = qsum powers.
(** a limit of the power that is not 0 is kept *)
Definition power_allows (limit : option Qc) (total : Qc) : Prop := forall p, limit = Some p -> p <> 0 -> total <= p.

(** ** The maximum rate *)

(** [a] is the largest rate at [head]: on the fastest curve, and below it on the line to the right end of the slowest curve *)
Definition widest (cs : list curve) (head a : Qc) : Prop :=
  exists c0 c1 p0, slowest cs c0 /\ fastest cs c1 /\ right_end c0 p0 /\
    Chart_Spec.value_at ((p_head p0, p_rate p0) :: map (fun p => (p_head p, p_rate p)) (cv_points c1)) head a.

(** charts whose fastest curve lies above the right end of the slowest one *)
Definition right_ends_rise (cs : list curve) : Prop :=
  forall c0 c1 p0 p, slowest cs c0 -> fastest cs c1 -> right_end c0 p0 -> In p (cv_points c1) -> p_head p0 < p_head p.

(** properties that are accepted for a gas of the wanted enthalpy *)
Definition plausible (out : properties) (wanted : Qc) : Prop :=
  0 < p_pressure out /\ 0 < p_temperature out /\ 0 < p_density out /\ 0 < p_z out /\ 0 < p_kappa out /\ 0 < p_standard_density out /\
  - qc 1 100000 <= p_vapor_fraction out /\ p_vapor_fraction out <= 1 + qc 1 100000 /\
  Qcabs (p_enthalpy out - wanted) <= Qcmax (qz 10) (Qcabs wanted * qc 1 10000).
(** there is no such gas *)
Definition no_outlet (w : world) (inlet : stream) (pressure added : Qc) : Prop :=
  let answer := flash_ph (ph_service (w_physics w)) (s_model inlet) pressure (s_enthalpy inlet + added) (Some (s_temperature inlet)) in
  answer = Raise FlashError \/ answer = Raise ThermodynamicError \/
  exists out, answer = Return out /\ ~ plausible out (s_enthalpy inlet + added).

(** the mean and the greatest of the heads of the fastest curve *)
Definition mean_head (cs : list curve) (x : Qc) : Prop :=
  exists c, fastest cs c /\ x * qz (Z.of_nat (length (cv_points c))) = qsum (map p_head (cv_points c)).
Definition top_head (cs : list curve) (x : Qc) : Prop :=
  exists c, fastest cs c /\ In x (map p_head (cv_points c)) /\ forall p, In p (cv_points c) -> p_head p <= x.

(** from a guess of the head follow the largest rate and an improved head *)
Definition widens (w : world) (cs : list curve) (inlet : stream) (ratio head z kappa a efficiency next : Qc) : Prop :=
  widest cs head a /\ efficiency_at (w_closest w) (w_std w) cs a head = Ok efficiency /\
  campbell (w_power w) efficiency kappa z (s_molar_mass inlet) ratio (s_temperature inlet) next.
Definition nearly (a before : Qc) : Prop := before <> 0 /\ Qcabs (a - before) < qc 1 1000 * Qcabs before.

(** the guesses one after the other: head, z, kappa and the rate of the guess before; the first are the mean head of the fastest curve, the
    inlet, and a hundred thousandth *)
Inductive rate_guess (w : world) (cs : list curve) (inlet : stream) (ratio : Qc) : nat -> Qc -> Qc -> Qc -> Qc -> Prop :=
| rate_first : forall head, mean_head cs head -> rate_guess w cs inlet ratio 0 head (s_z inlet) (s_kappa inlet) (qc 1 100000)
| rate_next : forall i head z kappa before a efficiency next out,
    rate_guess w cs inlet ratio i head z kappa before ->
    widens w cs inlet ratio head z kappa a efficiency next ->
    leaves_with w inlet (s_pressure inlet * ratio) (work next efficiency) out ->
    plausible out (s_enthalpy inlet + work next efficiency) ->
    ~ nearly a before ->
    rate_guess w cs inlet ratio (S i) next ((s_z inlet + p_z out) / qz 2) ((s_kappa inlet + p_kappa out) / qz 2) a.

(** the rate [a] that the guesses end with: the first that hardly differs from the one before, or the twentieth; or, where a head
    above the chart cannot be reached by the gas, the largest rate at that head *)
Definition rate_found (w : world) (cs : list curve) (inlet : stream) (ratio a : Qc) : Prop :=
  exists i head z kappa before a' efficiency next, (i < 20)%nat /\ rate_guess w cs inlet ratio i head z kappa before /\
    widens w cs inlet ratio head z kappa a' efficiency next /\
    (((exists out, leaves_with w inlet (s_pressure inlet * ratio) (work next efficiency) out) /\ a = a' /\ (nearly a before \/ i = 19%nat)) \/
     (no_outlet w inlet (s_pressure inlet * ratio) (work next efficiency) /\ widest cs next a /\ exists top, top_head cs top /\ top < next)).

(** the standard rate [q] that a stage can take from pressure [p] at its temperature *)
Definition stage_takes (w : world) (f : fluid_model) (st : sim_stage) (ratio p q : Qc) : Prop :=
  exists inlet a, s_model inlet = f /\ s_mass_rate inlet = 1 /\
    flash_pt (ph_service (w_physics w)) f p (si_temperature st) = Return (f_properties (s_fluid inlet)) /\
    rate_found w (si_chart st) inlet ratio a /\
    q = a * s_density inlet / s_standard_density inlet * qz 24.

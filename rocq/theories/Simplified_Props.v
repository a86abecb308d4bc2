(** C118, C119, C120: simplified compressor trains. *)
From Coq Require Import List Bool ZArith Lia.
From Verif Require Import QcTac Base Num Search_Model Stream_Model Stream_Spec Process_Model Chart_Model Chart_Spec Compressor_Spec Compressor_Proofs4 Train_Model
  Simplified_Model Simplified_Spec Simplified_Proofs Simplified_Proofs2 Simplified_Proofs3 Simplified_Proofs4.
From Verif Require Compressor_Model.
Import ListNotations.
Local Open Scope list_scope.
Local Open Scope Qc_scope.

(** ** C118: the pressures of a simplified train *)

(** C118: every stage of a running train lifts all the gas, at its own inlet temperature, by the same pressure ratio from where the stage before left it; with
    a root that is exact the train leaves at the wanted pressure. *)
Theorem C118_pressures : forall w t suction discharge rate v, consistent_service (ph_service (w_physics w)) ->
  sim_constraints w t suction discharge rate = Return (SRunning v) ->
  let n := length (sn_stages t) in
  let ratio := w_root w (discharge / suction) n in
  let mass := rate * standard_density_of (ph_service (w_physics w)) (sn_model t) / qz 24 in
  (0 < n)%nat /\ length (sv_stages v) = n /\ 0 < mass /\
  (forall i st r, nth_error (sn_stages t) i = Some st -> nth_error (sv_stages v) i = Some r ->
     s_pressure (ss_inlet r) = suction * raised ratio i /\ s_pressure (ss_outlet r) = suction * raised ratio (S i) /\
     s_temperature (ss_inlet r) = si_temperature st /\ s_model (ss_inlet r) = sn_model t /\ s_model (ss_outlet r) = sn_model t /\
     s_mass_rate (ss_inlet r) = mass /\ s_mass_rate (ss_outlet r) = mass) /\
  s_pressure (sv_inlet v) = suction /\ s_pressure (sv_outlet v) = suction * raised ratio n /\
  s_mass_rate (sv_inlet v) = mass /\ s_mass_rate (sv_outlet v) = mass /\
  (raised ratio n = discharge / suction -> s_pressure (sv_outlet v) = discharge /\ sv_status v = PressuresMet).
Proof. exact pressures_proof. Qed.
Print Assumptions C118_pressures.

Definition C118_limited : sim_train := C118_train (Some 1).
Example C118_case : consistent_service (ph_service (w_physics C118_world)) /\
  raised (w_root C118_world (qz 40 / qz 10) 2) 2 = qz 40 / qz 10 /\
  option_map C118_shows (C118_running (sim_constraints C118_world C118_limited (qz 10) (qz 40) (qz 6000))) =
  Some [(10, 20, Some (1039309 # 120318450000), Compressor_Model.InternalPoint); (20, 40, Some (32218579 # 3609553500000), Compressor_Model.InternalPoint)]%Q.
Proof. split; [exact C118_consistent|]. split; [apply Qc_is_canon; vm_compute; reflexivity|]. vm_compute. reflexivity. Qed.

(** C118: nothing runs without gas, and a negative rate is refused. *)
Theorem C118_idle : forall w t suction discharge rate st rest props, consistent_service (ph_service (w_physics w)) ->
  sn_stages t = st :: rest -> suction <> 0 ->
  flash_pt (ph_service (w_physics w)) (sn_model t) suction (si_temperature st) = Return props ->
  (rate = 0 -> sim_constraints w t suction discharge rate = Return (SIdle (length (sn_stages t)))) /\
  (rate < 0 -> sim_constraints w t suction discharge rate = Raise NegativeMassRate) /\
  (0 < rate -> forall n, sim_constraints w t suction discharge rate <> Return (SIdle n)) /\
  sim_power (SIdle (length (sn_stages t))) = Some 0 /\ sim_valid (SIdle (length (sn_stages t))) = true.
Proof. exact idle_proof. Qed.
Print Assumptions C118_idle.

Example C118_idle_case : (exists props, flash_pt (ph_service (w_physics C118_world)) (sn_model C118_limited) (qz 10) (qz 300) = Return props) /\
  sim_constraints C118_world C118_limited (qz 10) (qz 40) 0 = Return (SIdle 2) /\
  sim_constraints C118_world C118_limited (qz 10) (qz 40) (- qz 5) = Raise NegativeMassRate.
Proof. split; [eexists; reflexivity|]. split; vm_compute; reflexivity. Qed.

(** C118: a train without stages and a suction pressure of zero are refused. *)
Theorem C118_refused : forall w t suction discharge rate,
  (sn_stages t = [] -> sim_constraints w t suction discharge rate = Raise ValueErr) /\
  (sn_stages t <> [] -> suction = 0 -> sim_constraints w t suction discharge rate = Raise ZeroDivisionErr).
Proof. exact refused_proof. Qed.
Print Assumptions C118_refused.

Example C118_refused_case : sim_constraints C118_world (mk_sim_train [] (sn_model C118_limited) None) (qz 10) (qz 40) (qz 6000) = Raise ValueErr /\
  sim_constraints C118_world C118_limited 0 (qz 40) (qz 6000) = Raise ZeroDivisionErr.
Proof. split; vm_compute; reflexivity. Qed.

(** C118: a series of periods gives for each period what it gives alone. *)
Theorem C118_periods : forall w t calculate periods answers,
  sim_evaluate w t calculate periods = Return answers <->
  Forall2 (fun p a => sim_constraints w t (fst (fst p)) (snd (fst p)) (snd p) = Return (fst a) /\
                      (if calculate : bool then sim_max_rate_reported w t (fst (fst p)) (snd (fst p)) = Return (snd a) else snd a = None))
    periods answers.
Proof. exact periods_proof. Qed.
Print Assumptions C118_periods.

Definition C118_seen (a : sim_evaluation * num) : option Q * bool * option Q := (option_map this (sim_power (fst a)), sim_valid (fst a), option_map this (snd a)).
Example C118_periods_case :
  match sim_evaluate C118_world C118_limited true [(qz 10, qz 40, qz 6000); (qz 10, qz 40, 0); (qz 10, qz 40, qz 20000)] with Return l => Some (map C118_seen l) | Raise _ => None end =
  Some [(Some (63397849 # 3609553500000), true, Some (6643569600 # 802123)); (Some 0, true, Some (6643569600 # 802123)); (None, false, Some (6643569600 # 802123))]%Q.
Proof. vm_compute. reflexivity. Qed.

(** ** C119: the work of a stage *)

(** C119: a stage does the work of the head that is found for its pressure ratio, raised to what the chart needs, on the rate raised to what the chart needs; it has a
    power and is within its capacity exactly if both lie inside the chart. *)
Theorem C119_stages : forall w t suction discharge rate v, consistent_service (ph_service (w_physics w)) ->
  (forall st, In st (sn_stages t) -> regular_chart (si_chart st)) ->
  sim_constraints w t suction discharge rate = Return (SRunning v) ->
  let ratio := w_root w (discharge / suction) (length (sn_stages t)) in
  let mass := rate * standard_density_of (ph_service (w_physics w)) (sn_model t) / qz 24 in
  forall i st r, nth_error (sn_stages t) i = Some st -> nth_error (sv_stages v) i = Some r ->
    lifts w (si_chart st) (si_temperature st) (sn_model t) mass (suction * raised ratio i) (suction * raised ratio (S i)) r.
Proof. exact stages_proof. Qed.
Print Assumptions C119_stages.

Example C119_case : (forall st, In st (sn_stages C118_limited) -> regular_chart (si_chart st)) /\
  exists v, sim_constraints C118_world C118_limited (qz 10) (qz 40) (qz 6000) = Return (SRunning v) /\ length (sv_stages v) = 2%nat.
Proof.
  split; [exact (C118_regular _)|].
  destruct (running_such (fun v => Nat.eqb (length (sv_stages v)) 2) (sim_constraints C118_world C118_limited (qz 10) (qz 40) (qz 6000)) ltac:(vm_compute; reflexivity)) as (v & E & P).
  exists v. split; [exact E|]. apply PeanoNat.Nat.eqb_eq. exact P.
Qed.

(** C119: the efficiency of a stage lies between the least and the greatest of its chart, the reported head is the change of enthalpy times the efficiency, the
    change is at least the one that the pressure ratio asks for, and the power is that of the gas through the compressor. *)
Theorem C119_reported : forall w t suction discharge rate v lo hi, consistent_service (ph_service (w_physics w)) -> (forall l x y, 0 <= fst (w_closest w l x y)) ->
  (forall st, In st (sn_stages t) -> regular_chart (si_chart st)) -> 0 < lo ->
  (forall st c e, In st (sn_stages t) -> In c (si_chart st) -> In e (cv_eff c) -> lo <= e /\ e <= hi) ->
  sim_constraints w t suction discharge rate = Return (SRunning v) ->
  forall r, In r (sv_stages v) -> exists e, ss_efficiency r = Some e /\ lo <= e /\ e <= hi /\
    ss_head r = Some (ss_change r * e) /\ ss_change_before r <= ss_change r /\
    forall p, ss_power r = Some p -> p = megawatt (s_mass_rate (ss_inlet_asv r)) (ss_change r).
Proof. exact reported_work_proof. Qed.
Print Assumptions C119_reported.

Example C119_reported_case : (forall l x y, 0 <= fst (w_closest C118_world l x y)) /\
  forallb (fun st => forallb (fun c => forallb (fun e => Qcleb (qc 1 2) e && Qcleb e 1) (cv_eff c)) (si_chart st)) (sn_stages C118_limited) = true /\
  option_map (fun v => map (fun r => option_map this (ss_efficiency r)) (sv_stages v)) (C118_running (sim_constraints C118_world C118_limited (qz 10) (qz 40) (qz 6000))) =
  Some [Some (7 # 10); Some (7 # 10)]%Q.
Proof. split; [exact C118_nonnegative|]. split; vm_compute; reflexivity. Qed.

(** C119: the train has a power exactly if all stages are within their capacity, and it is their sum; the train is valid exactly if moreover the power is within the
    maximum, if there is one; and a failure is never reported for a valid train. *)
Theorem C119_validity : forall w t suction discharge rate v, consistent_service (ph_service (w_physics w)) ->
  (forall st, In st (sn_stages t) -> regular_chart (si_chart st)) ->
  let n := length (sn_stages t) in
  raised (w_root w (discharge / suction) n) n = discharge / suction ->
  sim_constraints w t suction discharge rate = Return (SRunning v) ->
  ((exists total, sim_power (SRunning v) = Some total) <-> forall r, In r (sv_stages v) -> ss_within r = true) /\
  (forall total, sim_power (SRunning v) = Some total <-> total_power (sv_stages v) total) /\
  (sim_valid (SRunning v) = true <->
     (forall r, In r (sv_stages v) -> ss_within r = true) /\
     (forall total, total_power (sv_stages v) total -> power_allows (sn_max_power t) total)) /\
  (sim_valid (SRunning v) = true -> sim_failure (SRunning v) = NoFailure) /\
  ((forall r, In r (sv_stages v) -> ss_within r = true) ->
     (sim_failure (SRunning v) = NoFailure \/ sim_failure (SRunning v) = AboveMaximumPower)).
Proof. exact validity_proof. Qed.
Print Assumptions C119_validity.

Example C119_validity_case :
  option_map (fun v => (sim_valid (SRunning v), sim_failure (SRunning v))) (C118_running (sim_constraints C118_world C118_limited (qz 10) (qz 40) (qz 6000))) = Some (true, NoFailure) /\
  option_map (fun v => (sim_valid (SRunning v), sim_failure (SRunning v))) (C118_running (sim_constraints C118_world C118_limited (qz 10) (qz 40) (qz 20000))) = Some (false, AboveMaximumFlow) /\
  option_map (fun v => (sim_valid (SRunning v), sim_failure (SRunning v))) (C118_running (sim_constraints C118_world (C118_train (Some (qc 1 100000))) (qz 10) (qz 40) (qz 6000))) =
    Some (false, AboveMaximumPower).
Proof. split; [|split]; vm_compute; reflexivity. Qed.

(** C119: a train that need not increase the pressure may still use power. *)
Theorem C119_no_increase_refuted : exists w t suction rate v total, consistent_service (ph_service (w_physics w)) /\
  (forall st, In st (sn_stages t) -> regular_chart (si_chart st)) /\
  (forall n, w_root w 1 n = 1) /\
  sim_constraints w t suction suction rate = Return (SRunning v) /\ sim_valid (SRunning v) = true /\ sim_power (SRunning v) = Some total /\ 0 < total.
Proof. exact no_increase_refuted_proof. Qed.
Print Assumptions C119_no_increase_refuted.

(** C119: a train may be invalid although no failure is reported. *)
Theorem C119_unexplained_refuted : exists w t suction discharge rate v, consistent_service (ph_service (w_physics w)) /\
  (forall st, In st (sn_stages t) -> regular_chart (si_chart st)) /\
  raised (w_root w (discharge / suction) (length (sn_stages t))) (length (sn_stages t)) = discharge / suction /\
  sim_constraints w t suction discharge rate = Return (SRunning v) /\ sim_valid (SRunning v) = false /\ sim_power (SRunning v) = None /\
  sim_failure (SRunning v) = NoFailure.
Proof. exact unexplained_refuted_proof. Qed.
Print Assumptions C119_unexplained_refuted.

(** C119: a maximum power of 0 is no limit. *)
Theorem C119_no_power_refuted : exists w t suction discharge rate v total, consistent_service (ph_service (w_physics w)) /\
  sn_max_power t = Some 0 /\ sim_constraints w t suction discharge rate = Return (SRunning v) /\ sim_valid (SRunning v) = true /\
  sim_power (SRunning v) = Some total /\ 0 < total.
Proof. exact no_power_refuted_proof. Qed.
Print Assumptions C119_no_power_refuted.

(** ** C120: the maximum rate *)

(** C120: the maximum rate is the least of the rates that the stages can take at their inlet pressures and temperatures. *)
Theorem C120_maximum : forall w t suction discharge q,
  (forall st, In st (sn_stages t) -> regular_chart (si_chart st) /\ right_ends_rise (si_chart st)) ->
  sim_max_rate w t suction discharge = Return q ->
  let n := length (sn_stages t) in
  let ratio := w_root w (discharge / suction) n in
  (0 < n)%nat /\ 1 <= ratio /\ exists rates,
    length rates = n /\
    (forall i st x, nth_error (sn_stages t) i = Some st -> nth_error rates i = Some x ->
       stage_takes w (sn_model t) st ratio (suction * raised ratio i) x) /\
    In q rates /\ forall x, In x rates -> q <= x.
Proof. exact maximum_proof. Qed.
Print Assumptions C120_maximum.

Example C120_case : (forall st, In st (sn_stages C118_limited) -> regular_chart (si_chart st) /\ right_ends_rise (si_chart st)) /\
  match sim_max_rate C118_world C118_limited (qz 10) (qz 40) with Return q => Some (this q) | Raise _ => None end = Some (6643569600 # 802123)%Q.
Proof.
  split; [|vm_compute; reflexivity]. intros st H. split; [exact (C118_regular _ st H)|]. destruct H as [<-|[<-|[]]]; exact C118_rises.
Qed.

(** C120: the rate that a stage can take lies between the least and the greatest of its chart. *)
Theorem C120_on_the_chart : forall w cs inlet ratio a, rate_found w cs inlet ratio a ->
  (exists c p, In c cs /\ In p (cv_points c) /\ a <= p_rate p) /\ (exists c p, In c cs /\ In p (cv_points c) /\ p_rate p <= a).
Proof. exact on_the_chart_proof. Qed.
Print Assumptions C120_on_the_chart.

(** C120: pressures that are not positive give a maximum rate of 0, a train that would lower the pressure gives none; otherwise the maximum rate is reported. *)
Theorem C120_reported : forall w t suction discharge,
  ((suction <= 0 \/ discharge <= 0) -> sim_max_rate_reported w t suction discharge = Return (Some 0)) /\
  (0 < suction -> 0 < discharge ->
     (forall q, sim_max_rate_reported w t suction discharge = Return (Some q) <-> sim_max_rate w t suction discharge = Return q) /\
     (sn_stages t = [] -> sim_max_rate_reported w t suction discharge = Raise ValueErr) /\
     (forall st rest props, sn_stages t = st :: rest -> w_root w (discharge / suction) (length (sn_stages t)) < 1 ->
        flash_pt (ph_service (w_physics w)) (sn_model t) suction (si_temperature st) = Return props ->
        sim_max_rate_reported w t suction discharge = Return None)).
Proof. exact reported_proof. Qed.
Print Assumptions C120_reported.

Example C120_reported_case : sim_max_rate_reported C118_world C118_limited 0 (qz 40) = Return (Some 0) /\
  sim_max_rate_reported C118_world C118_limited (qz 10) (qz 8) = Return None /\
  w_root C118_world (qz 8 / qz 10) 2 < 1.
Proof. split; [|split]; vm_compute; reflexivity. Qed.

(** C120: the maximum power plays no part in the maximum rate. *)
Theorem C120_power_ignored_refuted : exists w t suction discharge q rate v, consistent_service (ph_service (w_physics w)) /\
  (forall st, In st (sn_stages t) -> regular_chart (si_chart st) /\ right_ends_rise (si_chart st)) /\
  raised (w_root w (discharge / suction) (length (sn_stages t))) (length (sn_stages t)) = discharge / suction /\
  sim_max_rate w t suction discharge = Return q /\ 0 < rate /\ rate < q /\
  sim_constraints w t suction discharge rate = Return (SRunning v) /\ sim_valid (SRunning v) = false /\ sim_failure (SRunning v) = AboveMaximumPower.
Proof. exact power_ignored_refuted_proof. Qed.
Print Assumptions C120_power_ignored_refuted.

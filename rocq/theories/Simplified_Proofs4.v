(** Proofs about simplified trains: what is reported of a stage; examples and refuted expectations. *)
From Coq Require Import List Bool ZArith Lia Sorted.
From Verif Require Import QcTac Base Num Search_Model Stream_Model Stream_Spec Stream_Props Process_Model Chart_Model Chart_Spec Chart_Proofs2 Compressor_Spec
  Compressor_Proofs4 Compressor_Proofs7 Compressor_Props Train_Model
  Simplified_Model Simplified_Spec Simplified_Proofs Simplified_Proofs2 Simplified_Proofs3.
From Verif Require Compressor_Model Process_Proofs2.
Import ListNotations.
Local Open Scope list_scope.
Local Open Scope Qc_scope.

Lemma found_efficiency : forall w cs inlet p e head lo hi, (forall l x y, 0 <= fst (w_closest w l x y)) -> cs <> [] -> Forall proper_curve cs ->
  (forall c x, In c cs -> In x (cv_eff c) -> lo <= x /\ x <= hi) -> head_found w cs inlet p e head -> lo <= e /\ e <= hi.
Proof.
  intros w cs inlet p e head lo hi D N F B (i & before & z & kappa & _ & [E _] & _).
  destruct (efficiency_bounds_proof (w_closest w) (w_std w) D cs (s_mass_rate inlet / s_density inlet) before lo hi N F B) as (x & E' & X).
  rewrite E in E'. injection E' as <-. exact X.
Qed.
Lemma max_right : forall a b, b <= Qcmax a b.
Proof. intros a b. qc_cases; qc_lra. Qed.
Lemma stage_work : forall w st ratio x r lo hi, (forall l x y, 0 <= fst (w_closest w l x y)) -> regular_chart (si_chart st) -> 0 < s_mass_rate x -> 0 < lo ->
  (forall c e, In c (si_chart st) -> In e (cv_eff c) -> lo <= e /\ e <= hi) ->
  stage_to_ratio w st ratio x = Return r ->
  exists e, ss_efficiency r = Some e /\ lo <= e /\ e <= hi /\ ss_head r = Some (ss_change r * e) /\ ss_change_before r <= ss_change r /\
    forall p, ss_power r = Some p -> p = megawatt (s_mass_rate (ss_inlet_asv r)) (ss_change r).
Proof.
  intros w st ratio x r lo hi D R M L B E. unfold stage_to_ratio in E. cbv zeta in E.
  destruct (obind_inv _ _ _ _ _ E) as (f & E1 & E2); clear E.
  destruct (obind_inv _ _ _ _ _ E2) as (inlet & E3 & E4); clear E2.
  unfold create_fluid in E1. destruct (obind_inv _ _ _ _ _ E1) as (props & E5 & E6); clear E1. injection E6 as <-.
  apply new_stream_inv in E3. destruct E3 as [E3 _].
  assert (M' : 0 < s_mass_rate inlet) by (rewrite E3; exact M).
  apply Qcltb_lt in M'. rewrite M' in E4.
  destruct (obind_inv _ _ _ _ _ E4) as ([change eff] & E7 & E8); clear E4.
  destruct (obind_inv _ _ _ _ _ E8) as (c & E9 & E10); clear E8.
  apply chart_call_inv in E9. destruct (head_iteration_inv _ _ _ _ _ _ E7) as (head & -> & Z & H).
  assert (HH : work head eff * eff = head) by (unfold work; field; exact Z). rewrite HH in E9.
  destruct (C68_capacity (si_chart st) (volumetric_rate inlet) head R) as (c' & m & k & h & e & C1 & C2 & C3 & C4 & C5 & C6 & _).
  assert (c' = c) by congruence. subst c'.
  pose proof R as ((N & PC & _) & _).
  destruct (found_efficiency w (si_chart st) inlet (s_pressure x * ratio) eff head lo hi D N) as [B1 B2]; [|exact B|exact H|].
  { apply Forall_forall. intros d Hd. exact (proj1 (PC d Hd)). }
  destruct (finish_inv _ _ _ _ _ _ _ _ _ _ _ _ _ E10) as (out & F1 & F2 & F3 & F4 & F5 & F6 & F7 & F8 & F9 & F10 & F11 & F12 & F13).
  exists eff. split; [exact F11|]. split; [exact B1|]. split; [exact B2|].
  split; [|split].
  - rewrite F12. unfold finish_stage in E10. destruct (obind_inv _ _ _ _ _ E10) as (pr & _ & E11).
    destruct (obind_inv _ _ _ _ _ E11) as (ou & _ & E12). cbv zeta in E12. destruct (obind_inv _ _ _ _ _ E12) as (a & _ & E13).
    destruct (obind_inv _ _ _ _ _ E13) as (b & _ & E14). injection E14 as <-. reflexivity.
  - rewrite F12, F13, C6. unfold work. pose proof (Qclt_le_trans _ _ _ L B1) as P.
    pose proof (max_right k head) as Q. unfold Qcdiv. apply Qcmult_le_compat_r; [exact Q|].
    apply Qclt_le_weak. exact (Process_Proofs2.inv_pos eff P).
  - intros p Ep. rewrite F6 in Ep. rewrite F12, F4. cbn [s_mass_rate]. destruct (Compressor_Model.ca_exceeds c); [discriminate Ep|]. injection Ep as <-.
    apply megawatt_is.
Qed.
Theorem reported_work_proof : forall w t suction discharge rate v lo hi, consistent_service (ph_service (w_physics w)) -> (forall l x y, 0 <= fst (w_closest w l x y)) ->
  (forall st, In st (sn_stages t) -> regular_chart (si_chart st)) -> 0 < lo ->
  (forall st c e, In st (sn_stages t) -> In c (si_chart st) -> In e (cv_eff c) -> lo <= e /\ e <= hi) ->
  sim_constraints w t suction discharge rate = Return (SRunning v) ->
  forall r, In r (sv_stages v) -> exists e, ss_efficiency r = Some e /\ lo <= e /\ e <= hi /\
    ss_head r = Some (ss_change r * e) /\ ss_change_before r <= ss_change r /\
    forall p, ss_power r = Some p -> p = megawatt (s_mass_rate (ss_inlet_asv r)) (ss_change r).
Proof.
  intros w t suction discharge rate v lo hi C D R L B E r H.
  destruct (sim_inv _ _ _ _ _ _ E) as (st & rest & x & S & _ & _ & M & RS & _).
  destruct (run_inv _ _ C _ _ _ RS) as (LN & N). apply In_nth_error in H. destruct H as (i & Hi).
  destruct (nth_error (sn_stages t) i) as [st'|] eqn:Hs.
  - destruct (N i st' r Hs Hi) as (y & _ & My & _ & Ey). pose proof (nth_error_In _ _ Hs) as I.
    exact (stage_work w st' _ y r lo hi D (R st' I) ltac:(rewrite My; exact M) L (fun c e => B st' c e I) Ey).
  - apply nth_error_None in Hs. assert (X : nth_error (sv_stages v) i <> None) by congruence. apply nth_error_Some in X. lia.
Qed.

(** ** Examples *)
Definition C118_world : world :=
  mk_world (mk_physics C43_service (fun _ _ _ _ _ _ p => Some p))
    (fun x n => if Qceqb x (qz 4) then qz 2 else if Qceqb x (qz 25) then qz 5 else x)
    (fun r x => 1 + (r - 1) * x * qc 7 10000)
    (fun l x y => match l with p :: _ => (Qcabs (snd p - y), p) | [] => (0, (0, 0)) end) (fun l => 1).
Definition C118_train (limit : option Qc) : sim_train :=
  mk_sim_train [mk_sim_stage chart_example (qz 300); mk_sim_stage chart_example (qz 310)] (mk_model SRK C43_methane) limit.
Definition C118_running (x : outcome sim_evaluation) : option sim_running := match x with Return (SRunning v) => Some v | _ => None end.
Definition C118_shows (v : sim_running) : list (Q * Q * option Q * area_flag) :=
  map (fun r => (this (s_pressure (ss_inlet r)), this (s_pressure (ss_outlet r)), option_map this (ss_power r), ss_flag r)) (sv_stages v).

Lemma C118_consistent : consistent_service (ph_service (w_physics C118_world)).
Proof. exact C43_service_consistent. Qed.
Lemma C118_regular : forall limit st, In st (sn_stages (C118_train limit)) -> regular_chart (si_chart st).
Proof. intros limit st [<-|[<-|[]]]; exact example_regular. Qed.
Lemma C118_rises : right_ends_rise chart_example.
Proof.
  intros c0 c1 p0 p S0 S1 [L0 _] H. unfold slowest, fastest in *. injection S0 as <-. injection S1 as <-.
  destruct L0 as [<-|[<-|[]]]; destruct H as [<-|[<-|[]]]; vm_compute; reflexivity.
Qed.


Lemma C118_nonnegative : forall l x y, 0 <= fst (w_closest C118_world l x y).
Proof. intros l x y. cbn [C118_world w_closest]. destruct l as [|p l]; cbn [fst]; [apply Qcle_refl|]. qc_cases; qc_lra. Qed.

(** a running train with a property that is computed *)
Lemma running_such : forall (f : sim_running -> bool) x, match x with Return (SRunning v) => f v | _ => false end = true ->
  exists v, x = Return (SRunning v) /\ f v = true.
Proof. intros f [[n|v]|e] H; try discriminate H. exists v. auto. Qed.

Theorem no_increase_refuted_proof : exists w t suction rate v total, consistent_service (ph_service (w_physics w)) /\
  (forall st, In st (sn_stages t) -> regular_chart (si_chart st)) /\
  (forall n, w_root w 1 n = 1) /\
  sim_constraints w t suction suction rate = Return (SRunning v) /\ sim_valid (SRunning v) = true /\ sim_power (SRunning v) = Some total /\ 0 < total.
Proof.
  exists C118_world, (C118_train None), (qz 10), (qz 6000).
  destruct (running_such (fun v => match sim_power (SRunning v) with Some t => sim_valid (SRunning v) && Qcltb 0 t | None => false end)
    (sim_constraints C118_world (C118_train None) (qz 10) (qz 10) (qz 6000)) ltac:(vm_compute; reflexivity)) as (v & E & P). cbv beta in P.
  exists v. destruct (sim_power (SRunning v)) as [total|]; [|discriminate P]. apply andb_prop in P. destruct P as [P1 P2]. apply Qcltb_lt in P2.
  exists total. split; [exact C118_consistent|]. split; [exact (C118_regular None)|]. split; [reflexivity|]. auto.
Qed.

Definition failure_dec : forall a b : failure, {a = b} + {a <> b}. Proof. decide equality. Defined.
Definition is_failure (a b : failure) : bool := if failure_dec a b then true else false.

Theorem unexplained_refuted_proof : exists w t suction discharge rate v, consistent_service (ph_service (w_physics w)) /\
  (forall st, In st (sn_stages t) -> regular_chart (si_chart st)) /\
  raised (w_root w (discharge / suction) (length (sn_stages t))) (length (sn_stages t)) = discharge / suction /\
  sim_constraints w t suction discharge rate = Return (SRunning v) /\ sim_valid (SRunning v) = false /\ sim_power (SRunning v) = None /\
  sim_failure (SRunning v) = NoFailure.
Proof.
  exists C118_world, (C118_train None), (qz 10), (qz 250), (qz 3000).
  destruct (running_such (fun v => match sim_power (SRunning v) with None => negb (sim_valid (SRunning v)) && is_failure (sim_failure (SRunning v)) NoFailure | Some _ => false end)
    (sim_constraints C118_world (C118_train None) (qz 10) (qz 250) (qz 3000)) ltac:(vm_compute; reflexivity)) as (v & E & P). cbv beta in P.
  exists v. destruct (sim_power (SRunning v)) as [total|]; [discriminate P|]. apply andb_prop in P. destruct P as [P1 P2].
  split; [exact C118_consistent|]. split; [exact (C118_regular None)|]. split; [apply Qc_is_canon; vm_compute; reflexivity|]. split; [exact E|].
  split; [now destruct (sim_valid (SRunning v))|]. split; [reflexivity|]. unfold is_failure in P2. destruct (failure_dec _ _) as [X|X]; [exact X|discriminate P2].
Qed.

Theorem power_ignored_refuted_proof : exists w t suction discharge q rate v, consistent_service (ph_service (w_physics w)) /\
  (forall st, In st (sn_stages t) -> regular_chart (si_chart st) /\ right_ends_rise (si_chart st)) /\
  raised (w_root w (discharge / suction) (length (sn_stages t))) (length (sn_stages t)) = discharge / suction /\
  sim_max_rate w t suction discharge = Return q /\ 0 < rate /\ rate < q /\
  sim_constraints w t suction discharge rate = Return (SRunning v) /\ sim_valid (SRunning v) = false /\ sim_failure (SRunning v) = AboveMaximumPower.
Proof.
  exists C118_world, (C118_train (Some (qc 1 100000))), (qz 10), (qz 40).
  destruct (sim_max_rate C118_world (C118_train (Some (qc 1 100000))) (qz 10) (qz 40)) as [q|e] eqn:Q.
  2:{ assert (X : match sim_max_rate C118_world (C118_train (Some (qc 1 100000))) (qz 10) (qz 40) with Raise _ => false | Return _ => true end = true) by (vm_compute; reflexivity).
      rewrite Q in X. discriminate X. }
  exists q, (qz 6000).
  assert (L : match sim_max_rate C118_world (C118_train (Some (qc 1 100000))) (qz 10) (qz 40) with Raise _ => false | Return q => Qcltb (qz 6000) q end = true) by (vm_compute; reflexivity).
  rewrite Q in L. apply Qcltb_lt in L.
  destruct (running_such (fun v => negb (sim_valid (SRunning v)) && is_failure (sim_failure (SRunning v)) AboveMaximumPower)
    (sim_constraints C118_world (C118_train (Some (qc 1 100000))) (qz 10) (qz 40) (qz 6000)) ltac:(vm_compute; reflexivity)) as (v & E & P). cbv beta in P.
  exists v. apply andb_prop in P. destruct P as [P1 P2].
  split; [exact C118_consistent|]. split; [intros st H; split; [exact (C118_regular _ st H)|destruct H as [<-|[<-|[]]]; exact C118_rises]|].
  split; [apply Qc_is_canon; vm_compute; reflexivity|]. split; [reflexivity|]. split; [vm_compute; reflexivity|]. split; [exact L|]. split; [exact E|].
  split; [now destruct (sim_valid (SRunning v))|]. unfold is_failure in P2. destruct (failure_dec _ _) as [X|X]; [exact X|discriminate P2].
Qed.

Theorem no_power_refuted_proof : exists w t suction discharge rate v total, consistent_service (ph_service (w_physics w)) /\
  sn_max_power t = Some 0 /\ sim_constraints w t suction discharge rate = Return (SRunning v) /\ sim_valid (SRunning v) = true /\
  sim_power (SRunning v) = Some total /\ 0 < total.
Proof.
  exists C118_world, (C118_train (Some 0)), (qz 10), (qz 40), (qz 6000).
  destruct (running_such (fun v => match sim_power (SRunning v) with Some t => sim_valid (SRunning v) && Qcltb 0 t | None => false end)
    (sim_constraints C118_world (C118_train (Some 0)) (qz 10) (qz 40) (qz 6000)) ltac:(vm_compute; reflexivity)) as (v & E & P). cbv beta in P.
  exists v. destruct (sim_power (SRunning v)) as [total|]; [|discriminate P]. apply andb_prop in P. destruct P as [P1 P2]. apply Qcltb_lt in P2.
  exists total. split; [exact C118_consistent|]. split; [reflexivity|]. auto.
Qed.

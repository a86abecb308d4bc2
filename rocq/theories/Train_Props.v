(** The properties of compressor trains on a common shaft: a stage and its recirculation (C76), power (C77), splitting a stream (C78), the
    common speed (C79), what enters and leaves (C80), the statement about the pressures (C81), validity (C82), independence of earlier
    evaluations (C83), the maximum rate (C84), a train that stands still (C85), recirculation under the pressure controls (C86), root
    finding (C87) and the rates of a train cut in two (C88).

    Every theorem is closed by the proof in the [Train_Proofs] files. *)
From Coq Require Import List Bool ZArith Lia.
From Verif Require Import QcTac Base Num Search_Model Stream_Model Stream_Spec Flash_Model Process_Model Process_Spec Process_Proofs Stream_Props Train_Model Train_Spec Train_Spec2
  Train_Proofs8 Train_Proofs9 Train_Proofs10 Train_Proofs11 Train_Proofs12 Train_Proofs13 Train_Proofs14.
Import ListNotations.
Local Open Scope Qc_scope.

(** ** A small plant for the examples: the discharge pressure is the suction pressure and a thousandth of the head, the chart of a stage
    has speeds 10 to 20, rates 5 to 20, head 1000 (v - rate / 2) and efficiency 1/2; the root finder interpolates between the ends. *)
Definition C76_physics : physics := mk_physics C43_service (fun kappa e hd mm z t p => Some (p + hd / qz 1000)).
Definition C76_finder (lo hi tol : Qc) (n : nat) : Solver_Model.root_search :=
  Solver_Model.Probe lo (fun f0 => Solver_Model.Probe hi (fun f1 =>
    let x := if Qceqb f0 f1 then lo else lo - f0 * (hi - lo) / (f1 - f0) in
    Solver_Model.Found (if Qcltb x lo then lo else if Qcltb hi x then hi else x))).
Definition C76_env : environment := mk_env C76_physics C76_finder (fun x n => x) (fun x => x).
Definition C76_chart : tchart :=
  mk_tchart (qz 10) (qz 20) (fun v => qz 5) (fun v => qz 20) (qz 5) (qz 20)
    (fun v rate rate0 => Return (mk_point (qz 1000 * (v - rate / qz 2)) (qc 1 2) Compressor_Model.InternalPoint true)) true.
Definition C76_stage (i : nat) (controls : option (control * control)) : stage :=
  mk_stage i C76_chart (qz 300) false 0 None None controls.
Definition C76_model : fluid_model := mk_model SRK C43_methane.
Definition C76_train (stages : list stage) (k : option control) (power limit : option Qc) (number : option nat) : train :=
  mk_train stages [Some C76_model] k power limit number true.
Definition C76_fresh : tstate := mk_tstate None (fun _ => mk_modifier 0 None None).
Definition C76_want (discharge rate : Qc) : constraints := mk_constraints (qz 30) (Some discharge) None [rate].
Lemma C76_bracketing : bracketing C76_env.
Proof.
  intros lo hi tol n L. cbn [e_finder C76_env]. unfold C76_finder. constructor. intros f0. constructor. intros f1. cbv zeta.
  set (x := if Qceqb f0 f1 then lo else _). clearbody x. destruct (Qcltb x lo) eqn:A; [|destruct (Qcltb hi x) eqn:B].
  - constructor; [apply Qcle_refl|exact L].
  - constructor; [exact L|apply Qcle_refl].
  - apply Qcltb_ge in A. apply Qcltb_ge in B. constructor; assumption.
Qed.
Lemma C76_consistent : consistent_service (ph_service (e_physics C76_env)).
Proof. exact C43_service_consistent. Qed.
Definition C76_run (p : outcome evaluation * tstate) (check : train_result -> bool) : bool :=
  match fst p with Return (Running r) => check r | _ => false end.
Lemma C76_runs : forall p check, C76_run p check = true -> exists r s, p = (Return (Running r), s) /\ check r = true.
Proof. intros [[[n|r]|e] s] check; cbn [C76_run fst]; try discriminate. intros H. exists r, s. split; [reflexivity|exact H]. Qed.
(** mass in, pressure out, speed, power, and for every stage the actual rate that comes in, the one in the compressor and the pressure out *)
Definition C76_check (mass pressure speed power : Qc) (stages : list (Qc * Qc * Qc)) (r : train_result) : bool :=
  Qceqb (s_mass_rate (tr_inlet r)) mass && Qceqb (s_pressure (tr_outlet r)) pressure &&
  match tr_speed r with Some v => Qceqb v speed | None => false end && Qceqb (ev_power (Running r)) power &&
  Nat.eqb (length (tr_stages r)) (length stages) &&
  forallb (fun p => Qceqb (actual_rate (sr_inlet (fst p))) (fst (fst (snd p))) && Qceqb (actual_rate (sr_inlet_asv (fst p))) (snd (fst (snd p))) &&
                    Qceqb (s_pressure (sr_outlet (fst p))) (snd (snd p)) && Qcltb 0 (s_density (sr_inlet (fst p))))
    (combine (tr_stages r) stages).
Definition C76_status (x : pressure_status) (r : train_result) : bool :=
  match x, tr_status r with
  | PressuresMet, PressuresMet | BelowDischarge, BelowDischarge | AboveDischarge, AboveDischarge | AboveIntermediate, AboveIntermediate => true
  | _, _ => false
  end.
Definition C76_one (k : control) : train := C76_train [C76_stage 0 None] (Some k) None None None.
Definition C76_two (k : control) : train := C76_train [C76_stage 0 None; C76_stage 1 None] (Some k) None None None.
Definition C76_three (n : nat) (k : control) : train :=
  C76_train [C76_stage 0 None; C76_stage 1 (Some (k, k)); C76_stage 2 (Some (k, k))] None None None (Some n).
Definition C76_middle (p discharge : Qc) : constraints := mk_constraints (qz 30) (Some discharge) (Some p) [qz 18000].

(** ** C76: the rate through the compressor of a stage *)
(** the compressor handles what comes in and what was asked to go around, but at least the smallest rate of the chart at its speed *)
Theorem C76_recirculates : forall e st rates streams x s r s', stage_evaluate e st rates streams x s = (Return r, s') ->
  settled (t_mod s (st_id st)) -> 0 < s_density (sr_inlet r) -> exists v, t_speed s = Some v /\
    actual_rate (sr_inlet_asv r) =
       larger (tc_min_rate (st_chart st) v)
         (asked_rate (t_mod s (st_id st)) (actual_rate (sr_inlet r)) (s_density (sr_inlet r)) (tc_max_rate (st_chart st) v)).
Proof. exact stage_recirculates. Qed.
Print Assumptions C76_recirculates.
(** a stage that answers runs at the speed of the shaft on its chart, and keeps the fluid *)
Theorem C76_runs_at : forall e st rates streams x s r s', stage_evaluate e st rates streams x s = (Return r, s') ->
  settled (t_mod s (st_id st)) -> exists v, t_speed s = Some v /\ stage_at v st r /\ energy_balance r.
Proof. exact stage_runs. Qed.
Print Assumptions C76_runs_at.
Definition C76_asked (i : nat) : modifier := match i with 0%nat => mk_modifier 0 (Some (qz 100)) None | _ => mk_modifier 0 None (Some (qc 1 4)) end.
Definition C76_state : tstate := mk_tstate (Some (qz 18)) C76_asked.
Definition C76_around (i : nat) (mass rate : Qc) : bool :=
  match fst (stage_evaluate C76_env (C76_stage i None) None None (C43_stream C43_methane (qz 30) (qz 300) mass) C76_state) with
  | Return r => Qcltb 0 (s_density (sr_inlet r)) && Qceqb (actual_rate (sr_inlet_asv r)) rate
  | Raise _ => false
  end.
(** 600 kg/h are 12 am3/h: with 100 kg/h, or a quarter of the room up to 20, going around these are 14, and 50 kg/h are kept at 5 *)
Example C76_case : (forall i, settled (t_mod C76_state i)) /\ C76_around 0 (qz 600) (qz 14) = true /\ C76_around 1 (qz 600) (qz 14) = true /\
  C76_around 0 (qz 50) (qz 5) = true.
Proof. split; [intros [|i]; [right|left]; reflexivity|]. repeat split; vm_compute; reflexivity. Qed.

(** ** C77: power *)
(** the power of a stage is that of the rate that comes in and the loss of the recirculation *)
Theorem C77_loss : forall e st rates streams x s r s', stage_evaluate e st rates streams x s = (Return r, s') ->
  sr_power r = megawatts (sr_head r / sr_eff r) (s_mass_rate (sr_inlet r)) + sr_loss r.
Proof. exact stage_loss. Qed.
Print Assumptions C77_loss.
(** the power of a train is the sum of mass rate times head over efficiency of its stages *)
Theorem C77_train : forall e t c s r s', evaluate_constraints e t c s = (Return (Running r), s') ->
  ev_power (Running r) = fold_right Qcplus 0 (map (fun x => megawatts (sr_head x / sr_eff x) (s_mass_rate (sr_inlet_asv x))) (tr_stages r)).
Proof. exact evaluate_power. Qed.
Print Assumptions C77_train.
Example C77_case : exists r s, evaluate_constraints C76_env (C76_one IndividualRate) (C76_want (qz 33) (qz 18000)) C76_fresh = (Return (Running r), s) /\
  C76_check (qz 600) (qz 33) (qz 10) (qc 7 6000) [(qz 12, qz 14, qz 33)] r = true.
Proof. apply C76_runs. vm_compute. reflexivity. Qed.

(** ** C78: splitting a stream *)
(** the parts have the fluid and together the mass of the stream *)
Theorem C78_conserves : forall n rates x l, split n (Some rates) x = Return l ->
  length l = S (length rates) /\ Forall (fun y => s_fluid y = s_fluid x) l /\ fold_right Qcplus 0 (map s_mass_rate l) = s_mass_rate x.
Proof. exact split_conserves. Qed.
Print Assumptions C78_conserves.
(** and the rates that were asked for, when there is enough *)
Theorem C78_honours : forall n rates x l, split n (Some rates) x = Return l -> 0 < s_standard_density x ->
  fold_right Qcplus 0 rates <= standard_rate x ->
  map standard_rate l = rates ++ [standard_rate x - fold_right Qcplus 0 rates].
Proof. exact split_honours. Qed.
Print Assumptions C78_honours.
(** when there is not enough, less is given than was asked for and no error is raised *)
Theorem C78_too_much_refuted : exists n rates x l, 0 < s_standard_density x /\ split n (Some rates) x = Return l /\ firstn (length rates) (map standard_rate l) <> rates.
Proof.
  set (x := C43_stream C43_methane (qz 30) (qz 300) (qz 600)).
  destruct (split 2 (Some [qz 24000]) x) as [l|e] eqn:E; [|vm_compute in E; discriminate].
  exists 2%nat, [qz 24000], x, l. split; [vm_compute; reflexivity|]. split; [exact E|]. intros H.
  assert (C : match split 2 (Some [qz 24000]) x with
              | Return l => match map standard_rate l with r :: _ => Qceqb r (qz 18000) | [] => false end
              | Raise _ => false end = true) by (vm_compute; reflexivity).
  rewrite E in C. destruct (map standard_rate l) as [|r rest]; [discriminate|]. cbn [length firstn] in H. injection H as ->.
  vm_compute in C. discriminate.
Qed.
Print Assumptions C78_too_much_refuted.
Example C78_case : let x := C43_stream C43_methane (qz 30) (qz 300) (qz 600) in
  0 < s_standard_density x /\ fold_right Qcplus 0 [qz 3000; qz 6000] <= standard_rate x /\ exists l, split 3 (Some [qz 3000; qz 6000]) x = Return l.
Proof.
  cbv zeta. split; [vm_compute; reflexivity|]. split; [vm_compute; discriminate|].
  destruct (split 3 _ _) as [l|e] eqn:E; [exists l; reflexivity|vm_compute in E; discriminate].
Qed.

(** ** C79: the common speed *)
(** there is one speed, within the speeds of every chart, and every stage runs on its chart at that speed *)
Theorem C79_speed : forall e t c s r s', evaluate_constraints e t c s = (Return (Running r), s') ->
  exists v, tr_speed r = Some v /\ Forall2 (stage_at v) (tn_stages t) (tr_stages r) /\ Forall energy_balance (tr_stages r).
Proof. exact evaluate_speed. Qed.
Print Assumptions C79_speed.
(** two pressures: the speed of the part that needs most is the speed of all stages *)
Example C79_case : exists r s, evaluate_constraints C76_env (C76_three 1 UpstreamChoking) (C76_middle (qz 40) (qz 51)) C76_fresh = (Return (Running r), s) /\
  C76_check (qz 600) (qz 51) (qz 16) (qc 1 100) [(qz 12, qz 12, qz 40); (qz 12, qz 12, qz 41); (qz 12, qz 12, qz 51)] r &&
  C76_status PressuresMet r = true.
Proof. apply C76_runs. vm_compute. reflexivity. Qed.

(** the range of speeds of a train is the common range of its charts: the highest of the lowest speeds to the lowest of the highest *)
Theorem C79_range : forall t lo hi, min_speed t = Return lo -> max_speed t = Return hi ->
  (forall v, lo <= v /\ v <= hi <-> forall st, In st (tn_stages t) -> tc_min_speed (st_chart st) <= v /\ v <= tc_max_speed (st_chart st)) /\
  (exists st, In st (tn_stages t) /\ lo = tc_min_speed (st_chart st)) /\ (exists st, In st (tn_stages t) /\ hi = tc_max_speed (st_chart st)).
Proof. exact speed_range_proof. Qed.
Print Assumptions C79_range.
Example C79_range_case : exists lo hi, min_speed (C76_three 1 UpstreamChoking) = Return lo /\ max_speed (C76_three 1 UpstreamChoking) = Return hi /\ lo < hi.
Proof. eexists. eexists. split; [reflexivity|]. split; reflexivity. Qed.

(** ** C80: what enters and leaves *)
(** the train takes in its fluid at the suction pressure and at the standard rate of the request *)
Theorem C80_inlet : forall e t c s r s' rate rest, evaluate_constraints e t c s = (Return (Running r), s') ->
  c_rates c = rate :: rest -> no_common t -> takes_in e t c rate r.
Proof. exact evaluate_inlet. Qed.
Print Assumptions C80_inlet.
(** and with one stream the same mass rate enters and leaves the train and every stage *)
Theorem C80_carries : forall e t c s r s' rate rest m ms, evaluate_constraints e t c s = (Return (Running r), s') ->
  c_rates c = rate :: rest -> no_common t -> plain t -> consistent_service (ph_service (e_physics e)) -> tn_models t = Some m :: ms ->
  carries m (rate * standard_density_of (ph_service (e_physics e)) m / qz 24) r.
Proof. exact evaluate_carries. Qed.
Print Assumptions C80_carries.
Lemma C80_hypotheses : forall k, k <> CommonRecirculation -> no_common (C76_two k) /\ plain (C76_two k) /\ tn_models (C76_two k) = [Some C76_model].
Proof.
  intros k K. split; [|split; [|reflexivity]].
  - split; [cbn; congruence|]. intros st c [<- | [<- | []]]; discriminate.
  - repeat constructor.
Qed.
Example C80_case : no_common (C76_two DownstreamChoking) /\ plain (C76_two DownstreamChoking) /\ consistent_service (ph_service (e_physics C76_env)) /\
  exists r s, evaluate_constraints C76_env (C76_two DownstreamChoking) (C76_want (qz 33) (qz 18000)) C76_fresh = (Return (Running r), s) /\
  Qceqb (s_mass_rate (tr_inlet r)) (qz 600) && Qceqb (s_pressure (tr_outlet r)) (qz 33) = true.
Proof.
  destruct (C80_hypotheses DownstreamChoking ltac:(discriminate)) as (A & B & _). split; [exact A|]. split; [exact B|]. split; [exact C76_consistent|].
  apply C76_runs. vm_compute. reflexivity.
Qed.
(** the common recirculation reports, for a pressure it cannot reach, another rate than the one requested *)
Theorem C80_common_refuted : exists e t c s r s' rate rest, evaluate_constraints e t c s = (Return (Running r), s') /\ c_rates c = rate :: rest /\
  plain t /\ consistent_service (ph_service (e_physics e)) /\ ~ takes_in e t c rate r.
Proof.
  destruct (C76_runs (evaluate_constraints C76_env (C76_one CommonRecirculation) (C76_want (qz 29) (qz 18000)) C76_fresh)
    (fun r => Qcltb (qz 999) (s_mass_rate (tr_inlet r))) ltac:(vm_compute; reflexivity)) as (r & s & E & C).
  exists C76_env, (C76_one CommonRecirculation), (C76_want (qz 29) (qz 18000)), C76_fresh, r, s, (qz 18000), []. split; [exact E|]. split; [reflexivity|].
  split; [repeat constructor|]. split; [exact C76_consistent|]. intros H. destruct (H _ _ _ _ eq_refl eq_refl) as (f & _ & _ & M). rewrite M in C.
  vm_compute in C. discriminate.
Qed.
Print Assumptions C80_common_refuted.

(** ** C81: what is said about the pressures *)
(** the statement about the pressures is true of the pressures that are reported *)
Theorem C81_truthful : forall e t c s r s', evaluate_constraints e t c s = (Return (Running r), s') -> truthful t c r.
Proof. exact evaluate_truthful. Qed.
Print Assumptions C81_truthful.
Example C81_met : exists r s, evaluate_constraints C76_env (C76_two UpstreamChoking) (C76_want (qz 33) (qz 18000)) C76_fresh = (Return (Running r), s) /\
  C76_status PressuresMet r = true.
Proof. apply C76_runs. vm_compute. reflexivity. Qed.
Example C81_above : exists r s, evaluate_constraints C76_env (C76_three 2 IndividualRate) (C76_middle (qz 50) (qz 55)) C76_fresh = (Return (Running r), s) /\
  C76_status AboveDischarge r = true.
Proof. apply C76_runs. vm_compute. reflexivity. Qed.
Example C81_intermediate : exists r s, evaluate_constraints C76_env (C76_three 1 DownstreamChoking) (C76_middle (qz 40) (qz 61)) C76_fresh = (Return (Running r), s) /\
  C76_status AboveIntermediate r = true.
Proof. apply C76_runs. vm_compute. reflexivity. Qed.
(** a request for two pressures that makes sense is not always answered: the two parts of the train look for the stage of the
    intermediate pressure in themselves *)
Theorem C81_two_pressures_refuted : exists e t c s n p, consistent_service (ph_service (e_physics e)) /\ plain t /\ c_interstage c = Some p /\
  tn_stage_number t = Some n /\ (1 <= n < length (tn_stages t))%nat /\ c_suction c < p /\ (forall d, c_discharge c = Some d -> p < d) /\
  fst (evaluate_constraints e t c s) = Raise IndexErr.
Proof.
  exists C76_env, (C76_three 2 DownstreamChoking), (C76_middle (qz 50) (qz 55)), C76_fresh, 2%nat, (qz 50).
  split; [exact C76_consistent|]. split; [repeat constructor|]. split; [reflexivity|]. split; [reflexivity|]. split; [cbn; lia|].
  split; [reflexivity|]. split; [intros d [= <-]; reflexivity|]. vm_compute. reflexivity.
Qed.
Print Assumptions C81_two_pressures_refuted.

(** ** C82: validity *)
(** a valid result is within the capacity of every stage, meets the pressures and keeps to the maximum power *)
Theorem C82_valid : forall e t c s r s', evaluate_constraints e t c s = (Return (Running r), s') -> ev_valid (Running r) = true ->
  Forall in_capacity (tr_stages r) /\
  (forall p, c_discharge c = Some p -> meets (s_pressure (tr_outlet r)) p) /\
  (forall p n, c_interstage c = Some p -> tn_stage_number t = Some n -> (1 <= n)%nat -> exists q, intermediate_pressure r n q /\ meets q p) /\
  (power_controlled t c -> forall limit, tn_max_power t = Some limit -> limit <> 0 -> ev_power (Running r) <= limit).
Proof. exact evaluate_valid. Qed.
Print Assumptions C82_valid.
(** and a result is invalid only for one of these reasons *)
Theorem C82_invalid : forall e t c s r s', evaluate_constraints e t c s = (Return (Running r), s') -> ev_valid (Running r) = false -> power_controlled t c ->
  Exists (fun x => ~ in_capacity x) (tr_stages r) \/ outlet_low c r \/ outlet_high c r \/ inlet_short r \/ middle_low t c r \/ middle_high t c r \/ too_powerful t r.
Proof. exact evaluate_fails. Qed.
Print Assumptions C82_invalid.
(** the reason that is reported is so *)
Theorem C82_reason : forall e t c s r s', evaluate_constraints e t c s = (Return (Running r), s') -> explained t c r (ev_failure (Running r)).
Proof. exact evaluate_failure. Qed.
Print Assumptions C82_reason.
Example C82_case : exists r s, evaluate_constraints C76_env (C76_one IndividualRate) (C76_want (qz 42) (qz 18000)) C76_fresh = (Return (Running r), s) /\
  ev_valid (Running r) = true.
Proof. apply (C76_runs _ (fun r => ev_valid (Running r))). vm_compute. reflexivity. Qed.
Example C82_case_invalid : exists r s,
  evaluate_constraints C76_env (C76_train [C76_stage 0 None] (Some DownstreamChoking) (Some (qc 1 1000)) None None) (C76_want (qz 33) (qz 18000)) C76_fresh =
    (Return (Running r), s) /\ negb (ev_valid (Running r)) && match ev_failure (Running r) with AboveMaximumPower => true | _ => false end = true.
Proof. apply (C76_runs _ (fun r => negb (ev_valid (Running r)) && match ev_failure (Running r) with AboveMaximumPower => true | _ => false end)). vm_compute. reflexivity. Qed.
(** with a pressure ratio of its own for every stage the maximum power is not looked at *)
Theorem C82_power_refuted : exists e t c s r s' limit, evaluate_constraints e t c s = (Return (Running r), s') /\ plain t /\ c_interstage c = None /\
  tn_max_power t = Some limit /\ 0 < limit /\ ev_valid (Running r) = true /\ limit < ev_power (Running r).
Proof.
  set (t := C76_train [C76_stage 0 None] (Some IndividualPressure) (Some (qc 1 1000)) None None).
  destruct (C76_runs (evaluate_constraints C76_env t (C76_want (qz 33) (qz 18000)) C76_fresh)
    (fun r => ev_valid (Running r) && Qcltb (qc 1 1000) (ev_power (Running r))) ltac:(vm_compute; reflexivity)) as (r & s & E & C).
  apply andb_prop in C. destruct C as (V & P). exists C76_env, t, (C76_want (qz 33) (qz 18000)), C76_fresh, r, s, (qc 1 1000). split; [exact E|].
  split; [repeat constructor|]. split; [reflexivity|]. split; [reflexivity|]. split; [reflexivity|]. split; [exact V|]. now apply Qcltb_lt.
Qed.
Print Assumptions C82_power_refuted.

(** ** C83: an evaluation does not depend on earlier ones *)
(** what was computed before does not matter, except for the speed of a shaft that cannot change it *)
Theorem C83_history : forall e t c s1 s2, tn_variable t = true \/ t_speed s1 = t_speed s2 ->
  fst (evaluate_constraints e t c s1) = fst (evaluate_constraints e t c s2).
Proof. exact evaluate_same. Qed.
Print Assumptions C83_history.
(** the answer for a period is the one for the period on its own *)
Theorem C83_periods : forall e t cs s l s' s0, evaluate_periods e t cs s = (Return l, s') ->
  (tn_variable t = true \/ exists v, t_speed s = Some v /\ t_speed s0 = Some v) ->
  Forall2 (fun c v => fst (evaluate_constraints e t c s0) = Return v) cs l.
Proof. exact periods_same. Qed.
Print Assumptions C83_periods.
(** a shaft that cannot change its speed keeps it *)
Theorem C83_fixed_speed : forall e t c s v, tn_variable t = false -> t_speed s = Some v ->
  t_speed (snd (evaluate_constraints e t c s)) = Some v.
Proof. exact evaluate_fixed_speed. Qed.
Print Assumptions C83_fixed_speed.
Definition C83_two_periods := [C76_want (qz 33) (qz 18000); C76_want (qz 42) (qz 18000)].
Example C83_case : tn_variable (C76_one IndividualRate) = true /\ exists l s, evaluate_periods C76_env (C76_one IndividualRate) C83_two_periods C76_fresh = (Return l, s) /\
  length l = 2%nat.
Proof.
  split; [reflexivity|]. destruct (evaluate_periods C76_env (C76_one IndividualRate) C83_two_periods C76_fresh) as [[l|e] s] eqn:E.
  - exists l, s. split; [reflexivity|].
    assert (L : match fst (evaluate_periods C76_env (C76_one IndividualRate) C83_two_periods C76_fresh) with Return l => Nat.eqb (length l) 2 | Raise _ => false end = true)
      by (vm_compute; reflexivity).
    rewrite E in L. apply Nat.eqb_eq. exact L.
  - assert (L : match fst (evaluate_periods C76_env (C76_one IndividualRate) C83_two_periods C76_fresh) with Return l => true | Raise _ => false end = true)
      by (vm_compute; reflexivity).
    rewrite E in L. discriminate.
Qed.

(** ** C84: the maximum standard rate *)
(** the maximum rate depends on the recirculation that the last evaluation left behind *)
Theorem C84_history_refuted : exists e t cs ps s, tn_variable t = true /\ plain t /\ (forall i, t_mod s i = mk_modifier 0 None None) /\
  fst (max_rates e t ps s) <> fst (max_rates e t ps (snd (evaluate_periods e t cs s))).
Proof.
  exists C76_env, (C76_one IndividualRate), [C76_want (qz 33) (qz 18000)], [(qz 30, qz 42)], C76_fresh. split; [reflexivity|]. split; [repeat constructor|].
  split; [reflexivity|]. intros H.
  assert (A : match fst (max_rates C76_env (C76_one IndividualRate) [(qz 30, qz 42)] C76_fresh) with
              | Return [Some x] => Qceqb x (qz 23976) | _ => false end = true) by (vm_compute; reflexivity).
  rewrite H in A. vm_compute in A. discriminate.
Qed.
Print Assumptions C84_history_refuted.
(** nothing else of the past matters *)
Theorem C84_recirculation : forall e t c s1 s2, tn_variable t = true \/ t_speed s1 = t_speed s2 ->
  (forall st, In st (tn_stages t) -> m_mass (t_mod s1 (st_id st)) = m_mass (t_mod s2 (st_id st)) /\
                                    m_fraction (t_mod s1 (st_id st)) = m_fraction (t_mod s2 (st_id st))) ->
  fst (max_rate e t c s1) = fst (max_rate e t c s2).
Proof. exact max_rate_same. Qed.
Print Assumptions C84_recirculation.
(** and with no choke upstream and no maximum power the rate for a period is the one for the period on its own *)
Theorem C84_periods : forall e t ps s l s', max_rates e t ps s = (Return l, s') -> tn_variable t = true -> unlimited t ->
  (forall st, In st (tn_stages t) -> settled (t_mod s (st_id st))) ->
  Forall2 (fun p x => forall s0, (forall st, In st (tn_stages t) -> m_mass (t_mod s0 (st_id st)) = m_mass (t_mod s (st_id st)) /\
      m_fraction (t_mod s0 (st_id st)) = m_fraction (t_mod s (st_id st))) ->
    fst (max_rates e t [p] s0) = Return [x]) ps l.
Proof. exact max_rates_periods. Qed.
Print Assumptions C84_periods.
Definition C84_two_periods := [(qz 30, qz 42); (qz 30, qz 44)].
Definition C84_shows (p : outcome (list (option Qc)) * tstate) : bool :=
  match fst p with Return [Some x; Some y] => Qcltb 0 y && Qcltb y x | _ => false end.
Example C84_case : tn_variable (C76_one IndividualRate) = true /\ unlimited (C76_one IndividualRate) /\
  (forall st, In st (tn_stages (C76_one IndividualRate)) -> settled (t_mod C76_fresh (st_id st))) /\
  C84_shows (max_rates C76_env (C76_one IndividualRate) C84_two_periods C76_fresh) = true.
Proof.
  split; [reflexivity|]. split; [split; [discriminate|left; reflexivity]|]. split; [intros st _; left; reflexivity|]. vm_compute. reflexivity.
Qed.

(** ** C85: a train that stands still *)
(** a train stands still only without a positive rate; it needs no power then and is valid *)
Theorem C85_idle : forall e t c s n s', evaluate_constraints e t c s = (Return (Idle n), s') ->
  n = length (tn_stages t) /\ (exists rate rest, c_rates c = rate :: rest /\ rate <= 0) /\ ev_power (Idle n) = 0 /\ ev_valid (Idle n) = true.
Proof. exact idle_is. Qed.
Print Assumptions C85_idle.
(** without a rate it stands still *)
Theorem C85_zero : forall e t c s, plain t -> c_rates c = [0] -> fst (evaluate_constraints e t c s) = Return (Idle (length (tn_stages t))).
Proof. exact evaluate_zero. Qed.
Print Assumptions C85_zero.
(** a negative rate is an error *)
Theorem C85_negative : forall e t c s rate, plain t -> tn_stages t <> [] -> c_rates c = [rate] -> rate < 0 ->
  fst (evaluate_constraints e t c s) = Raise ValueErr.
Proof. exact evaluate_negative. Qed.
Print Assumptions C85_negative.
(** and with a positive rate it runs, if there is an answer *)
Theorem C85_positive : forall e t c s rate rest o s', evaluate_constraints e t c s = (Return o, s') -> c_rates c = rate :: rest -> 0 < rate ->
  exists r, o = Running r.
Proof. exact evaluate_positive. Qed.
Print Assumptions C85_positive.
Example C85_case : plain (C76_two UpstreamChoking) /\
  fst (evaluate_constraints C76_env (C76_two UpstreamChoking) (C76_want (qz 33) 0) C76_fresh) = Return (Idle 2).
Proof. split; [repeat constructor|]. apply (C85_zero C76_env (C76_two UpstreamChoking)); [repeat constructor|reflexivity]. Qed.

(** ** C86: recirculation under the pressure controls *)
(** with a choke nothing goes around but what surge protection needs *)
Theorem C86_choke : forall e t c, c_interstage c = None ->
  tn_control t = None \/ tn_control t = Some UpstreamChoking \/ tn_control t = Some DownstreamChoking ->
  forall s r s', evaluate_constraints e t c s = (Return (Running r), s') -> protected t r.
Proof. exact evaluate_choke. Qed.
Print Assumptions C86_choke.
(** with individual recirculation every stage gets the same fraction of its room *)
Theorem C86_individual : forall e t c, bracketing e -> c_interstage c = None -> tn_control t = Some IndividualRate ->
  forall s r s', evaluate_constraints e t c s = (Return (Running r), s') -> exists f, 0 <= f /\ f <= 1 /\ same_fraction_of_room t f r.
Proof. exact evaluate_fraction. Qed.
Print Assumptions C86_individual.
(** with common recirculation the same mass goes around every stage *)
Theorem C86_common : forall e t c, c_interstage c = None -> tn_control t = Some CommonRecirculation ->
  forall s r s', evaluate_constraints e t c s = (Return (Running r), s') -> protected t r \/ exists m, same_mass_around t m r.
Proof. exact evaluate_common_mass. Qed.
Print Assumptions C86_common.
Example C86_case_choke : exists r s, evaluate_constraints C76_env (C76_two DownstreamChoking) (C76_want (qz 33) (qz 18000)) C76_fresh = (Return (Running r), s) /\
  C76_check (qz 600) (qz 33) (qz 10) (qc 1 375) [(qz 12, qz 12, qz 34); (qz 12, qz 12, qz 38)] r = true.
Proof. apply C76_runs. vm_compute. reflexivity. Qed.
Example C86_case_individual : bracketing C76_env /\
  exists r s, evaluate_constraints C76_env (C76_one IndividualRate) (C76_want (qz 33) (qz 18000)) C76_fresh = (Return (Running r), s) /\
    C76_check (qz 600) (qz 33) (qz 10) (qc 7 6000) [(qz 12, qz 14, qz 33)] r = true.
Proof. split; [exact C76_bracketing|]. apply C76_runs. vm_compute. reflexivity. Qed.
Example C86_case_common : exists r s, evaluate_constraints C76_env (C76_two CommonRecirculation) (C76_want (qz 33) (qz 18000)) C76_fresh = (Return (Running r), s) /\
  C76_check (qz 600) (qz 33) (qz 10) (qc 17 12000) [(qz 12, qz 17, qc 63 2); (qz 12, qz 17, qz 33)] r = true.
Proof. apply C76_runs. vm_compute. reflexivity. Qed.

(** ** C87: root finding *)
(** the secant method answers between the ends it was given *)
Theorem C87_between : forall St (f : Qc -> M St Qc) a b tol n s x s', secant a b f tol n s = (Return x, s') ->
  (a <= x /\ x <= b) \/ (b <= x /\ x <= a).
Proof. exact secant_between. Qed.
Print Assumptions C87_between.
(** and never looks outside them *)
Theorem C87_looks : forall St (f g : Qc -> M St Qc) a b tol n, a <= b -> (forall x, a <= x -> x <= b -> forall s, f x s = g x s) ->
  forall s, secant a b f tol n s = secant a b g tol n s.
Proof. exact secant_looks. Qed.
Print Assumptions C87_looks.
(** and so does the root finder of the train, whenever its fallback does *)
Theorem C87_inside : forall St e lo hi (f : Qc -> M St Qc) tol n s x s', bracketing e -> lo <= hi ->
  find_root e lo hi f tol n s = (Return x, s') -> lo <= x /\ x <= hi.
Proof. exact find_root_inside. Qed.
Print Assumptions C87_inside.
Example C87_case : match fst (secant 0 (qz 2) (fun x (s : unit) => (Return (x * x - qc 9 4), s)) (qc 1 1000) 40 tt) with
  | Return x => Qcltb (qc 1499 1000) x && Qcltb x (qc 1501 1000) | Raise _ => false end = true.
Proof. vm_compute. reflexivity. Qed.
Example C87_case_finder : bracketing C76_env. Proof. exact C76_bracketing. Qed.

(** ** C88: the rates of a train cut in two *)
(** the first part gets the rates of its ports, the second the net rate of the first and the rates of its own ports: the net rate is kept *)
Theorem C88_rates : forall stages rates n r1 r2, (1 <= n)%nat -> split_rates (ports stages) rates n = Return (r1, r2) ->
  let k1 := train_ports (firstn n stages) in
  let k2 := flat_map stage_ports (skipn n stages) in
  r1 = firstn (length k1) rates /\ r2 = net k1 r1 :: firstn (length k2) (skipn (length k1) rates) /\
  net (train_ports stages) rates = net (train_ports (skipn n stages)) r2.
Proof. exact split_rates_is. Qed.
Print Assumptions C88_rates.
Example C88_case : let stages := [C76_stage 0 None; mk_stage 1 C76_chart (qz 300) false 0 (Some 2%nat) None None; mk_stage 2 C76_chart (qz 300) false 0 None (Some 2%nat) None] in
  train_ports stages = [true; false; true] /\ exists r1 r2, split_rates (ports stages) [qz 10; qz 3; qz 2] 2 = Return (r1, r2) /\
    map this r1 = map this [qz 10; qz 3] /\ map this r2 = map this [qz 7; qz 2].
Proof. cbv zeta. split; [reflexivity|]. eexists _, _. split; [reflexivity|]. split; vm_compute; reflexivity. Qed.

(** What a user sees of an evaluation (C77, C79-C82, C86). *)
From Coq Require Import List Bool ZArith Lia.
From Verif Require Import QcTac Base Num Search_Model Stream_Model Stream_Spec Flash_Model Process_Model Process_Spec Process_Proofs Train_Model Train_Spec Train_Proofs Train_Proofs2 Train_Proofs3 Train_Proofs4 Train_Proofs5 Train_Proofs6 Train_Proofs7 Train_Proofs8.
Import ListNotations.
Local Open Scope Qc_scope.

(** ** One stage *)

Lemma stage_runs : forall e st rates streams x s r s', stage_evaluate e st rates streams x s = (Return r, s') ->
  settled (t_mod s (st_id st)) -> exists v, t_speed s = Some v /\ stage_at v st r /\ energy_balance r.
Proof.
  intros e st rates streams x s r s' H St. destruct (stage_proof _ _ _ _ _ _ _ _ H St) as (v & V & _ & A & B & _). eauto.
Qed.

Lemma stage_recirculates : forall e st rates streams x s r s', stage_evaluate e st rates streams x s = (Return r, s') ->
  settled (t_mod s (st_id st)) -> 0 < s_density (sr_inlet r) -> exists v, t_speed s = Some v /\
    actual_rate (sr_inlet_asv r) =
       larger (tc_min_rate (st_chart st) v)
         (asked_rate (t_mod s (st_id st)) (actual_rate (sr_inlet r)) (s_density (sr_inlet r)) (tc_max_rate (st_chart st) v)).
Proof.
  intros e st rates streams x s r s' H St D. destruct (stage_proof _ _ _ _ _ _ _ _ H St) as (v & V & _ & _ & _ & A). eauto.
Qed.

Lemma stage_loss : forall e st rates streams x s r s', stage_evaluate e st rates streams x s = (Return r, s') ->
  sr_power r = megawatts (sr_head r / sr_eff r) (s_mass_rate (sr_inlet r)) + sr_loss r.
Proof.
  intros e st rates streams x s r s' H. apply stage_evaluate_steps in H.
  destruct H as (s1 & p & _ & _ & _ & _ & _ & _ & _ & En & Pw). rewrite Pw. unfold sr_loss, megawatts, power_in_megawatt. rewrite En.
  generalize (sr_head r / sr_eff r) (s_mass_rate (sr_inlet_asv r)) (s_mass_rate (sr_inlet r)). intros a b c.
  replace (1 / qz 3600000) with (1 / qz 3600 / qz 1000) by (apply Qc_is_canon; vm_compute; reflexivity).
  replace (qc 1 1000000) with (1 / qz 1000 / qz 1000) by (apply Qc_is_canon; vm_compute; reflexivity).
  replace (qz 1000000) with (qz 1000 * qz 1000) by (apply Qc_is_canon; vm_compute; reflexivity).
  field. split; discriminate.
Qed.

(** ** The evaluation *)

Lemma evaluate_rates : forall e t c s o s', evaluate_constraints e t c s = (Return o, s') -> exists rate, inlet_rate c = Return rate.
Proof.
  intros e t c s o s' H. unfold evaluate_constraints in H. unfold bind at 1 in H. unfold reset_modifiers, modify in H.
  unfold bind at 1 in H. unfold lift at 1 in H. destruct (validate_rates t (c_rates c)) as [[]|] eqn:V; [|discriminate].
  unfold validate_rates in V. unfold inlet_rate. destruct (c_rates c) as [|r l]; [discriminate|eauto].
Qed.

Lemma evaluate_finished : forall e t c s r s', evaluate_constraints e t c s = (Return (Running r), s') ->
  exists rate v, inlet_rate c = Return rate /\ finished e v t c rate (no_common t) r /\ (power_controlled t c -> flagged t r).
Proof.
  intros e t c s r s' H. destruct (evaluate_rates _ _ _ _ _ _ H) as [rate R].
  destruct (evaluate_ok e t c rate R s (Running r) s' I H) as (v & F & P). eauto.
Qed.

Lemma evaluate_speed : forall e t c s r s', evaluate_constraints e t c s = (Return (Running r), s') ->
  exists v, tr_speed r = Some v /\ Forall2 (stage_at v) (tn_stages t) (tr_stages r) /\ Forall energy_balance (tr_stages r).
Proof.
  intros e t c s r s' H. destruct (evaluate_finished _ _ _ _ _ _ H) as (rate & v & _ & ((A & B & C & _) & _) & _). eauto.
Qed.

Lemma evaluate_power : forall e t c s r s', evaluate_constraints e t c s = (Return (Running r), s') ->
  ev_power (Running r) = fold_right Qcplus 0 (map (fun x => megawatts (sr_head x / sr_eff x) (s_mass_rate (sr_inlet_asv x))) (tr_stages r)).
Proof.
  intros e t c s r s' H. destruct (evaluate_speed _ _ _ _ _ _ H) as (v & _ & A & _). cbn [ev_power]. unfold tr_power.
  induction A as [|st x l l' (_ & _ & _ & _ & _ & _ & _ & _ & _ & _ & P) A IH]; [reflexivity|].
  cbn [map fold_right qsum]. unfold qsum in *. cbn [fold_right]. rewrite IH, P. reflexivity.
Qed.

Lemma evaluate_inlet : forall e t c s r s' rate rest, evaluate_constraints e t c s = (Return (Running r), s') ->
  c_rates c = rate :: rest -> no_common t -> takes_in e t c rate r.
Proof.
  intros e t c s r s' rate rest H R N. destruct (evaluate_finished _ _ _ _ _ _ H) as (rate' & v & E & (_ & _ & (rate2 & T & K) & _) & _).
  unfold inlet_rate in E. rewrite R in E. assert (rate' = rate) by congruence. subst. rewrite <- (K N). exact T.
Qed.

Lemma evaluate_carries : forall e t c s r s' rate rest m ms, evaluate_constraints e t c s = (Return (Running r), s') ->
  c_rates c = rate :: rest -> no_common t -> plain t -> consistent_service (ph_service (e_physics e)) -> tn_models t = Some m :: ms ->
  carries m (rate * standard_density_of (ph_service (e_physics e)) m / qz 24) r.
Proof.
  intros e t c s r s' rate rest m ms H R N P Cs M. destruct (evaluate_finished _ _ _ _ _ _ H) as (rate' & v & E & (S & T & _ & K) & _).
  unfold inlet_rate in E. rewrite R in E. assert (rate' = rate) by congruence. subst. apply (K N P Cs m ms M).
  destruct S as (S & _). intros Z. rewrite Z in S. inversion S as [S'|]. unfold truthful in T.
  clear - H Z. unfold evaluate_constraints in H. unfold bind at 1 in H. unfold reset_modifiers, modify in H. rewrite Z in H. cbn [fold_left] in H.
  unfold bind at 1 in H. unfold lift at 1 in H. destruct (validate_rates t (c_rates c)) as [[]|]; [|discriminate].
  destruct (any_ingoing t (c_rates c)); [|discriminate]. destruct (c_interstage c).
  - unfold bind at 1 in H. unfold bind at 1 in H. unfold lift at 1 in H. unfold valid_stage_number in H. rewrite Z in H.
    destruct (tn_stage_number t) as [n|]; [|discriminate]. cbn [length Nat.sub] in H. destruct n; discriminate.
  - unfold bind at 1 in H. unfold bind at 1 in H. unfold find_speed in H. unfold bind at 1 in H. unfold min_speed, lift at 1 in H. rewrite Z in H. discriminate.
Qed.

Lemma evaluate_truthful : forall e t c s r s', evaluate_constraints e t c s = (Return (Running r), s') -> truthful t c r.
Proof. intros e t c s r s' H. destruct (evaluate_finished _ _ _ _ _ _ H) as (rate & v & _ & (_ & T & _) & _). exact T. Qed.

Lemma no_failure : forall r, tr_failure r = NoFailure -> tr_status r <> BelowSuction -> tr_status r <> NotCalculated ->
  tr_status r = PressuresMet /\ tr_above_power r = false.
Proof.
  intros r H N1 N2. unfold tr_failure in H. destruct (stage_failure (tr_stages r)) as [f|] eqn:F.
  - exfalso. subst f. revert F. generalize (tr_stages r). intros l. induction l as [|x l IH]; cbn [stage_failure]; [discriminate|].
    destruct (sr_within x); [exact IH|]. destruct (sr_flag x); try discriminate; exact IH.
  - destruct (tr_status r); try discriminate; try congruence. destruct (tr_above_power r); [discriminate|auto].
Qed.

Lemma evaluate_valid : forall e t c s r s', evaluate_constraints e t c s = (Return (Running r), s') -> ev_valid (Running r) = true ->
  Forall in_capacity (tr_stages r) /\
  (forall p, c_discharge c = Some p -> meets (s_pressure (tr_outlet r)) p) /\
  (forall p n, c_interstage c = Some p -> tn_stage_number t = Some n -> (1 <= n)%nat -> exists q, intermediate_pressure r n q /\ meets q p) /\
  (power_controlled t c -> forall limit, tn_max_power t = Some limit -> limit <> 0 -> ev_power (Running r) <= limit).
Proof.
  intros e t c s r s' H V. destruct (evaluate_finished _ _ _ _ _ _ H) as (rate & v & _ & (_ & T & _) & Pw).
  cbn [ev_valid] in V. apply andb_true_iff in V. destruct V as [V W].
  assert (NF : tr_failure r = NoFailure) by (destruct (tr_failure r); discriminate || reflexivity).
  apply no_failure in NF; [|intros E; unfold truthful in T; rewrite E in T; exact T|intros E; unfold truthful in T; rewrite E in T; exact T].
  destruct NF as [Ps Ab]. unfold truthful in T. rewrite Ps in T. destruct T as [T1 T2].
  split; [|split; [exact T1|split; [exact T2|]]].
  - rewrite forallb_forall in W. apply Forall_forall. intros x X. specialize (W x X). unfold sr_within in W. unfold in_capacity.
    destruct (sr_flag x); auto.
  - intros Pc limit L N. specialize (Pw Pc). unfold flagged in Pw. rewrite Ab in Pw. unfold above_power in Pw. rewrite L in Pw.
    destruct (Qceqb limit 0) eqn:Z; [apply Qceqb_eq in Z; contradiction|]. symmetry in Pw. apply Qcltb_ge in Pw. exact Pw.
Qed.

(** An invalid result gives a reason that is so. *)
Lemma evaluate_invalid : forall e t c s r s', evaluate_constraints e t c s = (Return (Running r), s') -> ev_valid (Running r) = false ->
  Exists (fun x => ~ in_capacity x) (tr_stages r) \/ tr_status r <> PressuresMet \/ tr_above_power r = true.
Proof.
  intros e t c s r s' H V. cbn [ev_valid] in V.
  destruct (forallb sr_within (tr_stages r)) eqn:W.
  - rewrite andb_true_r in V. right. unfold tr_failure in V.
    assert (SF : stage_failure (tr_stages r) = None).
    { revert W. generalize (tr_stages r). intros l. induction l as [|x l IH]; cbn [forallb stage_failure]; [reflexivity|].
      intros W. apply andb_true_iff in W. destruct W as [-> W]. auto. }
    rewrite SF in V. destruct (tr_status r); try (left; discriminate). right. destruct (tr_above_power r); [reflexivity|discriminate].
  - left. clear - W. induction (tr_stages r) as [|x l IH]; cbn [forallb] in W; [discriminate|].
    destruct (sr_within x) eqn:E; [right; apply IH, W|left]. unfold in_capacity. unfold sr_within in E. intros [K|K]; rewrite K in E; [discriminate|].
    destruct (sr_flag x); discriminate.
Qed.

(** ** Idle trains *)

Lemma evaluate_idle : forall e t c s n s', evaluate_constraints e t c s = (Return (Idle n), s') ->
  n = length (tn_stages t) /\ any_ingoing t (c_rates c) = false.
Proof.
  intros e t c s n s' H. unfold evaluate_constraints in H. unfold bind at 1 in H. unfold reset_modifiers, modify in H.
  unfold bind at 1 in H. unfold lift at 1 in H. destruct (validate_rates t (c_rates c)) as [[]|]; [|discriminate].
  destruct (any_ingoing t (c_rates c)); [|split; [unfold ret in H; congruence|reflexivity]].
  unfold bind at 1 in H. match type of H with (let (_, _) := ?m in _) = _ => destruct m as [[r|] s1]; unfold ret in H; discriminate end.
Qed.

Lemma idle_is : forall e t c s n s', evaluate_constraints e t c s = (Return (Idle n), s') ->
  n = length (tn_stages t) /\ (exists rate rest, c_rates c = rate :: rest /\ rate <= 0) /\ ev_power (Idle n) = 0 /\ ev_valid (Idle n) = true.
Proof.
  intros e t c s n s' H. destruct (evaluate_idle _ _ _ _ _ _ H) as [L A]. destruct (evaluate_rates _ _ _ _ _ _ H) as [rate R].
  split; [exact L|]. split; [|auto]. unfold inlet_rate in R. destruct (c_rates c) as [|x rest]; [discriminate|]. exists x, rest. split; [reflexivity|].
  unfold any_ingoing, ports in A. cbn [combine existsb fst snd andb] in A. apply orb_false_iff in A. destruct A as [A _]. now apply Qcltb_ge in A.
Qed.

(** A train through which one stream passes. *)
Lemma plain_ports : forall stages k, Forall plain_stage stages -> ports_from k stages = [].
Proof.
  intros stages. induction stages as [|st stages IH]; intros k P; [reflexivity|]. inversion P as [|? ? (P1 & P2 & _) P']; subst.
  cbn [ports_from]. unfold ports_of_stage. rewrite P1, P2. cbn [app]. auto.
Qed.
Lemma check_one : forall rate n k, 0 <= rate -> check_net_rates [(true, 0%nat)] [rate] n k = Return tt.
Proof.
  intros rate n. induction n as [|n IH]; intros k H; [reflexivity|]. cbn [check_net_rates]. unfold rates_where.
  cbn [length seq combine filter snd Nat.leb mapO nth_or nth_error obind fst]. unfold net_rate. cbn [map signed fst snd qsum fold_right].
  destruct (Qcltb _ 0) eqn:E; [|now apply IH]. exfalso. apply Qcltb_lt in E. unfold qsum in E. cbn [fold_right] in E. qc_lra.
Qed.
Lemma evaluate_zero : forall e t c s, plain t -> c_rates c = [0] -> fst (evaluate_constraints e t c s) = Return (Idle (length (tn_stages t))).
Proof.
  intros e t c s P R. unfold evaluate_constraints. unfold bind at 1. unfold reset_modifiers, modify. unfold bind at 1. unfold lift at 1.
  unfold validate_rates, any_ingoing, ports. rewrite R, plain_ports by exact P. rewrite check_one by (apply Qcle_refl). reflexivity.
Qed.
Lemma evaluate_negative : forall e t c s rate, plain t -> tn_stages t <> [] -> c_rates c = [rate] -> rate < 0 ->
  fst (evaluate_constraints e t c s) = Raise ValueErr.
Proof.
  intros e t c s rate P N R L. unfold evaluate_constraints. unfold bind at 1. unfold reset_modifiers, modify. unfold bind at 1. unfold lift at 1.
  unfold validate_rates, ports. rewrite R, plain_ports by exact P. destruct (tn_stages t) as [|st l]; [contradiction|]. cbn [length check_net_rates].
  unfold rates_where. cbn [length seq combine filter snd Nat.leb mapO nth_or nth_error obind fst]. unfold net_rate. cbn [map signed fst snd].
  assert (E : Qcltb (qsum [rate]) 0 = true) by (apply Qcltb_lt; unfold qsum; cbn [fold_right]; qc_lra).
  rewrite E. reflexivity.
Qed.
Lemma evaluate_positive : forall e t c s rate rest o s', evaluate_constraints e t c s = (Return o, s') -> c_rates c = rate :: rest -> 0 < rate ->
  exists r, o = Running r.
Proof.
  intros e t c s rate rest o s' H R L. destruct o as [n|r]; [|eauto]. destruct (idle_is _ _ _ _ _ _ H) as (_ & (x & l & E & X) & _).
  rewrite R in E. assert (x = rate) by congruence. subst. qc_lra.
Qed.

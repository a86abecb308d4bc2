(** Two pressures, and the whole evaluation (C79-C82). *)
From Coq Require Import List Bool ZArith Lia.
From Verif Require Import QcTac Base Num Search_Model Stream_Model Stream_Spec Flash_Model Process_Model Process_Spec Process_Proofs Train_Model Train_Spec Train_Proofs Train_Proofs2 Train_Proofs3 Train_Proofs4 Train_Proofs5.
Import ListNotations.
Local Open Scope Qc_scope.

Lemma inv_construct : forall all t, inv (settled_on all) (construct t) (fun _ => True).
Proof.
  intros all t. unfold construct. eapply inv_bind with (R := fun _ => True).
  { destruct (tn_max_discharge t) as [p|]; [destruct (Qcltb p 0)|]; try (now apply inv_ret); apply inv_raise. }
  intros _ _. eapply inv_bind with (R := fun _ => True); [now apply inv_lift|]. intros lowest _.
  eapply inv_bind with (R := fun _ => True); [now apply inv_lift|]. intros highest _.
  destruct (Qcltb highest lowest); [apply inv_raise|]. destruct (is_variable_speed t).
  - destruct (tn_variable t); [now apply inv_ret|apply inv_raise].
  - destruct (tn_variable t); [apply inv_raise|]. intros s J. split; [now apply set_speed_settled|auto].
Qed.

Definition part_good (e : environment) (v : Qc) (t : train) (c : constraints) (rate : Qc) (r : train_result) : Prop :=
  exists rate', good e v t c rate' r /\ (tn_control t <> Some CommonRecirculation -> rate' = rate).

Lemma inv_control_good : forall all v e t c rate, incl (tn_stages t) all -> inlet_rate c = Return rate ->
  inv (running all v) (with_pressure_control e t c) (part_good e v t c rate).
Proof.
  intros all v e t c rate I R. eapply inv_weaken; [eapply inv_control; eauto|]. intros r [H _]. exact H.
Qed.

Lemma inv_part : forall all v e t c rate speed lowest, incl (tn_stages t) all -> inlet_rate c = Return rate ->
  inv (running all v) (part_result e t c speed lowest) (part_good e v t c rate).
Proof.
  intros all v e t c rate speed lowest I R. unfold part_result. destruct (is_close speed lowest); [now apply inv_control_good|].
  eapply inv_weaken; [eapply inv_good_calculate; eauto|]. intros r [G _]. exists rate. auto.
Qed.

(** The rates of the two parts. *)
Lemma split_rates_head : forall stages rates n r1 r2, (1 <= n)%nat -> split_rates (ports stages) rates n = Return (r1, r2) ->
  exists rate rest l, rates = rate :: rest /\ r1 = rate :: l /\ exists l', r2 = l'.
Proof.
  intros stages rates n r1 r2 N H. unfold split_rates, rates_where in H. unfold ports in H. cbn [length seq combine filter fst snd] in H.
  assert (B : Nat.ltb 0 n = true) by (apply Nat.ltb_lt; lia). rewrite B in H. cbn [mapO fst snd] in H.
  unfold nth_or at 1 in H. destruct rates as [|rate rest]; [discriminate|]. cbn [nth_error obind] in H.
  destruct (mapO _ _) as [l1|] in H; [|discriminate]. cbn [obind] in H. destruct (mapO _ _) as [l2|] in H; [|discriminate].
  cbn [obind map snd fst] in H. assert (r1 = rate :: map snd l1) by congruence. exists rate, rest, (map snd l1). repeat split; auto. now exists r2.
Qed.

Lemma plain_ports : forall stages k, Forall plain_stage stages -> ports_from k stages = [].
Proof.
  intros stages. induction stages as [|st stages IH]; intros k P; [reflexivity|]. inversion P; subst. cbn [ports_from].
  destruct H1 as (S & M & _). unfold ports_of_stage. rewrite S, M, IH by assumption. reflexivity.
Qed.

Lemma split_rates_plain : forall stages rates n r1 r2, (1 <= n)%nat -> Forall plain_stage stages ->
  split_rates (ports stages) rates n = Return (r1, r2) -> exists rate rest, rates = rate :: rest /\ r1 = [rate] /\ r2 = [rate].
Proof.
  intros stages rates n r1 r2 N P H. unfold split_rates, rates_where, ports in H. rewrite plain_ports in H by assumption.
  cbn [length seq combine filter fst snd] in H.
  assert (B : Nat.ltb 0 n = true) by (apply Nat.ltb_lt; lia). rewrite B in H. cbn [mapO fst snd negb] in H.
  unfold nth_or at 1 in H. destruct rates as [|rate rest]; [discriminate|]. cbn [nth_error obind mapO map snd fst] in H.
  assert (r1 = [rate]) by congruence. assert (r2 = [net_rate [(true, rate)]]) by congruence. exists rate, rest. repeat split; auto.
  subst r2. f_equal. unfold net_rate, signed. cbn [map fst snd qsum fold_left]. unfold qsum. cbn. ring.
Qed.

Definition never_common (t : train) (controls : control * control) : Prop :=
  fst controls <> CommonRecirculation /\ snd controls <> CommonRecirculation.

Definition finished (e : environment) (v : Qc) (t : train) (c : constraints) (rate : Qc) (single : Prop) (r : train_result) : Prop :=
  sound e v t r /\ truthful t c r /\ (exists rate', takes_in e t c rate' r /\ (single -> rate' = rate)) /\
  (single -> plain t -> consistent_service (ph_service (e_physics e)) -> forall m ms, tn_models t = Some m :: ms -> tn_stages t <> [] ->
     carries m (rate * standard_density_of (ph_service (e_physics e)) m / qz 24) r).

Lemma forall2_length : forall A B (R : A -> B -> Prop) l l', Forall2 R l l' -> length l = length l'.
Proof. intros A B R l l' H. induction H; cbn [length]; congruence. Qed.

Lemma last_opt_app : forall A (l1 l2 : list A), l2 <> [] -> last_opt (l1 ++ l2) = last_opt l2.
Proof.
  intros A l1. induction l1 as [|x l1 IH]; intros l2 N; [reflexivity|]. cbn [app]. rewrite <- (IH l2 N).
  destruct (l1 ++ l2) as [|y l] eqn:E; [exfalso; apply app_eq_nil in E; apply N, E|]. unfold last_opt. now rewrite last_cons_default.
Qed.

Lemma models_of_first : forall t n m ms, (1 <= n)%nat -> tn_models t = Some m :: ms ->
  exists ms', models_of (fun k => Nat.ltb k n) t = Some m :: ms'.
Proof.
  intros t n m ms N E. unfold models_of, ports. rewrite E. cbn [combine filter fst snd].
  assert (B : Nat.ltb 0 n = true) by (apply Nat.ltb_lt; lia). rewrite B. cbn [map snd]. eauto.
Qed.

Lemma two_parts : forall e t n c p controls r1 r2 v c1 c2 rate rate2 speed status model above,
  (1 <= n)%nat -> (n <= length (tn_stages t) - 1)%nat -> speed = Some v ->
  c1 = mk_constraints (c_suction c) (Some p) None (c_rates c1) ->
  part_good e v (first_part t n (Some (fst controls))) c1 rate r1 ->
  part_good e v (last_part t n (Some (snd controls)) model) c2 rate2 r2 ->
  let r := mk_train_result (tr_inlet r1) (tr_outlet r2) speed (tr_stages r1 ++ tr_stages r2) NotCalculated above in
  check_result t c r = Return status ->
  (plain t -> rate2 = rate) ->
  (plain t -> consistent_service (ph_service (e_physics e)) -> never_common t controls -> forall m ms, tn_models t = Some m :: ms -> model = Some m) ->
  finished e v t c rate (never_common t controls) (set_status r status).
Proof.
  intros e t n c p controls r1 r2 v c1 c2 rate rate2 speed status model above N1 N2 Sp C1 (rate1 & G1 & R1) (rate2' & G2 & R2) r Hs Eq Em.
  apply check_result_truth in Hs. cbn [tn_control first_part last_part] in R1, R2.
  pose proof G1 as (S1 & _ & T1 & _). pose proof G2 as (S2 & _ & _ & _).
  destruct S1 as (A1 & B1 & _ & _). destruct S2 as (A2 & B2 & _ & L2). cbn [tn_stages first_part last_part] in A1, A2.
  assert (Ne : tr_stages r2 <> []).
  { intros Z. rewrite Z in A2. apply forall2_length in A2. rewrite skipn_length in A2. cbn [length] in A2. lia. }
  assert (T : takes_in e t c rate1 r1).
  { intros m ms first rest Hm Hf. destruct (models_of_first t n m ms N1 Hm) as [ms' Hm'].
    assert (Hf' : firstn n (tn_stages t) = first :: firstn (n - 1) rest).
    { rewrite Hf. destruct n; [lia|]. cbn [firstn]. now replace (S n - 1)%nat with n by lia. }
    destruct (T1 m ms' first (firstn (n - 1) rest) Hm' Hf') as (f & F1 & F2 & F3). exists f. rewrite C1 in F1. cbn [c_suction] in F1. auto. }
  split; [|split; [|split]].
  - split; [|split; [|split]]; cbn [set_status tr_stages tr_speed tr_outlet r].
    + rewrite <- (firstn_skipn n (tn_stages t)). apply Forall2_app; assumption.
    + apply Forall_app. auto.
    + exact Sp.
    + intros z Z. rewrite last_opt_app in Z by assumption. apply L2, Z.
  - exact Hs.
  - exists rate1. split; [exact T|]. intros [K _]. apply R1. congruence.
  - intros K P Cs m ms Hm Hn. pose proof K as [K1 K2].
    assert (Rate1 : rate1 = rate) by (apply R1; congruence). assert (Rate2 : rate2' = rate2) by (apply R2; congruence).
    subst rate1 rate2'. rewrite (Eq P) in G2. specialize (Em P Cs K m ms Hm). subst model.
    destruct (models_of_first t n m ms N1 Hm) as [ms' Hm'].
    assert (P1 : Forall plain_stage (firstn n (tn_stages t))).
    { unfold plain in P. rewrite <- (firstn_skipn n (tn_stages t)) in P. now apply Forall_app in P. }
    assert (P2 : Forall plain_stage (skipn n (tn_stages t))).
    { unfold plain in P. rewrite <- (firstn_skipn n (tn_stages t)) in P. now apply Forall_app in P. }
    assert (Q1 : carries m (rate * standard_density_of (ph_service (e_physics e)) m / qz 24) r1).
    { eapply good_carries with (t := first_part t n (Some (fst controls))); [exact G1|exact P1|exact Cs|exact Hm'|].
      cbn [first_part tn_stages]. intros Z. rewrite Z in A1. apply f_equal with (f := @length stage) in Z. rewrite firstn_length in Z. cbn [length] in Z. lia. }
    assert (Q2 : carries m (rate * standard_density_of (ph_service (e_physics e)) m / qz 24) r2).
    { eapply good_carries with (t := last_part t n (Some (snd controls)) (Some m)); [exact G2|exact P2|exact Cs|reflexivity|].
      cbn [last_part tn_stages]. intros Z. apply f_equal with (f := @length stage) in Z. rewrite skipn_length in Z. cbn [length] in Z. lia. }
    destruct Q1 as (Q11 & _ & Q13). destruct Q2 as (_ & Q22 & Q23). split; [exact Q11|]. split; [exact Q22|].
    cbn [set_status tr_stages r]. apply Forall_app. auto.
Qed.

Lemma last_opt_in : forall A (l : list A) z, last_opt l = Some z -> In z l.
Proof.
  intros A l z H. destruct l as [|x l]; [discriminate|]. cbn in H. assert (z = last l x) by congruence. subst z. clear H.
  revert x. induction l as [|y l IH]; intros x; [now left|]. rewrite last_cons_default. right. apply IH.
Qed.

Lemma first_part_model : forall e v t n c1 control rate r1 z, (1 <= n)%nat -> (n <= length (tn_stages t) - 1)%nat -> control <> CommonRecirculation ->
  part_good e v (first_part t n (Some control)) c1 rate r1 -> last_opt (tr_stages r1) = Some z -> plain t ->
  consistent_service (ph_service (e_physics e)) -> forall m ms, tn_models t = Some m :: ms -> s_model (sr_outlet z) = m.
Proof.
  intros e v t n c1 control rate r1 z N1 N2 K (rate1 & G1 & R1) Z P Cs m ms Hm. destruct (models_of_first t n m ms N1 Hm) as [ms' Hm'].
  assert (P1 : Forall plain_stage (firstn n (tn_stages t))).
  { unfold plain in P. rewrite <- (firstn_skipn n (tn_stages t)) in P. now apply Forall_app in P. }
  assert (Q1 : carries m (rate1 * standard_density_of (ph_service (e_physics e)) m / qz 24) r1).
  { eapply good_carries with (t := first_part t n (Some control)); [exact G1|exact P1|exact Cs|exact Hm'|].
    cbn [first_part tn_stages]. intros Z'. apply f_equal with (f := @length stage) in Z'. rewrite firstn_length in Z'. cbn [length] in Z'. lia. }
  destruct Q1 as (_ & _ & Q). rewrite Forall_forall in Q. apply last_opt_in in Z. apply Q in Z. apply Z.
Qed.

Lemma two_pressures_ok : forall e t n c p controls rate, (1 <= n)%nat -> (n <= length (tn_stages t) - 1)%nat -> inlet_rate c = Return rate ->
  triple (settled_on (tn_stages t)) (two_pressures e t n c p controls)
    (fun r _ => exists v, finished e v t c rate (never_common t controls) r /\ flagged t r).
Proof.
  intros e t n c p controls rate N1 N2 R. unfold two_pressures. set (all := tn_stages t).
  set (part1 := first_part t n (Some (fst controls))). cbv zeta.
  assert (I1 : incl (tn_stages part1) all).
  { intros x X. cbn [part1 first_part tn_stages] in X. unfold all. rewrite <- (firstn_skipn n (tn_stages t)). apply in_or_app. now left. }
  assert (I2 : forall model, incl (tn_stages (last_part t n (Some (snd controls)) model)) all).
  { intros model x X. cbn [last_part tn_stages] in X. unfold all. rewrite <- (firstn_skipn n (tn_stages t)). apply in_or_app. now right. }
  eapply triple_bind; [apply triple_inv, inv_construct|]. intros []. apply triple_pure. intros _.
  eapply triple_bind; [apply triple_lift|]. intros placeholder. apply triple_pure. intros _.
  eapply triple_bind; [apply triple_inv, inv_construct|]. intros []. apply triple_pure. intros _.
  eapply triple_bind; [apply triple_lift|]. intros [rates1 rates2]. apply triple_pure. intros Hsp.
  destruct (split_rates_head _ _ _ _ _ N1 Hsp) as (rate' & rest & l1 & Er & Er1 & _).
  assert (rate' = rate) by (unfold inlet_rate in R; rewrite Er in R; congruence). subst rate'.
  set (c1 := mk_constraints (c_suction c) (Some p) None rates1). set (c2 := mk_constraints p (c_discharge c) None rates2).
  assert (R1 : inlet_rate c1 = Return rate) by (unfold inlet_rate; cbn [c1 c_rates]; now rewrite Er1).
  assert (exists rate2, inlet_rate c2 = Return rate2 /\ (plain t -> rate2 = rate)) as (rate2 & R2 & Req).
  { unfold inlet_rate. cbn [c2 c_rates]. pose proof Hsp as Hsp'. unfold split_rates in Hsp'.
    destruct (rates_where _ _ _) as [f1|] in Hsp'; [|discriminate]. cbn [obind] in Hsp'.
    destruct (rates_where _ _ _) as [f2|] in Hsp'; [|discriminate]. cbn [obind] in Hsp'.
    assert (E2 : rates2 = net_rate f1 :: map snd f2) by congruence. rewrite E2. exists (net_rate f1). split; [reflexivity|].
    intros P. destruct (split_rates_plain _ _ _ _ _ N1 P Hsp) as (rate' & rest' & Er' & _ & Er2). congruence. }
  eapply triple_bind; [apply triple_lift|]. intros lowest. apply triple_pure. intros _.
  eapply triple_bind; [apply triple_lift|]. intros highest. apply triple_pure. intros _.
  eapply triple_bind; [eapply find_speed_ok; [exact I1|exact R1]|]. intros v1.
  eapply triple_bind; [apply triple_inv; eapply inv_part; [exact I1|exact R1]|]. intros r1. apply triple_pure. intros G1.
  eapply triple_bind; [apply triple_lift|]. intros z. apply triple_pure. intros Hz.
  destruct (last_opt (tr_stages r1)) as [z'|] eqn:Lz; [|discriminate]. assert (z' = z) by congruence. subst z'. clear Hz.
  set (model := Some (s_model (sr_outlet z))). set (part2 := last_part t n (Some (snd controls)) model).
  eapply triple_bind.
  { eapply triple_weaken; [eapply find_speed_ok with (t := part2); [apply I2|exact R2]| |intros a s H; exact H]. intros s [_ J]. exact J. }
  intros v2. eapply triple_bind; [apply triple_inv; eapply inv_part with (t := part2); [apply I2|exact R2]|]. intros r2.
  apply triple_pure. intros G2.
  eapply triple_bind with (R := fun q s => exists v, running all v s /\ part_good e v part1 c1 rate (fst q) /\ part_good e v part2 c2 rate2 (snd q)).
  { destruct (Qcltb v2 v1).
    - eapply triple_weaken with (P' := settled_on all); [|intros s [_ J]; exact J|intros a s H; exact H].
      eapply triple_bind; [apply set_speed_ok|]. intros [].
      eapply triple_bind; [apply triple_inv; eapply inv_control_good with (t := part2); [apply I2|exact R2]|]. intros r2'. apply triple_pure. intros G2'.
      apply triple_ret. intros s J. exists v1. auto.
    - eapply triple_weaken with (P' := settled_on all); [|intros s [_ J]; exact J|intros a s H; exact H].
      eapply triple_bind; [apply set_speed_ok|]. intros [].
      eapply triple_bind; [apply triple_inv; eapply inv_control_good with (t := part1); [apply I1|exact R1]|]. intros r1'. apply triple_pure. intros G1'.
      apply triple_ret. intros s J. exists v2. auto. }
  intros [q1 q2] s r s' (v & [V _] & Q1 & Q2) E. cbn [fst snd] in *.
  destruct (check_result t c _) as [status|] eqn:Hs; [|discriminate]. cbn [obind] in E.
  assert (Er' : r = set_status (mk_train_result (tr_inlet q1) (tr_outlet q2) (t_speed s) (tr_stages q1 ++ tr_stages q2) NotCalculated
     (above_power t (tr_stages q1 ++ tr_stages q2))) status) by congruence.
  exists v. split.
  - subst r. apply (two_parts e t n c p controls q1 q2 v c1 c2 rate rate2 (t_speed s) status model); auto.
    + intros P Cs [K1 K2] m ms Hm. unfold model. f_equal. apply (first_part_model e v1 t n c1 (fst controls) rate r1 z N1 N2 K1 G1 Lz P Cs m ms Hm).
  - subst r. reflexivity.
Qed.

(** ** The whole evaluation *)

(** Reset settles the modifiers of the train, whatever they were. *)
Lemma reset_settles : forall l s, settled_on l (fold_left (fun s st => reset_modifier (st_id st) s) l s).
Proof.
  intros l s st I.
  assert (G : forall l s, (In st l \/ settled (t_mod s (st_id st))) -> settled (t_mod (fold_left (fun s st => reset_modifier (st_id st) s) l s) (st_id st))).
  { clear. intros l. induction l as [|x l IH]; intros s H; cbn [fold_left]; [destruct H as [[]|H]; exact H|]. apply IH.
    destruct H as [[->|H]|H]; [right; unfold reset_modifier, update_modifier; cbn [t_mod]; unfold upd; rewrite Nat.eqb_refl; now left|now left|].
    right. unfold reset_modifier, update_modifier. cbn [t_mod]. unfold upd. destruct (Nat.eqb (st_id x) (st_id st)); [now left|exact H]. }
  apply G. now left.
Qed.

Lemma reset_ok : forall t P, triple P (reset_modifiers t) (fun _ s => settled_on (tn_stages t) s).
Proof. intros t P s a s' J E. unfold reset_modifiers, modify in E. assert (s' = fold_left (fun s st => reset_modifier (st_id st) s) (tn_stages t) s) by congruence. subst. apply reset_settles. Qed.

(** The control that is used for the pressures asked for is not the recirculation around the whole train. *)
Lemma finished_weaken : forall e v t c rate (S S' : Prop) r, (S' -> S) -> finished e v t c rate S r -> finished e v t c rate S' r.
Proof.
  intros e v t c rate S S' r H (A & B & (rate' & T & E) & D). split; [exact A|]. split; [exact B|]. split; [exists rate'; auto|]. intros K. apply D, H, K.
Qed.

Lemma evaluate_ok : forall e t c rate, inlet_rate c = Return rate ->
  triple (fun _ => True) (evaluate_constraints e t c)
    (fun o _ => match o with
                | Idle n => n = length (tn_stages t)
                | Running r => exists v, finished e v t c rate (no_common t) r /\ (power_controlled t c -> flagged t r)
                end).
Proof.
  intros e t c rate R. unfold evaluate_constraints. eapply triple_bind; [apply reset_ok|]. intros [].
  eapply triple_bind; [apply triple_lift|]. intros []. apply triple_pure. intros _.
  destruct (any_ingoing t (c_rates c)); [|apply triple_ret; intros; reflexivity].
  eapply triple_bind with (R := fun r _ => exists v, finished e v t c rate (no_common t) r /\ (power_controlled t c -> flagged t r));
    [|intros r; apply triple_ret; auto].
  unfold power_controlled. destruct (c_interstage c) as [p|] eqn:Ei.
  - eapply triple_bind; [apply triple_lift|]. intros n. apply triple_pure. intros Hn.
    eapply triple_bind; [apply triple_lift|]. intros controls. apply triple_pure. intros Hc.
    unfold valid_stage_number in Hn. destruct (tn_stage_number t) as [k|]; [|discriminate].
    destruct (Nat.leb 1 k && Nat.leb k (length (tn_stages t) - 1)) eqn:Ek; [|discriminate]. assert (k = n) by congruence. subst k.
    apply andb_true_iff in Ek. destruct Ek as [E1 E2]. apply Nat.leb_le in E1. apply Nat.leb_le in E2.
    eapply triple_weaken; [eapply two_pressures_ok; eauto|auto|]. cbn beta. intros r s (v & F & Fl). exists v. split; [|auto].
    eapply finished_weaken; [|exact F]. intros [_ K]. unfold interstage_controls, nth_or in Hc.
    destruct (nth_error (tn_stages t) n) as [st|] eqn:Est; [|discriminate]. cbn [obind] in Hc.
    destruct (st_controls st) as [q|] eqn:Eq; [|discriminate]. assert (q = controls) by congruence. subst q.
    apply nth_error_In in Est. apply (K _ _ Est Eq).
  - eapply triple_bind; [eapply find_speed_ok; [apply incl_refl|exact R]|]. intros v.
    assert (W : forall r rate', good e v t c rate' r -> (no_common t -> rate' = rate) -> finished e v t c rate (no_common t) r).
    { intros r rate' G K. pose proof G as (A & B & T & _). split; [exact A|]. split; [apply B, Ei|]. split; [exists rate'; auto|].
      intros Nc P Cs m ms Hm Hs. rewrite <- (K Nc). eapply good_carries; eauto. }
    eapply triple_bind; [apply triple_inv; eapply inv_good_calculate; [apply incl_refl|exact R]|]. intros r. apply triple_pure.
    intros [G F].
    assert (Done : triple (running (tn_stages t) v) (ret r) (fun r _ => exists v, finished e v t c rate (no_common t) r /\
       (tn_control t <> Some IndividualPressure /\ (tn_control t = Some DownstreamChoking -> tn_max_discharge t = None) -> flagged t r))).
    { apply triple_ret. intros s _. exists v. split; [eapply W; eauto|auto]. }
    assert (Again : triple (running (tn_stages t) v) (with_pressure_control e t c)
       (fun r _ => exists v, finished e v t c rate (no_common t) r /\
       (tn_control t <> Some IndividualPressure /\ (tn_control t = Some DownstreamChoking -> tn_max_discharge t = None) -> flagged t r))).
    { intros s r' s' J E. apply (triple_inv _ _ _ _ (inv_control (tn_stages t) v e t c rate (incl_refl _) R)) in E; [|exact J].
      destruct E as [[(rate' & G' & K') F'] _]. exists v. split; [eapply W; [exact G'|intros [Nc _]; auto]|exact F']. }
    assert (Again' : triple (running (tn_stages t) v) (match tn_control t with None => ret r | Some _ => with_pressure_control e t c end)
       (fun r _ => exists v, finished e v t c rate (no_common t) r /\
       (tn_control t <> Some IndividualPressure /\ (tn_control t = Some DownstreamChoking -> tn_max_discharge t = None) -> flagged t r))).
    { destruct (tn_control t) as [k|]; [exact Again|exact Done]. }
    destruct (tr_status r); try exact Again'; exact Done.
Qed.

(** What an evaluation does not depend on: the speed search, the whole evaluation, the maximum rate (C83, C84). *)
From Coq Require Import List Bool ZArith Lia.
From Verif Require Import QcTac Base Num Search_Model Stream_Model Stream_Spec Flash_Model Process_Model Process_Spec Process_Proofs Train_Model Train_Spec Train_Proofs Train_Proofs2 Train_Proofs3 Train_Proofs4 Train_Proofs5 Train_Proofs6 Train_Proofs7.
Import ListNotations.
Local Open Scope Qc_scope.

(** From states related by [P] the same outcome, and states related by [Q] when it is a value. *)
Definition rel {A} (P : tstate -> tstate -> Prop) (m : M tstate A) (Q : tstate -> tstate -> Prop) : Prop :=
  forall s1 s2, P s1 s2 -> fst (m s1) = fst (m s2) /\ (forall a, fst (m s1) = Return a -> Q (snd (m s1)) (snd (m s2))).

Lemma rel_resp : forall A E (m : M tstate A), resp E m -> rel E m E.
Proof. intros A E m H s1 s2 J. destruct (H s1 s2 J). auto. Qed.
Lemma rel_lift : forall A P (o : outcome A), rel P (lift o) P.
Proof. intros A P o s1 s2 J. split; auto. Qed.
Lemma rel_ret : forall A P (a : A), rel P (ret a) P.
Proof. intros A P a s1 s2 J. split; auto. Qed.
Lemma rel_raise : forall A P Q x, rel P (@raise tstate A x) Q.
Proof. intros A P Q x s1 s2 J. split; [reflexivity|]. discriminate. Qed.
Lemma rel_bind : forall A B P Q R (m : M tstate A) (k : A -> M tstate B), rel P m Q -> (forall a, rel Q (k a) R) -> rel P (bind m k) R.
Proof.
  intros A B P Q R m k Hm Hk s1 s2 J. unfold bind. specialize (Hm s1 s2 J). destruct (m s1) as [o1 s1'], (m s2) as [o2 s2']. cbn [fst snd] in Hm.
  destruct Hm as [-> H]. destruct o2 as [a|x]; [apply Hk, (H a eq_refl)|]. split; [reflexivity|]. discriminate.
Qed.
Lemma rel_weaken : forall A (P P' Q Q' : tstate -> tstate -> Prop) (m : M tstate A), rel P' m Q' ->
  (forall s1 s2, P s1 s2 -> P' s1 s2) -> (forall s1 s2, Q' s1 s2 -> Q s1 s2) -> rel P m Q.
Proof. intros A P P' Q Q' m H HP HQ s1 s2 J. destruct (H s1 s2 (HP _ _ J)) as [H1 H2]. split; [exact H1|]. intros a Ha. apply HQ, (H2 a Ha). Qed.

(** Setting the speed of a variable speed shaft makes it the same, whatever it was. *)
Lemma rel_set_speed : forall all t v, tn_variable t = true -> rel (same_modes all) (set_train_speed t v) (same_state all).
Proof. intros all t v H s1 s2 J. unfold set_train_speed. rewrite H. split; [reflexivity|]. intros a _. split; [reflexivity|exact J]. Qed.

(** [E] is the relation before the first speed is set. *)
Definition before (all : list stage) (t : train) : tstate -> tstate -> Prop :=
  if tn_variable t then same_modes all else same_state all.
Lemma rel_set_speed_before : forall all t v, rel (before all t) (set_train_speed t v) (same_state all).
Proof.
  intros all t v. unfold before. destruct (tn_variable t) eqn:E; [now apply rel_set_speed|]. apply rel_resp, resp_set_speed.
Qed.
Lemma same_before : forall all t s1 s2, same_state all s1 s2 -> before all t s1 s2.
Proof. intros all t s1 s2 H. unfold before. destruct (tn_variable t); [apply H|exact H]. Qed.

Lemma rel_find_speed : forall all e t c lower upper, incl (tn_stages t) all ->
  rel (before all t) (find_speed e t c lower upper) (same_state all).
Proof.
  intros all e t c lower upper I. unfold find_speed. eapply rel_bind; [apply rel_lift|]. intros lowest. eapply rel_bind; [apply rel_lift|]. intros highest.
  cbv zeta. eapply rel_bind.
  { eapply rel_bind; [apply rel_set_speed_before|]. intros _. apply rel_resp. now apply resp_calculate. }
  intros r_high. apply rel_resp.
  assert (Step : forall v, resp (same_state all) (set_train_speed t v ;;* calculate_train e t c)).
  { intros v. apply resp_bind; [apply resp_set_speed|]. intros _. now apply resp_calculate. }
  assert (End : forall v, resp (same_state all) (set_train_speed t v ;;* ret v)).
  { intros v. apply resp_bind; [apply resp_set_speed|]. intros _. apply resp_ret. }
  destruct (negb (tr_within r_high)); [apply End|]. apply resp_bind; [apply Step|]. intros r_low. apply resp_bind.
  { destruct (negb (tr_within r_low)); [|apply resp_ret]. apply resp_bind.
    - apply resp_maximize. intros x. apply resp_bind; [apply Step|]. intros r. apply resp_ret.
    - intros m. cbv zeta. apply resp_bind; [apply Step|]. intros r. apply resp_ret. }
  intros [low r_low']. destruct (c_discharge c) as [target|]; [|apply End].
  destruct (Qcleb (tr_discharge r_low') target && Qcleb target (tr_discharge r_high)).
  - apply resp_bind; [|intros v; apply End]. apply resp_find_root. intros x. apply resp_bind; [apply Step|]. intros r. apply resp_ret.
  - destruct (Qcltb target (tr_discharge r_low')); apply End.
Qed.

Lemma resp_find_speed : forall all e t c lower upper, incl (tn_stages t) all -> rel (same_state all) (find_speed e t c lower upper) (same_state all).
Proof. intros all e t c lower upper I. eapply rel_weaken; [exact (rel_find_speed all e t c lower upper I)|apply same_before|auto]. Qed.

Lemma rel_construct : forall all t t', tn_variable t' = tn_variable t -> rel (before all t) (construct t') (before all t).
Proof.
  intros all t t' V. unfold before. destruct (tn_variable t).
  - unfold construct. eapply rel_bind with (Q := same_modes all).
    { destruct (tn_max_discharge t') as [p|]; [destruct (Qcltb p 0)|]; first [apply rel_ret|apply rel_raise]. }
    intros _. eapply rel_bind; [apply rel_lift|]. intros lowest. eapply rel_bind; [apply rel_lift|]. intros highest.
    rewrite V. destruct (Qcltb highest lowest); [apply rel_raise|]. destruct (is_variable_speed t'); [apply rel_ret|apply rel_raise].
  - apply rel_resp, resp_construct.
Qed.

Lemma resp_part : forall all e t c speed lowest, incl (tn_stages t) all -> resp (same_state all) (part_result e t c speed lowest).
Proof. intros all e t c speed lowest I. unfold part_result. destruct (is_close speed lowest); [now apply resp_control|now apply resp_calculate]. Qed.

Lemma rel_two_pressures : forall e t n c p controls,
  rel (before (tn_stages t) t) (two_pressures e t n c p controls) (same_state (tn_stages t)).
Proof.
  intros e t n c p controls. unfold two_pressures. set (all := tn_stages t).
  set (part1 := first_part t n (Some (fst controls))). cbv zeta.
  assert (I1 : incl (tn_stages part1) all).
  { intros x X. cbn [part1 first_part tn_stages] in X. unfold all. rewrite <- (firstn_skipn n (tn_stages t)). apply in_or_app. now left. }
  assert (I2 : forall model, incl (tn_stages (last_part t n (Some (snd controls)) model)) all).
  { intros model x X. cbn [last_part tn_stages] in X. unfold all. rewrite <- (firstn_skipn n (tn_stages t)). apply in_or_app. now right. }
  eapply rel_bind; [now apply rel_construct|]. intros _. eapply rel_bind; [apply rel_lift|]. intros placeholder.
  eapply rel_bind; [now apply rel_construct|]. intros _. eapply rel_bind; [apply rel_lift|]. intros [rates1 rates2].
  eapply rel_bind; [apply rel_lift|]. intros lowest. eapply rel_bind; [apply rel_lift|]. intros highest.
  eapply rel_bind; [apply (rel_find_speed all e part1); exact I1|]. intros v1.
  eapply rel_bind; [apply rel_resp, resp_part, I1|]. intros r1. eapply rel_bind; [apply rel_lift|]. intros z.
  eapply rel_bind; [apply resp_find_speed, I2|]. intros v2. eapply rel_bind; [apply rel_resp, resp_part, I2|]. intros r2.
  eapply rel_bind with (Q := same_state all).
  { apply rel_resp. destruct (Qcltb v2 v1).
    - apply resp_bind; [apply resp_set_speed|]. intros _. apply resp_bind; [apply resp_control, I2|]. intros r. apply resp_ret.
    - apply resp_bind; [apply resp_set_speed|]. intros _. apply resp_bind; [apply resp_control, I1|]. intros r. apply resp_ret. }
  intros [q1 q2]. apply rel_resp. apply (resp_speed _ all (fun sp =>
    let r := mk_train_result (tr_inlet q1) (tr_outlet q2) sp (tr_stages q1 ++ tr_stages q2) NotCalculated (above_power t (tr_stages q1 ++ tr_stages q2)) in
    let! status := check_result t c r in Return (set_status r status))).
Qed.

(** After a reset the modes are the same. *)
Lemma reset_modes : forall l s, (forall st, In st l -> mode (t_mod (fold_left (fun s st => reset_modifier (st_id st) s) l s) (st_id st)) = (None, None)).
Proof.
  intros l s st I.
  assert (G : forall l s, (In st l \/ mode (t_mod s (st_id st)) = (None, None)) ->
     mode (t_mod (fold_left (fun s st => reset_modifier (st_id st) s) l s) (st_id st)) = (None, None)).
  { clear. intros l. induction l as [|x l IH]; intros s H; cbn [fold_left]; [destruct H as [[]|H]; exact H|]. apply IH.
    destruct H as [[->|H]|H]; [right; unfold reset_modifier, update_modifier; cbn [t_mod]; unfold upd; rewrite Nat.eqb_refl; reflexivity|now left|].
    right. unfold reset_modifier, update_modifier. cbn [t_mod]. unfold upd. destruct (Nat.eqb (st_id x) (st_id st)); [reflexivity|exact H]. }
  apply G. now left.
Qed.
Lemma fold_reset_speed : forall l s, t_speed (fold_left (fun s st => reset_modifier (st_id st) s) l s) = t_speed s.
Proof. intros l. induction l as [|st l IH]; intros s; cbn [fold_left]; [reflexivity|]. rewrite IH. reflexivity. Qed.

Definition alike_start (t : train) (s1 s2 : tstate) : Prop := tn_variable t = true \/ t_speed s1 = t_speed s2.

Lemma rel_reset : forall t, rel (alike_start t) (reset_modifiers t) (before (tn_stages t) t).
Proof.
  intros t s1 s2 H. split; [reflexivity|]. intros a _. unfold reset_modifiers, modify. cbn [snd].
  assert (Md : same_modes (tn_stages t) (fold_left (fun s st => reset_modifier (st_id st) s) (tn_stages t) s1)
                 (fold_left (fun s st => reset_modifier (st_id st) s) (tn_stages t) s2)).
  { intros st I. now rewrite !reset_modes. }
  unfold before. destruct (tn_variable t) eqn:E; [exact Md|]. split; [|exact Md]. rewrite !fold_reset_speed. destruct H; [congruence|assumption].
Qed.

Lemma rel_evaluate : forall e t c, rel (alike_start t) (evaluate_constraints e t c) (before (tn_stages t) t).
Proof.
  intros e t c. unfold evaluate_constraints. eapply rel_bind; [apply rel_reset|]. intros _. eapply rel_bind; [apply rel_lift|]. intros _.
  destruct (any_ingoing t (c_rates c)); [|apply rel_ret].
  eapply rel_weaken with (P' := before (tn_stages t) t) (Q' := same_state (tn_stages t)); [|auto|apply same_before].
  eapply rel_bind with (Q := same_state (tn_stages t)); [|intros r; apply rel_ret].
  destruct (c_interstage c) as [p|].
  - eapply rel_bind; [apply rel_lift|]. intros n. eapply rel_bind; [apply rel_lift|]. intros controls. apply rel_two_pressures.
  - eapply rel_bind; [apply rel_find_speed, incl_refl|]. intros v. apply rel_resp. apply resp_bind; [apply resp_calculate, incl_refl|]. intros r.
    destruct (tr_status r); try apply resp_ret; (destruct (tn_control t); [apply resp_control, incl_refl|apply resp_ret]).
Qed.

Lemma evaluate_same : forall e t c s1 s2, tn_variable t = true \/ t_speed s1 = t_speed s2 ->
  fst (evaluate_constraints e t c s1) = fst (evaluate_constraints e t c s2).
Proof. intros e t c s1 s2 H. apply (rel_evaluate e t c s1 s2 H). Qed.

(** ** The shaft of a single speed train keeps its speed *)

Lemma inv_fixed_set : forall all t v w, tn_variable t = false -> inv (running all v) (set_train_speed t w) (fun _ => True).
Proof.
  intros all t v w F s J. pose proof J as [V _]. unfold set_train_speed. rewrite F, V. destruct (Qceqb w v); split; auto.
Qed.
Lemma inv_true : forall A I (m : M tstate A) (Q : A -> Prop), inv I m Q -> inv I m (fun _ => True).
Proof. intros A I m Q H. eapply inv_weaken; [exact H|auto]. Qed.

Lemma inv_fixed_speed : forall all e t c lower upper rate v, tn_variable t = false -> incl (tn_stages t) all -> inlet_rate c = Return rate ->
  inv (running all v) (find_speed e t c lower upper) (fun _ => True).
Proof.
  intros all e t c lower upper rate v F I R. unfold find_speed.
  eapply inv_bind with (R := fun _ => True); [now apply inv_lift|]. intros lowest _.
  eapply inv_bind with (R := fun _ => True); [now apply inv_lift|]. intros highest _. cbv zeta.
  assert (Step : forall w, inv (running all v) (set_train_speed t w ;;* calculate_train e t c) (fun _ => True)).
  { intros w. eapply inv_bind; [now apply inv_fixed_set|]. intros _ _. eapply inv_true, inv_good_calculate; eauto. }
  assert (End : forall w, inv (running all v) (set_train_speed t w ;;* ret w) (fun _ => True)).
  { intros w. eapply inv_bind; [now apply inv_fixed_set|]. intros _ _. now apply inv_ret. }
  eapply inv_bind; [apply Step|]. intros r_high _. destruct (negb (tr_within r_high)); [apply End|].
  eapply inv_bind; [apply Step|]. intros r_low _. eapply inv_bind with (R := fun _ => True).
  { destruct (negb (tr_within r_low)); [|now apply inv_ret].
    eapply inv_bind; [apply inv_maximize; intros x; eapply inv_bind; [apply Step|]; intros r _; now apply inv_ret|]. intros m _.
    cbv zeta. eapply inv_bind; [apply Step|]. intros r _. now apply inv_ret. }
  intros [low r_low'] _. destruct (c_discharge c) as [target|]; [|apply End].
  destruct (Qcleb (tr_discharge r_low') target && Qcleb target (tr_discharge r_high)).
  - eapply inv_bind; [apply inv_find_root; intros x; eapply inv_bind; [apply Step|]; intros r _; now apply inv_ret|].
    intros w _. apply End.
  - destruct (Qcltb target (tr_discharge r_low')); apply End.
Qed.

Lemma inv_fixed_construct : forall all t v, tn_variable t = false -> inv (running all v) (construct t) (fun _ => True).
Proof.
  intros all t v F. unfold construct. eapply inv_bind with (R := fun _ => True).
  { destruct (tn_max_discharge t) as [p|]; [destruct (Qcltb p 0)|]; try (now apply inv_ret); apply inv_raise. }
  intros _ _. eapply inv_bind with (R := fun _ => True); [now apply inv_lift|]. intros lowest _.
  eapply inv_bind with (R := fun _ => True); [now apply inv_lift|]. intros highest _.
  destruct (Qcltb highest lowest); [apply inv_raise|]. rewrite F. destruct (is_variable_speed t); [apply inv_raise|now apply inv_fixed_set].
Qed.

Lemma inv_fixed_two : forall e t n c p controls rate v, tn_variable t = false -> (1 <= n)%nat -> inlet_rate c = Return rate ->
  inv (running (tn_stages t) v) (two_pressures e t n c p controls) (fun _ => True).
Proof.
  intros e t n c p controls rate v F N1 R. unfold two_pressures. set (all := tn_stages t).
  set (part1 := first_part t n (Some (fst controls))). cbv zeta.
  assert (I1 : incl (tn_stages part1) all).
  { intros x X. cbn [part1 first_part tn_stages] in X. unfold all. rewrite <- (firstn_skipn n (tn_stages t)). apply in_or_app. now left. }
  assert (I2 : forall model, incl (tn_stages (last_part t n (Some (snd controls)) model)) all).
  { intros model x X. cbn [last_part tn_stages] in X. unfold all. rewrite <- (firstn_skipn n (tn_stages t)). apply in_or_app. now right. }
  eapply inv_bind; [now apply inv_fixed_construct|]. intros _ _.
  eapply inv_bind with (R := fun _ => True); [now apply inv_lift|]. intros placeholder _.
  eapply inv_bind; [now apply inv_fixed_construct|]. intros _ _.
  eapply inv_bind with (R := fun q => split_rates (ports (tn_stages t)) (c_rates c) n = Return q); [apply inv_lift; auto|]. intros [rates1 rates2] Hsp.
  destruct (split_rates_head _ _ _ _ _ N1 Hsp) as (rate' & rest & l1 & Er & Er1 & _).
  set (c1 := mk_constraints (c_suction c) (Some p) None rates1). set (c2 := mk_constraints p (c_discharge c) None rates2).
  assert (R1 : inlet_rate c1 = Return rate') by (unfold inlet_rate; cbn [c1 c_rates]; now rewrite Er1).
  assert (exists rate2, inlet_rate c2 = Return rate2) as (rate2 & R2).
  { unfold inlet_rate. cbn [c2 c_rates]. unfold split_rates in Hsp.
    destruct (rates_where _ _ _) as [f1|] in Hsp; [|discriminate]. cbn [obind] in Hsp.
    destruct (rates_where _ _ _) as [f2|] in Hsp; [|discriminate]. cbn [obind] in Hsp.
    assert (E2 : rates2 = net_rate f1 :: map snd f2) by congruence. rewrite E2. eauto. }
  eapply inv_bind with (R := fun _ => True); [now apply inv_lift|]. intros lowest _.
  eapply inv_bind with (R := fun _ => True); [now apply inv_lift|]. intros highest _.
  eapply inv_bind; [eapply inv_fixed_speed; [exact F|exact I1|exact R1]|]. intros v1 _.
  eapply inv_bind; [eapply inv_true, inv_part; [exact I1|exact R1]|]. intros r1 _.
  eapply inv_bind with (R := fun _ => True); [now apply inv_lift|]. intros z _.
  eapply inv_bind; [eapply inv_fixed_speed; [exact F|apply I2|exact R2]|]. intros v2 _.
  eapply inv_bind; [eapply inv_true, inv_part; [apply I2|exact R2]|]. intros r2 _.
  eapply inv_bind with (R := fun _ => True).
  { destruct (Qcltb v2 v1).
    - eapply inv_bind; [now apply inv_fixed_set|]. intros _ _. eapply inv_bind; [eapply inv_true, inv_control_good; [apply I2|exact R2]|]. intros r _. now apply inv_ret.
    - eapply inv_bind; [now apply inv_fixed_set|]. intros _ _. eapply inv_bind; [eapply inv_true, inv_control_good; [apply I1|exact R1]|]. intros r _. now apply inv_ret. }
  intros [q1 q2] _ s J. split; [exact J|auto].
Qed.

Lemma evaluate_fixed_speed : forall e t c s v, tn_variable t = false -> t_speed s = Some v ->
  t_speed (snd (evaluate_constraints e t c s)) = Some v.
Proof.
  intros e t c s v F V. unfold evaluate_constraints, bind at 1, reset_modifiers, modify.
  set (s0 := fold_left _ _ _).
  assert (J : running (tn_stages t) v s0).
  { split; [unfold s0; now rewrite fold_reset_speed|apply reset_settles]. }
  revert J. generalize s0. clear s0. intros s0 J.
  match goal with |- t_speed (snd (?m s0)) = _ => assert (H : inv (running (tn_stages t) v) m (fun _ => True)); [|apply (H s0 J)] end.
  eapply inv_bind with (R := fun _ => validate_rates t (c_rates c) = Return tt).
  { apply inv_lift. intros []. auto. }
  intros _ Hv. assert (exists rate, inlet_rate c = Return rate) as [rate R].
  { unfold inlet_rate. unfold validate_rates in Hv. destruct (c_rates c); [discriminate|eauto]. }
  destruct (any_ingoing t (c_rates c)); [|now apply inv_ret].
  eapply inv_bind with (R := fun _ => True); [|intros r _; now apply inv_ret]. destruct (c_interstage c) as [p|].
  - eapply inv_bind with (R := fun n => (1 <= n)%nat).
    { apply inv_lift. intros n Hn. unfold valid_stage_number in Hn. destruct (tn_stage_number t) as [k|]; [|discriminate].
      destruct (Nat.leb 1 k && Nat.leb k (length (tn_stages t) - 1)) eqn:Ek; [|discriminate]. assert (k = n) by congruence. subst k.
      apply andb_true_iff in Ek. destruct Ek as [E1 E2]. now apply Nat.leb_le in E1. }
    intros n N1. eapply inv_bind with (R := fun _ => True); [now apply inv_lift|]. intros controls _. eapply inv_fixed_two; eauto.
  - eapply inv_bind; [eapply inv_fixed_speed; [exact F|apply incl_refl|exact R]|]. intros w _.
    eapply inv_bind; [eapply inv_true, inv_good_calculate; [apply incl_refl|exact R]|]. intros r _.
    assert (Again : inv (running (tn_stages t) v) (match tn_control t with None => ret r | Some _ => with_pressure_control e t c end) (fun _ => True)).
    { destruct (tn_control t); [eapply inv_true, inv_control; [apply incl_refl|exact R]|now apply inv_ret]. }
    destruct (tr_status r); try exact Again; now apply inv_ret.
Qed.

(** ** One period at a time *)

Lemma periods_same : forall e t cs s l s' s0, evaluate_periods e t cs s = (Return l, s') ->
  (tn_variable t = true \/ exists v, t_speed s = Some v /\ t_speed s0 = Some v) ->
  Forall2 (fun c v => fst (evaluate_constraints e t c s0) = Return v) cs l.
Proof.
  intros e t cs. induction cs as [|c cs IH]; intros s l s' s0 H St; cbn [evaluate_periods] in H.
  - unfold ret in H. assert (l = []) by congruence. subst. constructor.
  - unfold bind at 1 in H. unfold reset_modifiers at 1, modify in H. set (s1 := fold_left _ _ _) in H.
    assert (V1 : t_speed s1 = t_speed s) by (unfold s1; apply fold_reset_speed).
    unfold bind at 1 in H. destruct (evaluate_constraints e t c s1) as [[v|] s2] eqn:E; [|discriminate].
    unfold bind at 1 in H. destruct (evaluate_periods e t cs s2) as [[l'|] s3] eqn:E'; [|discriminate].
    unfold ret in H. assert (l = v :: l') by congruence. subst l. constructor.
    + assert (X : fst (evaluate_constraints e t c s0) = fst (evaluate_constraints e t c s1)).
      { apply evaluate_same. destruct St as [St|[w [W1 W2]]]; [now left|right; congruence]. }
      rewrite X, E. reflexivity.
    + eapply IH; [exact E'|]. destruct (tn_variable t) eqn:Var; [now left|]. right. destruct St as [St|[w [W1 W2]]]; [discriminate|].
      exists w. split; [|exact W2]. pose proof (evaluate_fixed_speed e t c s1 w Var) as Y. rewrite E in Y. apply Y. congruence.
Qed.

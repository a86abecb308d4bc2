(** The speed of the shaft, and the whole evaluation (C79-C82). *)
From Coq Require Import List Bool ZArith Lia.
From Verif Require Import QcTac Base Num Search_Model Stream_Model Stream_Spec Flash_Model Process_Model Process_Spec Process_Proofs Train_Model Train_Spec Train_Proofs Train_Proofs2 Train_Proofs3 Train_Proofs4.
Import ListNotations.
Local Open Scope Qc_scope.

(** ** Triples *)

Definition triple {A} (P : tstate -> Prop) (m : M tstate A) (Q : A -> tstate -> Prop) : Prop :=
  forall s a s', P s -> m s = (Return a, s') -> Q a s'.

Lemma triple_inv : forall A I (m : M tstate A) (Q : A -> Prop), inv I m Q -> triple I m (fun a s => Q a /\ I s).
Proof. intros A I m Q H s a s' J E. destruct (H s J) as [H1 H2]. rewrite E in H1, H2. split; auto. Qed.
Lemma triple_bind : forall A B P (m : M tstate A) (k : A -> M tstate B) R Q,
  triple P m R -> (forall a, triple (R a) (k a) Q) -> triple P (bind m k) Q.
Proof.
  intros A B P m k R Q Hm Hk s b s' J E. unfold bind in E. destruct (m s) as [[a|x] s1] eqn:Em; [|discriminate].
  eapply (Hk a); [|exact E]. eapply Hm; eauto.
Qed.
Lemma triple_weaken : forall A (P P' : tstate -> Prop) (m : M tstate A) (Q Q' : A -> tstate -> Prop),
  triple P' m Q' -> (forall s, P s -> P' s) -> (forall a s, Q' a s -> Q a s) -> triple P m Q.
Proof. intros A P P' m Q Q' H H1 H2 s a s' J E. eapply H2, H; eauto. Qed.
Lemma triple_ret : forall A (P : tstate -> Prop) (a : A) (Q : A -> tstate -> Prop), (forall s, P s -> Q a s) -> triple P (ret a) Q.
Proof. intros A P a Q H s b s' J E. unfold ret in E. assert (b = a) by congruence. assert (s' = s) by congruence. subst. auto. Qed.
Lemma triple_raise : forall A P x (Q : A -> tstate -> Prop), triple P (raise x) Q.
Proof. intros A P x Q s b s' J E. discriminate. Qed.
Lemma triple_lift : forall A (P : tstate -> Prop) (o : outcome A), triple P (lift o) (fun a s => o = Return a /\ P s).
Proof. intros A P o s b s' J E. unfold lift in E. assert (o = Return b) by congruence. assert (s' = s) by congruence. subst s'. auto. Qed.
Lemma triple_pure : forall A (P : tstate -> Prop) (F : Prop) (m : M tstate A) Q, (F -> triple P m Q) -> triple (fun s => F /\ P s) m Q.
Proof. intros A P F m Q H s a s' [HF J] E. eapply H; eauto. Qed.

Lemma set_speed_ok : forall t v all, triple (settled_on all) (set_train_speed t v) (fun _ s => running all v s).
Proof.
  intros t v all s a s' J E. unfold set_train_speed in E. destruct (tn_variable t).
  - assert (s' = mk_tstate (Some v) (t_mod s)) by congruence. subst s'. split; [reflexivity|exact J].
  - destruct (t_speed s) as [w|] eqn:W.
    + destruct (Qceqb v w) eqn:V; [|discriminate]. apply Qceqb_eq in V. subst w. assert (s' = s) by congruence. subst s'. split; auto.
    + assert (s' = mk_tstate (Some v) (t_mod s)) by congruence. subst s'. split; [reflexivity|exact J].
Qed.
Lemma set_speed_settled : forall t v all s, settled_on all s -> settled_on all (snd (set_train_speed t v s)).
Proof.
  intros t v all s J. unfold set_train_speed. destruct (tn_variable t); [exact J|].
  destruct (t_speed s) as [w|]; [destruct (Qceqb v w)|]; exact J.
Qed.

Lemma inv_from_running : forall A t v all (m : M tstate A) (Q : A -> Prop), inv (running all v) m Q ->
  inv (settled_on all) (set_train_speed t v ;;* m) Q.
Proof.
  intros A t v all m Q H s J. unfold bind. pose proof (set_speed_settled t v all s J) as K.
  destruct (set_train_speed t v s) as [[[]|x] s1] eqn:E; cbn [snd] in K.
  - destruct (H s1 (set_speed_ok t v all s tt s1 J E)) as [[_ H1] H2]. split; auto.
  - split; [exact K|]. intros a X. discriminate.
Qed.

(** ** Finding the speed *)

Lemma find_speed_ok : forall all e t c lower upper rate, incl (tn_stages t) all -> inlet_rate c = Return rate ->
  triple (settled_on all) (find_speed e t c lower upper) (fun v s => running all v s).
Proof.
  intros all e t c lower upper rate I R. unfold find_speed.
  eapply triple_bind; [apply triple_lift|]. intros lowest. apply triple_pure. intros _.
  eapply triple_bind; [apply triple_lift|]. intros highest. apply triple_pure. intros _. cbv zeta.
  assert (Step : forall v, inv (settled_on all) (set_train_speed t v ;;* calculate_train e t c) (fun _ => True)).
  { intros v. apply inv_from_running. eapply inv_weaken; [eapply inv_good_calculate; eauto|]. auto. }
  assert (End : forall v, triple (settled_on all) (set_train_speed t v ;;* ret v) (fun v s => running all v s)).
  { intros v. eapply triple_bind; [apply set_speed_ok|]. intros u. apply triple_ret. auto. }
  eapply triple_bind; [apply triple_inv, Step|]. intros r_high. apply triple_pure. intros _.
  destruct (negb (tr_within r_high)); [apply End|].
  eapply triple_bind; [apply triple_inv, Step|]. intros r_low. apply triple_pure. intros _.
  eapply triple_bind.
  { apply triple_inv with (Q := fun _ => True). destruct (negb (tr_within r_low)); [|now apply inv_ret].
    eapply inv_bind; [apply inv_maximize; intros x; eapply inv_bind; [apply Step|]; intros r _; now apply inv_ret|]. intros m _.
    cbv zeta. eapply inv_bind; [apply Step|]. intros r _. now apply inv_ret. }
  intros [low r_low']. apply triple_pure. intros _. destruct (c_discharge c) as [target|]; [|apply End].
  destruct (Qcleb (tr_discharge r_low') target && Qcleb target (tr_discharge r_high)).
  - eapply triple_bind; [apply triple_inv, inv_find_root; intros x; eapply inv_bind; [apply Step|]; intros r _; now apply inv_ret|].
    intros v. apply triple_pure. intros _. apply End.
  - destruct (Qcltb target (tr_discharge r_low')); apply End.
Qed.

(** ** Plain trains *)

Lemma plain_inlet : forall e st rates streams x y, plain_stage st -> consistent_service (ph_service (e_physics e)) ->
  served (ph_service (e_physics e)) x -> stage_inlet e st rates streams x = Return y ->
  s_model y = s_model x /\ s_mass_rate y = s_mass_rate x /\ served (ph_service (e_physics e)) y.
Proof.
  intros e st rates streams x y (S & M & L) C V H. unfold stage_inlet in H. rewrite S, M, L in H. cbn [obind] in H.
  destruct (drop_pressure _ _ x) as [x1|] eqn:D; [|discriminate]. cbn [obind] in H.
  destruct (temperature_propagate _ _ x1) as [x2|] eqn:T; [|discriminate]. cbn [obind] in H. assert (x2 = y) by congruence. subst x2.
  apply drop_pressure_ok in D; auto. destruct D as (D1 & (D2 & D3 & _) & _). apply temperature_ok in T; auto.
  destruct T as (T1 & (T2 & T3 & _) & _). split; [congruence|]. split; [congruence|exact T1].
Qed.

Lemma fed_plain : forall e v stages l x y, Forall plain_stage stages -> consistent_service (ph_service (e_physics e)) ->
  served (ph_service (e_physics e)) x -> Forall2 (stage_at v) stages l -> fed e x stages l y ->
  alike x y /\ Forall (fun r => alike x (sr_inlet r) /\ alike x (sr_outlet r)) l.
Proof.
  intros e v stages. induction stages as [|st stages IH]; intros l x y P C V A F; destruct l as [|r l]; cbn [fed] in F; try contradiction.
  - subst y. split; [apply alike_refl|constructor].
  - destruct F as ((rates & streams & F1) & F2 & F3). inversion P; subst. inversion A; subst.
    destruct (plain_inlet _ _ _ _ _ _ H1 C V F1) as (M1 & M2 & M3).
    pose proof H4 as (_ & _ & _ & _ & _ & _ & O1 & O2 & _).
    assert (AI : alike x (sr_inlet r)) by (split; congruence). assert (AO : alike x (sr_outlet r)) by (split; congruence).
    destruct (IH l (sr_outlet r) y H2 C (F2 C M3) H6 F3) as [[Y1 Y2] Y3]. destruct AO as [AO1 AO2].
    split; [split; congruence|]. constructor; [split; auto; split; congruence|].
    eapply Forall_impl; [|exact Y3]. cbn beta. intros z [[Z1 Z2] [Z3 Z4]]. split; split; congruence.
Qed.

Lemma good_carries : forall e v t c rate r m ms, good e v t c rate r -> plain t -> consistent_service (ph_service (e_physics e)) ->
  tn_models t = Some m :: ms -> tn_stages t <> [] ->
  carries m (rate * standard_density_of (ph_service (e_physics e)) m / qz 24) r.
Proof.
  intros e v t c rate r m ms ((A & _) & _ & T & (x & y & F & [X1 X2] & [Y1 Y2] & Sv)) P C Em Ne.
  destruct (tn_stages t) as [|first rest] eqn:Es; [congruence|]. specialize (Sv C m ms first rest Em eq_refl).
  destruct (T m ms first rest Em Es) as (f & F1 & F2 & F3). apply create_fluid_model in F1.
  assert (M : s_model (tr_inlet r) = m) by (unfold s_model; congruence).
  unfold plain in P. rewrite Es in P. destruct (fed_plain e v (first :: rest) (tr_stages r) x y P C Sv A F) as [[Z1 Z2] Z3].
  split; [split; congruence|]. split; [split; congruence|]. eapply Forall_impl; [|exact Z3]. cbn beta.
  intros z [[W1 W2] [W3 W4]]. split; split; congruence.
Qed.

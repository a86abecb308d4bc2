(** What evaluating a train at one speed gives, for every pressure control (C79-C82). *)
From Coq Require Import List Bool ZArith Lia.
From Verif Require Import QcTac Base Num Search_Model Stream_Model Stream_Spec Flash_Model Process_Model Process_Spec Process_Proofs Train_Model Train_Spec Train_Proofs.
Import ListNotations.
Local Open Scope Qc_scope.

(** The shaft runs at [v] and the recirculation of the stages is settled. *)
Definition settled_on (all : list stage) (s : tstate) : Prop := forall st, In st all -> settled (t_mod s (st_id st)).
Definition running (all : list stage) (v : Qc) (s : tstate) : Prop := t_speed s = Some v /\ settled_on all s.

Lemma settled_update : forall all i f s, settled_on all s -> (forall m, settled m -> settled (f m)) ->
  settled_on all (update_modifier i f s).
Proof.
  intros all i f s H F st I. unfold update_modifier. cbn [t_mod]. unfold upd. destruct (Nat.eqb i (st_id st)) eqn:E; [|apply H, I].
  apply Nat.eqb_eq in E. subst i. apply F, H, I.
Qed.
Lemma settled_mass : forall all i x s, settled_on all s -> settled_on all (set_mass i x s).
Proof. intros. apply settled_update; auto. intros m _. now right. Qed.
Lemma settled_fraction : forall all i x s, settled_on all s -> settled_on all (set_fraction i x s).
Proof. intros. apply settled_update; auto. intros m _. now left. Qed.
Lemma settled_reset : forall all i s, settled_on all s -> settled_on all (reset_modifier i s).
Proof. intros. apply settled_update; auto. intros m _. now left. Qed.

Lemma fold_keeps : forall (P : tstate -> Prop) (f : nat -> tstate -> tstate) (l : list stage) s,
  (forall i s, P s -> P (f i s)) -> P s -> P (fold_left (fun s st => f (st_id st) s) l s).
Proof. intros P f l. induction l as [|st l IH]; intros s F H; cbn [fold_left]; [exact H|]. apply IH; auto. Qed.

Lemma inv_set_all : forall (I : tstate -> Prop) f t, (forall i s, I s -> I (f i s)) -> inv I (set_all f t) (fun _ => True).
Proof. intros I f t F. unfold set_all. apply inv_modify. intros s H. now apply fold_keeps. Qed.
Lemma inv_reset : forall (I : tstate -> Prop) t, (forall i s, I s -> I (reset_modifier i s)) -> inv I (reset_modifiers t) (fun _ => True).
Proof. intros I t F. unfold reset_modifiers. apply inv_modify. intros s H. now apply (fold_keeps I reset_modifier). Qed.

Lemma running_mass : forall all v i x s, running all v s -> running all v (set_mass i x s).
Proof. intros all v i x s [V S]. split; [exact V|now apply settled_mass]. Qed.
Lemma running_fraction : forall all v i x s, running all v s -> running all v (set_fraction i x s).
Proof. intros all v i x s [V S]. split; [exact V|now apply settled_fraction]. Qed.
Lemma running_reset : forall all v i s, running all v s -> running all v (reset_modifier i s).
Proof. intros all v i s [V S]. split; [exact V|now apply settled_reset]. Qed.

(** ** Stages *)

(** What leaves a stage is served when what enters is. *)
Definition keeps_served (e : environment) (r : stage_result) : Prop :=
  consistent_service (ph_service (e_physics e)) -> served (ph_service (e_physics e)) (sr_inlet r) ->
  served (ph_service (e_physics e)) (sr_outlet r).

Lemma compress_served : forall e p x y, compress e p x = Return y -> consistent_service (ph_service (e_physics e)) ->
  served (ph_service (e_physics e)) x -> served (ph_service (e_physics e)) y.
Proof.
  intros e p x y H C V. unfold compress in H. destruct (Qceqb (pt_eff p) 0); [discriminate|].
  destruct (compressor_outlet _ _ _ _) as [z|ex] eqn:E.
  - assert (z = y) by congruence. subst z. apply compressor_outlet_flashed in E. destruct E as [_ E].
    eapply flashed_same; eauto.
  - destruct ex; try discriminate. destruct (pt_valid p); [discriminate|]. congruence.
Qed.

Lemma inv_stage : forall all v e st rates streams x, In st all ->
  inv (running all v) (stage_evaluate e st rates streams x)
    (fun r => stage_at v st r /\ energy_balance r /\ stage_inlet e st rates streams x = Return (sr_inlet r) /\ keeps_served e r).
Proof.
  intros all v e st rates streams x I s [V S].
  split.
  - destruct (stage_evaluate_state e st rates streams x s) as [E|[y E]]; rewrite E; [split; auto|].
    split; [now rewrite modifier_add_speed|]. intros st' I'. apply modifier_add_settled, S, I'.
  - intros r E. destruct (stage_evaluate e st rates streams x s) as [o s'] eqn:H. cbn [fst] in E. subst o.
    pose proof (stage_evaluate_steps _ _ _ _ _ _ _ _ H) as (s1 & p & SI & _ & _ & _ & C & _).
    destruct (stage_proof _ _ _ _ _ _ _ _ H (S st I)) as (w & W & _ & A & B & _).
    assert (w = v) by congruence. subst w. split; [exact A|]. split; [exact B|]. split; [exact SI|].
    intros Sv V'. destruct A as (_ & _ & _ & _ & F1 & F2 & _).
    assert (served (ph_service (e_physics e)) (sr_outlet_asv r)).
    { eapply compress_served; [exact C|exact Sv|]. unfold served, s_standard_density, s_model in *. rewrite F1. exact V'. }
    unfold served, s_standard_density, s_model in *. rewrite F2. assumption.
Qed.

(** Each stage is fed by the one before it; [y] leaves the last. *)
Fixpoint fed (e : environment) (x : stream) (stages : list stage) (l : list stage_result) (y : stream) : Prop :=
  match stages, l with
  | [], [] => y = x
  | st :: stages', r :: l' =>
      (exists rates streams, stage_inlet e st rates streams x = Return (sr_inlet r)) /\ keeps_served e r /\ fed e (sr_outlet r) stages' l' y
  | _, _ => False
  end.

Lemma last_cons_default : forall {A} (l : list A) x y, last (x :: l) y = last l x.
Proof. intros A l. induction l as [|z l IH]; intros x y; [reflexivity|]. change (last (x :: z :: l) y) with (last (z :: l) y). rewrite (IH z y), (IH z x). reflexivity. Qed.

Lemma fed_last : forall e stages l x y z, fed e x stages l y -> last_opt l = Some z -> y = sr_outlet z.
Proof.
  intros e stages. induction stages as [|st stages IH]; intros l x y z F L; destruct l as [|r l]; cbn [fed] in F; try contradiction.
  - discriminate.
  - destruct F as [_ [_ F]]. destruct l as [|r' l].
    + cbn in L. destruct stages; cbn [fed] in F; [|contradiction]. congruence.
    + apply (IH (r' :: l) (sr_outlet r)); [exact F|]. rewrite <- L. unfold last_opt. f_equal. rewrite last_cons_default. reflexivity.
Qed.

Lemma inv_loop : forall all v e ps c stages k rem x, incl stages all ->
  inv (running all v) (train_loop e ps c stages k rem x)
    (fun p => Forall2 (stage_at v) stages (fst p) /\ Forall energy_balance (fst p) /\ fed e x stages (fst p) (snd p)).
Proof.
  intros all v e ps c stages. induction stages as [|st stages IH]; intros k rem x I; cbn [train_loop].
  - apply inv_ret. cbn [fst snd fed]. auto.
  - eapply inv_bind with (R := fun _ => True); [now apply inv_lift|]. intros rates _.
    eapply inv_bind with (R := fun _ => True); [now apply inv_lift|]. intros [streams rem'] _.
    eapply inv_bind; [apply inv_stage; apply I; now left|]. intros r (A & B & F & K).
    eapply inv_bind; [apply IH; intros z Z; apply I; now right|]. intros [l y] (A' & B' & F'). cbn [fst snd] in *.
    apply inv_ret. cbn [fst snd fed]. split; [constructor; auto|]. split; [constructor; auto|]. split; [eauto|]. auto.
Qed.

(** ** Status *)

Lemma over_exceeds : forall a b, Qcltb pressure_calculation_tolerance (a / b - 1) = true <-> exceeds a b.
Proof.
  intros a b. rewrite Qcltb_lt. unfold exceeds, pressure_calculation_tolerance. generalize (a / b). intros q.
  split; intros H; qc_lra.
Qed.
Lemma over_not : forall a b, Qcltb pressure_calculation_tolerance (a / b - 1) = false <-> ~ exceeds a b.
Proof.
  intros a b. rewrite <- over_exceeds. destruct (Qcltb _ _); split; intros H; auto; try discriminate.
  exfalso; apply H; reflexivity.
Qed.
Lemma not_over_self : forall a, ~ exceeds a a.
Proof.
  intros a H. unfold exceeds in H. destruct (Qc_eq_dec a 0) as [->|N].
  - vm_compute in H. discriminate.
  - assert (a / a = 1) by (field; exact N). rewrite H0 in H. vm_compute in H. discriminate.
Qed.

Lemma status_cases : forall c ts ss d i st, status_of c ts ss d i = st ->
  match st with
  | PressuresMet =>
      (forall p, c_discharge c = Some p -> meets d p) /\ (forall p q, c_interstage c = Some p -> i = Some q -> meets q p)
  | BelowDischarge => exists p, c_discharge c = Some p /\ exceeds p d
  | AboveDischarge => exists p, c_discharge c = Some p /\ exceeds d p
  | AboveSuction => exceeds ss ts
  | BelowIntermediate => exists p q, c_interstage c = Some p /\ i = Some q /\ exceeds p q
  | AboveIntermediate => exists p q, c_interstage c = Some p /\ i = Some q /\ exceeds q p
  | BelowSuction | NotCalculated => False
  end.
Proof.
  intros c ts ss d i st H. unfold status_of in H. cbv zeta in H.
  destruct (Qcltb pressure_calculation_tolerance (ss / ts - 1)) eqn:E1.
  { subst st. now apply over_exceeds. }
  assert (Rest : forall st, (forall p, c_discharge c = Some p -> meets d p) ->
    match c_interstage c, i with
    | Some p, Some q =>
        if Qcltb pressure_calculation_tolerance (q / p - 1) then AboveIntermediate
        else if Qcltb pressure_calculation_tolerance (p / q - 1) then BelowIntermediate else PressuresMet
    | _, _ => PressuresMet
    end = st ->
    match st with
    | PressuresMet =>
        (forall p, c_discharge c = Some p -> meets d p) /\ (forall p q, c_interstage c = Some p -> i = Some q -> meets q p)
    | BelowDischarge => exists p, c_discharge c = Some p /\ exceeds p d
    | AboveDischarge => exists p, c_discharge c = Some p /\ exceeds d p
    | AboveSuction => exceeds ss ts
    | BelowIntermediate => exists p q, c_interstage c = Some p /\ i = Some q /\ exceeds p q
    | AboveIntermediate => exists p q, c_interstage c = Some p /\ i = Some q /\ exceeds q p
    | BelowSuction | NotCalculated => False
    end).
  { clear st H. intros st D H. destruct (c_interstage c) as [p|] eqn:Ec.
    2:{ subst st. split; auto. intros; discriminate. }
    destruct i as [q|].
    2:{ subst st. split; auto. intros; discriminate. }
    destruct (Qcltb pressure_calculation_tolerance (q / p - 1)) eqn:E2.
    { subst st. apply over_exceeds in E2. exists p, q. auto. }
    destruct (Qcltb pressure_calculation_tolerance (p / q - 1)) eqn:E3.
    { subst st. apply over_exceeds in E3. exists p, q. auto. }
    subst st. apply over_not in E2. apply over_not in E3. split; auto. intros p' q' P Q.
    assert (p' = p) by congruence. assert (q' = q) by congruence. subst. split; auto. }
  destruct (c_discharge c) as [p|] eqn:Ed.
  - destruct (Qcltb pressure_calculation_tolerance (d / p - 1)) eqn:E2.
    { subst st. apply over_exceeds in E2. exists p. auto. }
    destruct (Qcltb pressure_calculation_tolerance (p / d - 1)) eqn:E3.
    { subst st. apply over_exceeds in E3. exists p. auto. }
    apply Rest in H; [exact H|]. intros p' P. assert (p' = p) by congruence. subst. apply over_not in E2. apply over_not in E3. split; auto.
  - apply Rest in H; [exact H|]. intros p' P. discriminate.
Qed.

Lemma check_stages_truth : forall t c l e x y st stages inlet speed above, c_interstage c = None -> fed e x stages l y ->
  check_stages c l = Return st -> truthful t c (mk_train_result inlet y speed l st above).
Proof.
  intros t c l e x y st stages inlet speed above N F H. unfold check_stages in H. destruct l as [|r l]; [discriminate|].
  destruct (last_opt (r :: l)) as [z|] eqn:L; [|discriminate].
  assert (Y : y = sr_outlet z) by (eapply fed_last; eauto).
  assert (H' : status_of c (sr_suction r) (sr_suction r) (sr_discharge z) None = st) by congruence. apply status_cases in H'.
  unfold truthful. cbn [tr_status tr_outlet tr_inlet tr_stages]. unfold sr_discharge in H'. rewrite <- Y in H'.
  destruct st; auto.
  - exfalso. apply (not_over_self _ H').
  - destruct H' as (p & q & _ & Q & _). discriminate.
  - destruct H' as (p & q & _ & Q & _). discriminate.
  - destruct H' as [H1 _]. split; auto. intros p n P. congruence.
Qed.

Lemma check_result_truth : forall t c r st, check_result t c r = Return st -> truthful t c (set_status r st).
Proof.
  intros t c r st H. unfold check_result in H. destruct (tr_stages r) as [|x l] eqn:Sr; [discriminate|].
  assert (K : forall i : option Qc, status_of c (tr_suction r) (sr_suction x) (tr_discharge r) i = st ->
    (forall n q, tn_stage_number t = Some n -> i = Some q -> (1 <= n)%nat -> intermediate_pressure r n q) ->
    (i = None -> tn_stage_number t = None) -> (forall q, i = Some q -> exists n, tn_stage_number t = Some n) ->
    truthful t c (set_status r st)).
  { intros i E P Q R. apply status_cases in E. unfold truthful, set_status. cbn [tr_status tr_outlet tr_inlet tr_stages].
    assert (P' : forall n q, tn_stage_number t = Some n -> i = Some q -> (1 <= n)%nat ->
      intermediate_pressure (mk_train_result (tr_inlet r) (tr_outlet r) (tr_speed r) (tr_stages r) st (tr_above_power r)) n q).
    { intros n q A B C. destruct (P n q A B C) as (z & Z1 & Z2). exists z. auto. }
    destruct st; auto.
    - exists x. rewrite Sr. split; [reflexivity|exact E].
    - destruct E as (p & q & E1 & E2 & E3). destruct (R q E2) as [n Nn]. exists p, n, q. repeat split; auto.
    - destruct E as (p & q & E1 & E2 & E3). destruct (R q E2) as [n Nn]. exists p, n, q. repeat split; auto.
    - destruct E as [E1 E2]. split; [exact E1|]. intros p n C Nn Ge. destruct i as [q|].
      + exists q. split; auto.
      + specialize (Q eq_refl). congruence. }
  destruct (tn_stage_number t) as [n|] eqn:Nn; cbn [obind] in H.
  - destruct (nth_result (x :: l) n) as [z|] eqn:Z; [|discriminate]. cbn [obind] in H.
    apply (K (Some (sr_discharge z))).
    + congruence.
    + intros m q A B C. assert (m = n) by congruence. assert (q = sr_discharge z) by congruence. subst m q.
      exists z. split; [|reflexivity]. rewrite Sr. unfold nth_result in Z. destruct n as [|n]; [lia|].
      replace (S n - 1)%nat with n by lia. destruct (nth_error (x :: l) n) as [w|]; [congruence|discriminate].
    + discriminate.
    + intros q _. eauto.
  - apply (K None); try discriminate; auto. congruence.
Qed.

Lemma truthful_same : forall t c c' r, c_discharge c' = c_discharge c -> c_interstage c' = c_interstage c ->
  truthful t c' r -> truthful t c r.
Proof. intros t c c' r D I. unfold truthful. rewrite D, I. auto. Qed.

(** ** The inlet *)

Lemma standard_stream_is : forall e m p temperature rate x, create_stream_from_standard_rate (e_service e) m p temperature rate = Return x ->
  exists f, create_fluid (ph_service (e_physics e)) m p temperature = Return f /\ s_fluid x = f /\
    s_mass_rate x = rate * standard_density_of (ph_service (e_physics e)) m / qz 24.
Proof.
  intros e m p temperature rate x H. unfold create_stream_from_standard_rate, e_service in H.
  destruct (create_fluid (ph_service (e_physics e)) m p temperature) as [f|] eqn:E; [|discriminate]. cbn [obind] in H.
  apply new_stream_ok in H. destruct H as [-> _]. exists f. repeat split.
Qed.

Lemma inlet_streams_first : forall e t c temperature l m ms, inlet_streams e t c temperature 0 (ports (tn_stages t)) = Return l ->
  tn_models t = Some m :: ms -> exists rate rest x l', c_rates c = rate :: rest /\ l = x :: l' /\
    create_stream_from_standard_rate (e_service e) m (c_suction c) temperature rate = Return x.
Proof.
  intros e t c temperature l m ms H Em. unfold ports in H. cbn [inlet_streams] in H. unfold nth_or at 1 in H. rewrite Em in H.
  cbn [nth_error obind] in H. unfold nth_or in H. destruct (c_rates c) as [|rate rest]; [discriminate|]. cbn [nth_error obind] in H.
  destruct (create_stream_from_standard_rate _ _ _ _ _) as [x|] eqn:Ex; [|discriminate]. cbn [obind] in H.
  destruct (inlet_streams _ _ _ _ _ _) as [l'|]; [|discriminate]. cbn [obind] in H. exists rate, rest, x, l'. repeat split; auto. congruence.
Qed.

(** ** The train at the speed of the shaft *)

(** What holds of every result of the train [t] at speed [v]. *)
Definition sound (e : environment) (v : Qc) (t : train) (r : train_result) : Prop :=
  Forall2 (stage_at v) (tn_stages t) (tr_stages r) /\ Forall energy_balance (tr_stages r) /\ tr_speed r = Some v /\
  (forall z, last_opt (tr_stages r) = Some z -> s_model (tr_outlet r) = s_model (sr_outlet z) /\ s_mass_rate (tr_outlet r) = s_mass_rate (sr_outlet z)).

Lemma inv_speed : forall A all v (k : option Qc -> A) (Q : A -> Prop), Q (k (Some v)) ->
  inv (running all v) (fun s => (Return (k (t_speed s)), s)) Q.
Proof.
  intros A all v k Q H s [V S]. cbn [fst snd]. split; [split; auto|]. intros a E. rewrite V in E. congruence.
Qed.

Definition from_inlet (e : environment) (t : train) (r : train_result) : Prop := fed e (tr_inlet r) (tn_stages t) (tr_stages r) (tr_outlet r).

Lemma inv_calculate : forall all v e t c, incl (tn_stages t) all ->
  inv (running all v) (calculate_train e t c)
    (fun r => sound e v t r /\ (c_interstage c = None -> truthful t c r) /\
       (forall rate, inlet_rate c = Return rate -> takes_in e t c rate r) /\ tr_above_power r = above_power t (tr_stages r) /\
       from_inlet e t r).
Proof.
  intros all v e t c I. unfold calculate_train. destruct (tn_stages t) as [|first rest] eqn:St; [apply inv_raise|].
  eapply inv_bind with (R := fun l => inlet_streams e t c (st_temperature first) 0 (ports (first :: rest)) = Return l);
    [apply inv_lift; auto|]. intros l El. destruct l as [|inlet remaining]; [apply inv_raise|].
  eapply inv_bind; [apply inv_loop; exact I|]. intros [results outlet] (A & B & F). cbn [fst snd] in *.
  eapply inv_bind with (R := fun st => check_stages c results = Return st); [apply inv_lift; auto|]. intros st Es.
  apply (inv_speed _ all v (fun sp => mk_train_result inlet outlet sp results st (above_power t results))).
  split; [|split; [|split; [|split]]].
  - unfold sound. rewrite St. cbn [tr_stages tr_speed tr_outlet]. repeat split; auto.
    + assert (Y : outlet = sr_outlet z) by (eapply fed_last; eauto). now rewrite Y.
    + assert (Y : outlet = sr_outlet z) by (eapply fed_last; eauto). now rewrite Y.
  - intros N. eapply check_stages_truth; eauto.
  - intros rate Er m ms first' rest' Em Es'. assert (first' = first) by congruence. subst first'.
    rewrite <- St in El. destruct (inlet_streams_first _ _ _ _ _ _ _ El Em) as (rate' & rates & x & l' & R1 & R2 & R3).
    unfold inlet_rate in Er. rewrite R1 in Er. assert (rate' = rate) by congruence. subst rate'. assert (x = inlet) by congruence. subst x.
    cbn [tr_inlet]. now apply standard_stream_is.
  - reflexivity.
  - unfold from_inlet. cbn [tr_inlet tr_stages tr_outlet]. now rewrite St.
Qed.

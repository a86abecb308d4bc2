(** The anti-surge controls, the speed of the shaft, and the whole evaluation (C79-C82). *)
From Coq Require Import List Bool ZArith Lia.
From Verif Require Import QcTac Base Num Search_Model Stream_Model Stream_Spec Flash_Model Process_Model Process_Spec Process_Proofs Train_Model Train_Spec Train_Proofs Train_Proofs2 Train_Proofs3.
Import ListNotations.
Local Open Scope Qc_scope.

(** ** The same fraction of the room in every stage *)

Lemma inv_individual_rate : forall all v e t c rate, incl (tn_stages t) all -> inlet_rate c = Return rate ->
  inv (running all v) (with_individual_rate e t c) (fun r => good e v t c rate r /\ flagged t r).
Proof.
  intros all v e t c rate I R. unfold with_individual_rate. cbv zeta.
  assert (Step : forall f, inv (running all v) (set_all (fun i => set_fraction i f) t ;;* calculate_train e t c)
    (fun r => good e v t c rate r /\ flagged t r)).
  { intros f. eapply inv_bind; [apply inv_set_all; intros i s; apply running_fraction|]. intros _ _. now apply inv_good_calculate. }
  eapply inv_bind; [apply Step|]. intros least L.
  eapply inv_bind with (R := fun _ => True); [now apply inv_lift|]. intros flag _.
  match goal with |- inv _ (if ?b then _ else _) _ => destruct b end; [now apply inv_ret|].
  eapply inv_bind; [apply Step|]. intros most Mo.
  destruct (c_discharge c) as [target|]; [|apply inv_raise].
  destruct (Qcltb target (tr_discharge most)); [now apply inv_ret|].
  eapply inv_bind with (R := fun _ => True).
  { apply inv_find_root. intros p. eapply inv_bind; [apply Step|]. intros r _. now apply inv_ret. }
  intros f _. apply Step.
Qed.

(** ** The same pressure ratio in every stage *)

Lemma inv_stage_with_mass : forall all v e st x mass, In st all ->
  inv (running all v) (stage_with_mass e st x mass)
    (fun r => stage_at v st r /\ energy_balance r /\ stage_inlet e st None None x = Return (sr_inlet r) /\ keeps_served e r).
Proof.
  intros all v e st x mass I. unfold stage_with_mass.
  eapply inv_bind; [apply inv_modify; intros s; apply running_mass|]. intros _ _. now apply inv_stage.
Qed.

Lemma inv_to_pressure : forall all v e st target x, In st all ->
  inv (running all v) (stage_to_pressure e st target x)
    (fun r => stage_at v st r /\ energy_balance r /\ stage_inlet e st None None x = Return (sr_inlet r) /\ keeps_served e r).
Proof.
  intros all v e st target x I. unfold stage_to_pressure.
  eapply inv_bind; [now apply inv_stage_with_mass|]. intros without W.
  eapply inv_bind with (R := fun _ => True).
  { intros s [V S]. unfold current_max_rate. rewrite V. cbn [fst snd]. split; [split; auto|auto]. }
  intros maximum _. cbv zeta. eapply inv_bind; [now apply inv_stage_with_mass|]. intros most Mo.
  destruct (Qcltb (sr_discharge without) target); [now apply inv_ret|].
  destruct (Qcltb target (sr_discharge most)); [now apply inv_ret|].
  eapply inv_bind with (R := fun _ => True).
  { apply inv_find_root. intros p. eapply inv_bind; [now apply inv_stage_with_mass|]. intros r _. now apply inv_ret. }
  intros mass _. now apply inv_stage_with_mass.
Qed.

Lemma inv_pressure_loop : forall all v e ratio stages x, incl stages all ->
  inv (running all v) (individual_pressure_loop e ratio stages x)
    (fun l => Forall2 (stage_at v) stages l /\ Forall energy_balance l /\ exists y, fed e x stages l y).
Proof.
  intros all v e ratio stages. induction stages as [|st stages IH]; intros x I; cbn [individual_pressure_loop].
  - apply inv_ret. split; [constructor|]. split; [constructor|]. now exists x.
  - eapply inv_bind; [apply inv_to_pressure; apply I; now left|]. intros r (A & B & F & K).
    eapply inv_bind; [apply IH; intros z Z; apply I; now right|]. intros l (A' & B' & y & F').
    apply inv_ret. split; [constructor; auto|]. split; [constructor; auto|]. exists y. split; [eauto|]. auto.
Qed.

Lemma inv_individual_pressure : forall all v e t c rate, incl (tn_stages t) all -> inlet_rate c = Return rate ->
  inv (running all v) (with_individual_pressure e t c) (fun r => good e v t c rate r).
Proof.
  intros all v e t c rate I R. unfold with_individual_pressure.
  destruct (c_discharge c) as [target|] eqn:D; [|apply inv_raise].
  eapply inv_bind with (R := fun x => x = rate); [apply inv_lift; congruence|]. intros rate' ->.
  eapply inv_bind with (R := fun m => main_model t = Return m); [apply inv_lift; auto|]. intros m Hm.
  eapply inv_bind with (R := fun m => first_stage t = Return m); [apply inv_lift; auto|]. intros first Hf.
  eapply inv_bind; [apply inv_lift with (Q := fun x =>
    create_stream_from_standard_rate (e_service e) m (c_suction c) (st_temperature first) rate = Return x); auto|].
  intros inlet Hi. destruct (main_ok _ _ Hm) as [ms Em]. destruct (first_ok _ _ Hf) as [rest Es]. cbv zeta.
  eapply inv_bind; [apply inv_pressure_loop; exact I|]. intros l (A & B & y & F).
  eapply inv_bind; [apply inv_lift with (Q := fun st => check_stages c l = Return st); auto|]. intros st Hs.
  destruct (last_opt l) as [z|] eqn:L; [|apply inv_raise].
  assert (Y : y = sr_outlet z) by (eapply fed_last; eauto). subst y.
  apply (inv_speed _ all v (fun sp => mk_train_result inlet (sr_outlet z) sp l st false)).
  split; [|split; [|split]].
  - split; [exact A|]. split; [exact B|]. split; [reflexivity|]. cbn [tr_stages tr_outlet]. intros z' Z. assert (z' = z) by congruence.
    subst z'. split; reflexivity.
  - intros N. eapply check_stages_truth; eauto.
  - apply (taken e t c rate m ms first rest inlet); auto.
  - exists inlet, (sr_outlet z). split; [exact F|]. split; [apply alike_refl|]. split; [apply alike_refl|].
    intros Cs m' ms' first' rest' Em' Es'.
    apply (takes_in_served e t c rate (mk_train_result inlet (sr_outlet z) (Some v) l st false) m' ms' first' rest'); auto.
    apply (taken e t c rate m ms first rest inlet); auto.
Qed.

(** ** The same recirculated mass in every stage *)

Lemma good_rate : forall e v t c c' rate r, c_suction c' = c_suction c -> c_discharge c' = c_discharge c ->
  c_interstage c' = c_interstage c -> good e v t c' rate r -> good e v t c rate r.
Proof.
  intros e v t c c' rate r S D N (A & B & C & P). split; [exact A|]. split; [|split; [|exact P]].
  - intros H. eapply truthful_same; [exact D|exact N|]. apply B. congruence.
  - eapply takes_in_suction; eauto.
Qed.

Lemma with_rate_ok : forall c rate c', with_rate c rate = Return c' ->
  c_suction c' = c_suction c /\ c_discharge c' = c_discharge c /\ c_interstage c' = c_interstage c /\ inlet_rate c' = Return rate.
Proof.
  intros c rate c' H. unfold with_rate in H. destruct (c_rates c); [discriminate|].
  assert (c' = mk_constraints (c_suction c) (c_discharge c) (c_interstage c) (rate :: l)) by congruence. subst. repeat split.
Qed.

Definition some_good (e : environment) (v : Qc) (t : train) (c : constraints) (r : train_result) : Prop :=
  (exists rate, good e v t c rate r) /\ flagged t r.

Lemma inv_at_mass : forall all v e t c m mass, incl (tn_stages t) all ->
  inv (running all v) (at_inlet_mass e t c m mass) (some_good e v t c).
Proof.
  intros all v e t c m mass I. unfold at_inlet_mass. eapply inv_bind; [apply inv_reset; intros i s; apply running_reset|]. intros _ _.
  eapply inv_bind; [apply inv_lift with (Q := fun c' => with_rate c (mass_rate_to_standard_rate (e_service e) m mass) = Return c'); auto|].
  intros c' H. apply with_rate_ok in H. destruct H as (S & D & N & R).
  eapply inv_weaken; [eapply inv_good_calculate; eauto|]. intros r (G & F). split; [|exact F].
  exists (mass_rate_to_standard_rate (e_service e) m mass). eapply good_rate; eauto.
Qed.
Lemma inv_with_added : forall all v e t c rate mass, incl (tn_stages t) all -> inlet_rate c = Return rate ->
  inv (running all v) (with_added_mass e t c mass) (some_good e v t c).
Proof.
  intros all v e t c rate mass I R. unfold with_added_mass.
  eapply inv_bind; [apply inv_set_all; intros i s; apply running_mass|]. intros _ _.
  eapply inv_weaken; [eapply inv_good_calculate; eauto|]. intros r (G & F). split; [|exact F]. now exists rate.
Qed.

Lemma inv_scan : forall I e (at_mass : Qc -> M tstate train_result) lo hi n inc, (forall m, inv I (at_mass m) (fun _ => True)) ->
  inv I (common_scan e at_mass lo hi n inc) (fun _ => True).
Proof.
  intros I e at_mass lo hi n. induction n as [|n IH]; intros inc H; cbn [common_scan].
  - eapply inv_bind; [apply H|]. intros r _. destruct (tr_constant_mass e r); now apply inv_ret.
  - eapply inv_bind; [apply H|]. intros r _. destruct (tr_constant_mass e r); [now apply inv_ret|]. apply IH, H.
Qed.

Lemma inv_at_speed : forall A all v (k : Qc -> M tstate A) (raised : M tstate A) (Q : A -> Prop),
  inv (running all v) (k v) Q ->
  inv (running all v) (fun s => match t_speed s with None => raised s | Some w => k w s end) Q.
Proof. intros A all v k raised Q H s J. pose proof J as [V _]. cbn beta. rewrite V. apply H, J. Qed.

Lemma inv_range : forall I e (at_mass : Qc -> M tstate train_result) (Q : train_result -> Prop) lo hi,
  (forall m, inv I (at_mass m) Q) ->
  inv I (common_range e at_mass lo hi) (fun o => match o with Some (_, _, r_lo, r_hi) => Q r_lo /\ Q r_hi | None => True end).
Proof.
  intros I e at_mass Q lo hi H. unfold common_range. cbv zeta.
  assert (Con : forall x, inv I (let* r := at_mass x in ret (tr_constant_mass e r)) (fun _ => True)).
  { intros x. eapply inv_bind; [apply H|]. intros r _. now apply inv_ret. }
  eapply inv_bind; [apply H|]. intros r_lo Q1. eapply inv_bind; [apply H|]. intros r_hi Q2.
  destruct (tr_constant_mass e r_lo).
  - destruct (tr_constant_mass e r_hi); [now apply inv_ret|].
    eapply inv_bind; [apply inv_maximize; intros x; apply Con|]. intros h _. eapply inv_bind; [apply H|]. intros r Q3. now apply inv_ret.
  - destruct (tr_constant_mass e r_hi).
    + eapply inv_bind; [apply inv_maximize; intros x; apply Con|]. intros h _. eapply inv_bind; [apply H|]. intros r Q3. now apply inv_ret.
    + eapply inv_bind with (R := fun _ => True).
      { apply inv_scan. intros m. eapply inv_weaken; [apply H|auto]. }
      intros [inc|] _; [|now apply inv_ret].
      eapply inv_bind; [apply inv_maximize; intros x; apply Con|]. intros m _.
      eapply inv_bind; [apply inv_maximize; intros x; apply Con|]. intros h _.
      eapply inv_bind; [apply H|]. intros r Q3. eapply inv_bind; [apply H|]. intros r' Q4. now apply inv_ret.
Qed.

Lemma inv_search : forall I e (at_mass with_added : Qc -> M tstate train_result) (Q : train_result -> Prop) discharge required lo hi,
  (forall m, inv I (at_mass m) Q) -> (forall m, inv I (with_added m) Q) ->
  inv I (common_search e at_mass with_added discharge required lo hi) Q.
Proof.
  intros I e at_mass with_added Q discharge required lo hi H W. unfold common_search.
  destruct (Qcltb hi required); [apply H|]. eapply inv_bind; [apply inv_range, H|].
  intros [[[[lo' hi'] r_lo] r_hi]|]; [intros [Q1 Q2]|intros _; apply H].
  destruct discharge as [target|]; [|apply inv_raise].
  destruct (Qcltb (tr_discharge r_lo) target); [now apply inv_ret|].
  destruct (Qcltb target (tr_discharge r_hi)); [now apply inv_ret|].
  eapply inv_bind with (R := fun _ => True); [|intros m _; apply W].
  apply inv_find_root. intros x. eapply inv_bind; [apply H|]. intros r _. now apply inv_ret.
Qed.

Lemma inv_common : forall all v e t c rate, incl (tn_stages t) all -> inlet_rate c = Return rate ->
  inv (running all v) (with_common_recirculation e t c) (some_good e v t c).
Proof.
  intros all v e t c rate I R. unfold with_common_recirculation.
  eapply inv_bind with (R := fun _ => True); [now apply inv_lift|]. intros rate' _.
  eapply inv_bind with (R := fun _ => True); [now apply inv_lift|]. intros m _.
  eapply inv_bind with (R := fun _ => True); [now apply inv_lift|]. intros first _. cbv zeta.
  eapply inv_bind with (R := fun _ => True); [now apply inv_lift|]. intros f _.
  intros s J. pose proof J as [V _]. rewrite V. revert s J V. intros s J _. revert s J.
  apply inv_search.
  - intros x. now apply inv_at_mass.
  - intros x. eapply inv_with_added; eauto.
Qed.

(** ** Any control *)

Definition controlled (t : train) : Prop := tn_control t <> Some IndividualPressure /\ (tn_control t = Some DownstreamChoking -> tn_max_discharge t = None).

Lemma inv_control : forall all v e t c rate, incl (tn_stages t) all -> inlet_rate c = Return rate ->
  inv (running all v) (with_pressure_control e t c)
    (fun r => (exists rate', good e v t c rate' r /\ (tn_control t <> Some CommonRecirculation -> rate' = rate)) /\
       (controlled t -> flagged t r)).
Proof.
  intros all v e t c rate I R s J. pose proof J as [V _]. unfold with_pressure_control. rewrite V.
  assert (H : inv (running all v)
    (match tn_control t with
     | Some DownstreamChoking => with_downstream_choke e t c
     | Some UpstreamChoking => with_upstream_choke e t c
     | Some IndividualRate => with_individual_rate e t c
     | Some IndividualPressure => with_individual_pressure e t c
     | Some CommonRecirculation => with_common_recirculation e t c
     | None => raise ValueErr
     end)
    (fun r => (exists rate', good e v t c rate' r /\ (tn_control t <> Some CommonRecirculation -> rate' = rate)) /\
       (controlled t -> flagged t r))); [|apply H, J].
  clear s J V. unfold controlled. destruct (tn_control t) as [[]|].
  - eapply inv_weaken; [eapply inv_upstream; eauto|]. intros r (G & F & _). split; auto. exists rate. auto.
  - eapply inv_weaken; [eapply inv_downstream; eauto|]. intros r (G & F). split; [exists rate; auto|]. intros [_ N]. apply F, N. reflexivity.
  - eapply inv_weaken; [eapply inv_individual_rate; eauto|]. intros r (G & F). split; auto. exists rate. auto.
  - eapply inv_weaken; [eapply inv_individual_pressure; eauto|]. intros r G. split; [exists rate; auto|]. intros [N _]. congruence.
  - eapply inv_weaken; [eapply inv_common; eauto|]. intros r ([rate' G] & F). split; auto. exists rate'. split; auto. congruence.
  - apply inv_raise.
Qed.

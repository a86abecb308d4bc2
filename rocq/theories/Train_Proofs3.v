(** The pressure controls of a train (C79-C82). *)
From Coq Require Import List Bool ZArith Lia.
From Verif Require Import QcTac Base Num Search_Model Stream_Model Stream_Spec Flash_Model Process_Model Process_Spec Process_Proofs Train_Model Train_Spec Train_Proofs Train_Proofs2.
Import ListNotations.
Local Open Scope Qc_scope.

(** The stages are fed from a stream like the inlet and give a stream like the outlet. *)
Definition alike (x y : stream) : Prop := s_model x = s_model y /\ s_mass_rate x = s_mass_rate y.
Definition passes (e : environment) (t : train) (r : train_result) : Prop :=
  exists x y, fed e x (tn_stages t) (tr_stages r) y /\ alike x (tr_inlet r) /\ alike y (tr_outlet r) /\
    (consistent_service (ph_service (e_physics e)) -> forall m ms first rest, tn_models t = Some m :: ms -> tn_stages t = first :: rest ->
       served (ph_service (e_physics e)) x).

Lemma takes_in_served : forall e t c rate r m ms first rest, consistent_service (ph_service (e_physics e)) ->
  takes_in e t c rate r -> tn_models t = Some m :: ms -> tn_stages t = first :: rest ->
  served (ph_service (e_physics e)) (tr_inlet r).
Proof.
  intros e t c rate r m ms first rest (C0 & C1 & C2) H Em Es. destruct (H m ms first rest Em Es) as (f & F1 & F2 & _).
  unfold create_fluid in F1. destruct (flash_pt _ _ _ _) as [p|] eqn:E; [|discriminate]. cbn [obind] in F1.
  assert (Ef : f = mk_fluid m p) by congruence. apply C1 in E. destruct E as (_ & _ & E & _).
  unfold served, s_standard_density, s_model. rewrite F2, Ef. exact E.
Qed.

Definition good (e : environment) (v : Qc) (t : train) (c : constraints) (rate : Qc) (r : train_result) : Prop :=
  sound e v t r /\ (c_interstage c = None -> truthful t c r) /\ takes_in e t c rate r /\ passes e t r.

Definition flagged (t : train) (r : train_result) : Prop := tr_above_power r = above_power t (tr_stages r).

Lemma alike_refl : forall x, alike x x. Proof. split; reflexivity. Qed.

Lemma inv_good_calculate : forall all v e t c rate, incl (tn_stages t) all -> inlet_rate c = Return rate ->
  inv (running all v) (calculate_train e t c) (fun r => good e v t c rate r /\ flagged t r).
Proof.
  intros all v e t c rate I R. eapply inv_weaken; [apply inv_calculate; exact I|]. intros r (A & B & C & D & F).
  split; [|exact D]. split; [exact A|]. split; [exact B|]. split; [now apply C|].
  exists (tr_inlet r), (tr_outlet r). split; [exact F|]. split; [apply alike_refl|]. split; [apply alike_refl|].
  intros Cs m ms first rest Em Es. eapply takes_in_served; eauto.
Qed.

Lemma takes_in_suction : forall e t c c' rate r, c_suction c' = c_suction c -> takes_in e t c' rate r -> takes_in e t c rate r.
Proof. intros e t c c' rate r S H. unfold takes_in in *. rewrite <- S. exact H. Qed.

Lemma create_fluid_model : forall sv m p temperature f, create_fluid sv m p temperature = Return f -> f_model f = m.
Proof.
  intros sv m p temperature f H. unfold create_fluid in H. destruct (flash_pt _ _ _ _) as [q|]; [|discriminate]. cbn [obind] in H.
  assert (f = mk_fluid m q) by congruence. subst. reflexivity.
Qed.

Lemma takes_in_alike : forall e t c c' rate r r' m ms first rest, tn_models t = Some m :: ms -> tn_stages t = first :: rest ->
  takes_in e t c rate r -> takes_in e t c' rate r' -> alike (tr_inlet r) (tr_inlet r').
Proof.
  intros e t c c' rate r r' m ms first rest Em Es H H'. destruct (H m ms first rest Em Es) as (f & F1 & F2 & F3).
  destruct (H' m ms first rest Em Es) as (f' & F1' & F2' & F3'). split; [|congruence].
  unfold s_model. apply create_fluid_model in F1. apply create_fluid_model in F1'. congruence.
Qed.

Lemma main_ok : forall t m, main_model t = Return m -> exists ms, tn_models t = Some m :: ms.
Proof. intros t m H. unfold main_model in H. destruct (tn_models t) as [|[x|] l]; try discriminate. exists l. congruence. Qed.
Lemma first_ok : forall t st, first_stage t = Return st -> exists rest, tn_stages t = st :: rest.
Proof. intros t m H. unfold first_stage in H. destruct (tn_stages t) as [|x l]; try discriminate. exists l. congruence. Qed.

Lemma taken : forall e t c rate m ms first rest x r, tn_models t = Some m :: ms -> tn_stages t = first :: rest ->
  create_stream_from_standard_rate (e_service e) m (c_suction c) (st_temperature first) rate = Return x ->
  tr_inlet r = x -> takes_in e t c rate r.
Proof.
  intros e t c rate m ms first rest x r Em Es H Er m' ms' first' rest' Em' Es'.
  assert (m' = m) by congruence. assert (first' = first) by congruence. subst. now apply standard_stream_is.
Qed.

(** ** Upstream choke *)

Lemma inv_upstream : forall all v e t c rate, incl (tn_stages t) all -> inlet_rate c = Return rate ->
  inv (running all v) (with_upstream_choke e t c)
    (fun r => good e v t c rate r /\ flagged t r /\ (exists m ms first rest, tn_models t = Some m :: ms /\ tn_stages t = first :: rest) /\
       (forall target, c_discharge c = Some target -> truthful t c r)).
Proof.
  intros all v e t c rate I R. unfold with_upstream_choke.
  eapply inv_bind with (R := fun x => x = rate); [apply inv_lift; congruence|]. intros rate' ->.
  eapply inv_bind with (R := fun m => main_model t = Return m); [apply inv_lift; auto|]. intros m Hm.
  eapply inv_bind with (R := fun m => first_stage t = Return m); [apply inv_lift; auto|]. intros first Hf.
  eapply inv_bind; [apply inv_lift with (Q := fun x =>
    create_stream_from_standard_rate (e_service e) m (c_suction c) (st_temperature first) rate = Return x); auto|].
  intros inlet Hi. destruct (main_ok _ _ Hm) as [ms Em]. destruct (first_ok _ _ Hf) as [rest Es].
  destruct (c_discharge c) as [target|] eqn:D; [|apply inv_raise]. cbv zeta.
  assert (Step : forall p, inv (running all v) (calculate_train e t (with_suction c p))
    (fun r => good e v t (with_suction c p) rate r /\ flagged t r)) by (intros p; now apply inv_good_calculate).
  eapply inv_bind with (R := fun _ => True).
  { apply inv_find_root. intros p. eapply inv_bind; [apply Step|]. intros r _. now apply inv_ret. }
  intros p _. eapply inv_bind; [apply Step|]. intros r ((A & _ & T & P) & F).
  eapply inv_bind; [apply inv_lift with (Q := fun st => check_result t c (set_inlet r inlet) = Return st); auto|]. intros st Hs.
  apply check_result_truth in Hs. apply inv_ret. split; [split; [|split; [|split]]|split; [|split]].
  - exact A.
  - intros _. exact Hs.
  - apply (taken e t c rate m ms first rest inlet); auto.
  - destruct P as (x & y & P1 & P2 & P3). exists x, y. split; [exact P1|]. split; [|exact P3].
    assert (Al : alike (tr_inlet r) (tr_inlet (set_inlet r inlet))).
    { eapply takes_in_alike; [exact Em|exact Es|exact T|]. apply (taken e t c rate m ms first rest inlet); auto. }
    destruct P2 as [P21 P22], Al as [A1 A2]. split; cbn [set_status tr_inlet set_inlet] in *; congruence.
  - exact F.
  - exists m, ms, first, rest. auto.
  - intros _ _. exact Hs.
Qed.

(** ** Downstream choke *)

Lemma with_new_fluid_ok : forall x f y, with_new_fluid x f = Return y -> s_fluid y = f /\ s_mass_rate y = s_mass_rate x.
Proof. intros x f y H. unfold with_new_fluid in H. apply new_stream_ok in H. destruct H as [-> _]. split; reflexivity. Qed.

Lemma good_outlet : forall e v t c rate r y st, good e v t c rate r -> alike (tr_outlet r) y ->
  check_result t c (set_outlet r y) = Return st -> good e v t c rate (set_status (set_outlet r y) st).
Proof.
  intros e v t c rate r y st (A & _ & T & P) [Y1 Y2] Hs. apply check_result_truth in Hs. split; [|split; [|split]].
  - destruct A as (A1 & A2 & A3 & A4). split; [exact A1|]. split; [exact A2|]. split; [exact A3|].
    intros z Z. destruct (A4 z Z) as [A5 A6]. cbn [set_status set_outlet tr_outlet]. split; congruence.
  - intros _. exact Hs.
  - exact T.
  - destruct P as (x & y' & P1 & P2 & [P3 P4] & P5). exists x, y'. split; [exact P1|]. split; [exact P2|]. split; [|exact P5].
    split; cbn [set_status set_outlet tr_outlet]; congruence.
Qed.

Lemma inv_downstream : forall all v e t c rate, incl (tn_stages t) all -> inlet_rate c = Return rate ->
  inv (running all v) (with_downstream_choke e t c)
    (fun r => good e v t c rate r /\ (tn_max_discharge t = None -> flagged t r)).
Proof.
  intros all v e t c rate I R. unfold with_downstream_choke.
  eapply inv_bind; [apply inv_good_calculate; [exact I|exact R]|]. intros r1 (G1 & F1).
  eapply inv_bind with (R := fun r => good e v t c rate r /\ (tn_max_discharge t = None -> flagged t r)).
  { destruct (tn_max_discharge t) as [limit|]; [|apply inv_ret; auto].
    destruct (Qcltb limit _); [|apply inv_ret; split; auto; discriminate].
    eapply inv_bind; [apply inv_upstream with (rate := rate); [exact I|exact R]|].
    intros choked ((A & _ & T & P) & _ & (m & ms & first & rest & Em & Es) & _).
    cbv zeta. eapply inv_bind; [apply inv_lift with (Q := fun st =>
      check_result t c (set_outlet (set_stages r1 (tr_stages choked)) (tr_outlet choked)) = Return st); auto|].
    intros st Hs. apply check_result_truth in Hs. apply inv_ret. split; [|discriminate].
    destruct G1 as (A1 & _ & T1 & P1). split; [|split; [|split]].
    - destruct A as (A2 & A3 & A4 & A5). destruct A1 as (_ & _ & A6 & _). split; [exact A2|]. split; [exact A3|]. split; [exact A6|exact A5].
    - intros _. exact Hs.
    - exact T1.
    - destruct P as (x & y & P2 & [P3 P4] & P5). exists x, y. split; [exact P2|]. split; [|exact P5].
      destruct (takes_in_alike _ _ _ _ _ _ _ _ _ _ _ Em Es T T1) as [Q1 Q2].
      split; cbn [set_status set_outlet set_stages tr_inlet]; congruence. }
  intros r (G & F). destruct (tr_status r); try (apply inv_ret; split; assumption).
  destruct (c_discharge c) as [target|]; [|apply inv_raise].
  eapply inv_bind; [apply inv_lift with (Q := fun f =>
    create_fluid (e_service e) (s_model (tr_outlet r)) target (s_temperature (tr_outlet r)) = Return f); auto|]. intros f Hf.
  eapply inv_bind; [apply inv_lift with (Q := fun y => with_new_fluid (tr_outlet r) f = Return y); auto|]. intros y Hy.
  cbv zeta. eapply inv_bind; [apply inv_lift with (Q := fun st => check_result t c (set_outlet r y) = Return st); auto|].
  intros st Hs. apply inv_ret. split; [|exact F].
  apply with_new_fluid_ok in Hy. destruct Hy as [Y1 Y2]. apply good_outlet; auto. split; [|congruence].
  unfold s_model at 2. rewrite Y1. symmetry. eapply create_fluid_model. exact Hf.
Qed.

(** Recirculation for each pressure control (C87) and root finding (C88). *)
From Coq Require Import List Bool ZArith Lia.
From Verif Require Import QcTac Base Num Search_Model Stream_Model Stream_Spec Flash_Model Process_Model Process_Spec Process_Proofs Train_Model Train_Spec Train_Proofs Train_Proofs2 Train_Proofs3 Train_Proofs4 Train_Proofs5 Train_Proofs6 Train_Proofs7 Train_Proofs8 Train_Proofs9.
Import ListNotations.
Local Open Scope Qc_scope.

(** ** Root finding *)

Lemma secant_inside : forall St (f : Qc -> M St Qc) tol lo hi n x0 x1 s x s', lo <= hi ->
  secant_loop f tol lo hi n x0 x1 s = (Return x, s') -> lo <= x /\ x <= hi.
Proof.
  intros St f tol lo hi n. induction n as [|n IH]; intros x0 x1 s x s' L H; cbn [secant_loop] in H;
  (unfold bind at 1 in H; destruct (f x0 s) as [[f0|] s1]; [|discriminate];
   unfold bind at 1 in H; destruct (f x1 s1) as [[f1|] s2]; [|discriminate];
   destruct (Qceqb (f1 - f0) 0); [discriminate|]; cbv zeta in H);
  set (x2 := Qcmax (Qcmin (x1 - f1 * (x1 - x0) / (f1 - f0)) hi) lo) in H;
  (assert (B : lo <= x2 /\ x2 <= hi) by (unfold x2; generalize (x1 - f1 * (x1 - x0) / (f1 - f0)); clear - L; intros q; qc_cases; split; qc_lra)).
  - unfold ret in H. assert (x = x2) by congruence. subst x. exact B.
  - destruct (Qcltb tol _); [eapply IH; eauto|]. unfold ret in H. assert (x = x2) by congruence. subst x. exact B.
Qed.

Lemma secant_between : forall St (f : Qc -> M St Qc) a b tol n s x s', secant a b f tol n s = (Return x, s') ->
  (a <= x /\ x <= b) \/ (b <= x /\ x <= a).
Proof.
  intros St f a b tol n s x s' H. unfold secant in H. apply secant_inside in H; [|qc_cases; qc_lra]. revert H. clear. qc_cases; intros [H1 H2]; first [left; split; qc_lra|right; split; qc_lra].
Qed.

(** Nothing outside is looked at. *)
Lemma secant_extensional : forall St (f g : Qc -> M St Qc) tol lo hi n x0 x1, lo <= hi -> lo <= x0 -> x0 <= hi -> lo <= x1 -> x1 <= hi ->
  (forall x, lo <= x -> x <= hi -> forall s, f x s = g x s) -> forall s, secant_loop f tol lo hi n x0 x1 s = secant_loop g tol lo hi n x0 x1 s.
Proof.
  intros St f g tol lo hi n. induction n as [|n IH]; intros x0 x1 L A0 B0 A1 B1 E s; cbn [secant_loop]; unfold bind;
  rewrite (E x0 A0 B0); destruct (g x0 s) as [[f0|] s1]; try reflexivity; rewrite (E x1 A1 B1); destruct (g x1 s1) as [[f1|] s2]; try reflexivity;
  (destruct (Qceqb (f1 - f0) 0); [reflexivity|]); cbv zeta.
  set (x2 := Qcmax (Qcmin (x1 - f1 * (x1 - x0) / (f1 - f0)) hi) lo).
    assert (B : lo <= x2 /\ x2 <= hi) by (unfold x2; generalize (x1 - f1 * (x1 - x0) / (f1 - f0)); clear - L; intros q; qc_cases; split; qc_lra).
    destruct (Qcltb tol _); [|reflexivity]. destruct B. now apply IH.
Qed.
Lemma secant_looks : forall St (f g : Qc -> M St Qc) a b tol n, a <= b -> (forall x, a <= x -> x <= b -> forall s, f x s = g x s) ->
  forall s, secant a b f tol n s = secant a b g tol n s.
Proof.
  intros St f g a b tol n L E s. unfold secant. assert (X : Qcmin a b = a /\ Qcmax a b = b) by (qc_cases; split; qc_lra). destruct X as [-> ->].
  apply secant_extensional; auto; apply Qcle_refl.
Qed.

Lemma tree_inside : forall St lo hi t (f : Qc -> M St Qc) s x s', answers_in lo hi t -> Solver_Model.find_root t f s = (Return x, s') -> lo <= x /\ x <= hi.
Proof.
  intros St lo hi t. induction t as [y|y|y k IH]; intros f s x s' A H; cbn [Solver_Model.find_root] in H.
  - unfold ret in H. assert (x = y) by congruence. subst. inversion A; auto.
  - discriminate.
  - unfold bind in H. destruct (f y s) as [[z|] s1]; [|discriminate]. eapply IH; [|exact H]. inversion A; auto.
Qed.
Lemma find_root_inside : forall St e lo hi (f : Qc -> M St Qc) tol n s x s', bracketing e -> lo <= hi ->
  find_root e lo hi f tol n s = (Return x, s') -> lo <= x /\ x <= hi.
Proof.
  intros St e lo hi f tol n s x s' B L H. unfold find_root, catch in H.
  destruct (Solver_Model.find_root (e_finder e lo hi tol n) f s) as [[y|] s1] eqn:E.
  - assert (y = x) by congruence. subst. eapply tree_inside; [|exact E]. apply B, L.
  - apply secant_between in H. destruct H as [H|[H1 H2]]; [exact H|]. split; qc_lra.
Qed.

(** ** The settings of the rate modifiers *)

Definition modes (all : list stage) (f : nat -> option Qc * option Qc) (o : option Qc) (s : tstate) : Prop :=
  t_speed s = o /\ forall st, In st all -> mode (t_mod s (st_id st)) = f (st_id st).
Definition proper_mode (m : option Qc * option Qc) : Prop := fst m = None \/ snd m = None.
Definition handled (f : nat -> option Qc * option Qc) (v : Qc) (st : stage) (r : stage_result) : Prop :=
  handles v st r (match f (st_id st) with
                  | (Some mass, _) => mass / s_density (sr_inlet r)
                  | (None, Some x) => x * room v st r
                  | (None, None) => 0
                  end).

Lemma modes_add : forall all f o st x s, modes all f o s -> modes all f o (snd (modifier_add st x s)).
Proof.
  intros all f o st x s [V H]. split; [now rewrite modifier_add_speed|]. intros st' I. rewrite <- (H st' I). unfold modifier_add.
  destruct (t_speed s); [|reflexivity]. cbv zeta. cbn [snd]. unfold update_modifier. cbn [t_mod]. unfold upd.
  destruct (Nat.eqb (st_id st) (st_id st')) eqn:E; [|reflexivity]. apply Nat.eqb_eq in E. now rewrite E.
Qed.

Lemma inv_modes_stage : forall all f o e st rates streams x, In st all -> (forall i, proper_mode (f i)) ->
  inv (modes all f o) (stage_evaluate e st rates streams x) (fun r => exists v, o = Some v /\ handled f v st r).
Proof.
  intros all f o e st rates streams x I P s J. split.
  - destruct (stage_evaluate_state e st rates streams x s) as [E|[y E]]; rewrite E; [exact J|]. now apply modes_add.
  - intros r E. destruct (stage_evaluate e st rates streams x s) as [o' s'] eqn:H. cbn [fst] in E. subst o'.
    destruct J as [V J]. specialize (J st I). unfold mode in J.
    assert (Se : settled (t_mod s (st_id st))).
    { specialize (P (st_id st)). rewrite <- J in P. exact P. }
    destruct (stage_proof _ _ _ _ _ _ _ _ H Se) as (v & V' & _ & _ & _ & R). exists v. split; [congruence|].
    unfold handled, handles. intros D. rewrite (R D). unfold asked_rate. rewrite <- J. unfold room.
    destruct (m_mass (t_mod s (st_id st))); [reflexivity|]. destruct (m_fraction (t_mod s (st_id st))); [reflexivity|].
    f_equal. ring.
Qed.

Lemma inv_modes_loop : forall all f o e ps c stages k rem x, incl stages all -> (forall i, proper_mode (f i)) ->
  inv (modes all f o) (train_loop e ps c stages k rem x) (fun p => Forall2 (fun st r => exists v, o = Some v /\ handled f v st r) stages (fst p)).
Proof.
  intros all f o e ps c stages. induction stages as [|st stages IH]; intros k rem x I P; cbn [train_loop].
  - apply inv_ret. constructor.
  - eapply inv_bind with (R := fun _ => True); [now apply inv_lift|]. intros rates _.
    eapply inv_bind with (R := fun _ => True); [now apply inv_lift|]. intros [streams rem'] _.
    eapply inv_bind; [apply inv_modes_stage; [apply I; now left|exact P]|]. intros r A.
    eapply inv_bind; [apply IH; [intros z Z; apply I; now right|exact P]|]. intros [l y] A'. cbn [fst] in *.
    apply inv_ret. constructor; auto.
Qed.

Definition all_handled (f : nat -> option Qc * option Qc) (t : train) (r : train_result) : Prop :=
  exists v, tr_speed r = Some v /\ Forall2 (handled f v) (tn_stages t) (tr_stages r).

Lemma inv_modes_calculate : forall all f o e t c, incl (tn_stages t) all -> (forall i, proper_mode (f i)) ->
  inv (modes all f o) (calculate_train e t c) (all_handled f t).
Proof.
  intros all f o e t c I P. unfold calculate_train, all_handled. destruct (tn_stages t) as [|first rest] eqn:St; [apply inv_raise|].
  eapply inv_bind with (R := fun _ => True); [now apply inv_lift|]. intros l _. destruct l as [|inlet remaining]; [apply inv_raise|].
  eapply inv_bind; [apply inv_modes_loop; [exact I|exact P]|]. intros [results outlet] A. cbn [fst snd] in *.
  eapply inv_bind with (R := fun _ => True); [now apply inv_lift|]. intros status _.
  intros s [V J]. cbn [fst snd]. split; [split; auto|]. intros r E.
  assert (r = mk_train_result inlet outlet (t_speed s) results status (above_power t results)) by congruence. subst r. cbn [tr_speed tr_stages].
  inversion A as [|? x ? l' (v & Ov & Hx) A']; subst. exists v. split; [congruence|].
  constructor; [exact Hx|]. clear - A' Ov. induction A' as [|? ? ? ? (w & Ow & Hw) A' IH]; constructor; [|exact IH].
  assert (w = v) by congruence. subst w. exact Hw.
Qed.

(** Whatever the speed. *)
Definition set_to (all : list stage) (f : nat -> option Qc * option Qc) (s : tstate) : Prop := forall st, In st all -> mode (t_mod s (st_id st)) = f (st_id st).
Lemma set_to_modes : forall all f A (m : M tstate A) Q, (forall o, inv (modes all f o) m Q) -> inv (set_to all f) m Q.
Proof. intros all f A m Q H s J. destruct (H (t_speed s) s (conj eq_refl J)) as [[_ H1] H2]. split; auto. Qed.

Lemma inv_set_to_calculate : forall all f e t c, incl (tn_stages t) all -> (forall i, proper_mode (f i)) ->
  inv (set_to all f) (calculate_train e t c) (all_handled f t).
Proof. intros all f e t c I P. apply set_to_modes. intros o. now apply inv_modes_calculate. Qed.
Lemma inv_set_to_speed : forall all f t v, inv (set_to all f) (set_train_speed t v) (fun _ => True).
Proof.
  intros all f t v s J. unfold set_train_speed. destruct (tn_variable t); [split; auto|].
  destruct (t_speed s) as [w|]; [destruct (Qceqb v w)|]; split; auto.
Qed.

Lemma inv_set_to_find : forall all f e t c lower upper, incl (tn_stages t) all -> (forall i, proper_mode (f i)) ->
  inv (set_to all f) (find_speed e t c lower upper) (fun _ => True).
Proof.
  intros all f e t c lower upper I P. unfold find_speed.
  eapply inv_bind with (R := fun _ => True); [now apply inv_lift|]. intros lowest _.
  eapply inv_bind with (R := fun _ => True); [now apply inv_lift|]. intros highest _. cbv zeta.
  assert (Step : forall w, inv (set_to all f) (set_train_speed t w ;;* calculate_train e t c) (fun _ => True)).
  { intros w. eapply inv_bind; [apply inv_set_to_speed|]. intros _ _. eapply inv_true, inv_set_to_calculate; eauto. }
  assert (End : forall w, inv (set_to all f) (set_train_speed t w ;;* ret w) (fun _ => True)).
  { intros w. eapply inv_bind; [apply inv_set_to_speed|]. intros _ _. now apply inv_ret. }
  eapply inv_bind; [apply Step|]. intros r_high _. destruct (negb (tr_within r_high)); [apply End|].
  eapply inv_bind; [apply Step|]. intros r_low _. eapply inv_bind with (R := fun _ => True).
  { destruct (negb (tr_within r_low)); [|now apply inv_ret].
    eapply inv_bind; [apply inv_maximize; intros x; eapply inv_bind; [apply Step|]; intros r _; now apply inv_ret|]. intros m _.
    cbv zeta. eapply inv_bind; [apply Step|]. intros r _. now apply inv_ret. }
  intros [low r_low'] _. destruct (c_discharge c) as [target|]; [|apply End].
  destruct (Qcleb (tr_discharge r_low') target && Qcleb target (tr_discharge r_high)).
  - eapply inv_bind; [apply inv_find_root; intros x; eapply inv_bind; [apply Step|]; intros r _; now apply inv_ret|].
    intros w _. apply End.
  - destruct (Qcltb target (tr_discharge r_low')); apply End.
Qed.

(** *** Chokes *)

Lemma all_handled_same : forall f t r r', all_handled f t r -> tr_speed r' = tr_speed r -> tr_stages r' = tr_stages r -> all_handled f t r'.
Proof. intros f t r r' (v & V & H) E1 E2. exists v. rewrite E1, E2. auto. Qed.

Lemma inv_set_to_upstream : forall all f e t c, incl (tn_stages t) all -> (forall i, proper_mode (f i)) ->
  inv (set_to all f) (with_upstream_choke e t c) (all_handled f t).
Proof.
  intros all f e t c I P. unfold with_upstream_choke.
  do 4 (eapply inv_bind with (R := fun _ => True); [now apply inv_lift|]; intros ? _).
  destruct (c_discharge c) as [target|]; [|apply inv_raise]. cbv zeta.
  eapply inv_bind; [apply inv_find_root; intros x; eapply inv_bind; [eapply inv_true, inv_set_to_calculate; eauto|]; intros r _; now apply inv_ret|].
  intros p _. eapply inv_bind; [apply inv_set_to_calculate; eauto|]. intros r H.
  eapply inv_bind with (R := fun _ => True); [now apply inv_lift|]. intros status _. apply inv_ret.
  eapply all_handled_same; [exact H|reflexivity|reflexivity].
Qed.

Lemma inv_modes_upstream : forall all f o e t c, incl (tn_stages t) all -> (forall i, proper_mode (f i)) ->
  inv (modes all f o) (with_upstream_choke e t c) (fun r => all_handled f t r /\ tr_speed r = o).
Proof.
  intros all f o e t c I P. unfold with_upstream_choke.
  do 4 (eapply inv_bind with (R := fun _ => True); [now apply inv_lift|]; intros ? _).
  destruct (c_discharge c) as [target|]; [|apply inv_raise]. cbv zeta.
  assert (Sp : forall c', inv (modes all f o) (calculate_train e t c') (fun r => all_handled f t r /\ tr_speed r = o)).
  { intros c'. apply inv_and; [apply inv_modes_calculate; auto|]. intros s J. split; [apply (inv_modes_calculate all f o e t c' I P s J)|].
    intros r E. unfold calculate_train in E. destruct (tn_stages t) as [|first rest] eqn:St; [discriminate|].
    unfold bind at 1 in E. unfold lift at 1 in E. destruct (inlet_streams _ _ _ _ _ _) as [[|inlet rem]|]; try discriminate.
    unfold bind at 1 in E. pose proof (inv_modes_loop all f o e (ports (first :: rest)) c' (first :: rest) 0 rem inlet I P s J) as [K _].
    destruct (train_loop _ _ _ _ _ _ _ s) as [[[l y]|] s1]; [|discriminate]. unfold bind at 1 in E. unfold lift at 1 in E.
    destruct (check_stages c' l); [|discriminate]. cbn [fst] in E. injection E as <-. cbn [tr_speed]. apply K. }
  eapply inv_bind; [apply inv_find_root; intros x; eapply inv_bind; [eapply inv_true, Sp|]; intros r _; now apply inv_ret|].
  intros p _. eapply inv_bind; [apply Sp|]. intros r [H V].
  eapply inv_bind with (R := fun _ => True); [now apply inv_lift|]. intros status _. apply inv_ret.
  split; [eapply all_handled_same; [exact H|reflexivity|reflexivity]|exact V].
Qed.

Lemma inv_set_to_downstream : forall all f e t c, incl (tn_stages t) all -> (forall i, proper_mode (f i)) ->
  inv (set_to all f) (with_downstream_choke e t c) (all_handled f t).
Proof.
  intros all f e t c I P. apply set_to_modes. intros o. unfold with_downstream_choke.
  eapply inv_bind with (R := fun r => all_handled f t r /\ tr_speed r = o).
  { pose proof (inv_modes_calculate all f o e t c I P) as H. intros s J. destruct (H s J) as [H1 H2]. split; [exact H1|].
    intros r E. split; [apply H2, E|].
    unfold calculate_train in E. destruct (tn_stages t) as [|first rest] eqn:St; [discriminate|].
    unfold bind at 1 in E. unfold lift at 1 in E. destruct (inlet_streams _ _ _ _ _ _) as [[|inlet rem]|]; try discriminate.
    unfold bind at 1 in E. pose proof (inv_modes_loop all f o e (ports (first :: rest)) c (first :: rest) 0 rem inlet I P s J) as [K _].
    destruct (train_loop _ _ _ _ _ _ _ s) as [[[l y]|] s1]; [|discriminate]. unfold bind at 1 in E. unfold lift at 1 in E.
    destruct (check_stages c l); [|discriminate]. cbn [fst] in E. injection E as <-. cbn [tr_speed]. apply K. }
  intros r [H V]. eapply inv_bind with (R := all_handled f t).
  { destruct (tn_max_discharge t) as [limit|]; [|now apply inv_ret]. destruct (Qcltb limit _); [|now apply inv_ret].
    eapply inv_bind; [apply inv_modes_upstream; eauto|]. intros choked [Hc Vc]. cbv zeta.
    eapply inv_bind with (R := fun _ => True); [now apply inv_lift|]. intros status _. apply inv_ret.
    eapply all_handled_same; [exact Hc| |reflexivity]. cbn [set_status set_outlet set_stages tr_speed]. congruence. }
  intros r' H'. destruct (tr_status r'); try (now apply inv_ret). destruct (c_discharge c) as [target|]; [|apply inv_raise].
  do 2 (eapply inv_bind with (R := fun _ => True); [now apply inv_lift|]; intros ? _). cbv zeta.
  eapply inv_bind with (R := fun _ => True); [now apply inv_lift|]. intros status _. apply inv_ret.
  eapply all_handled_same; [exact H'|reflexivity|reflexivity].
Qed.

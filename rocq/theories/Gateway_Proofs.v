(** Histories of the service for NeqSim. *)
From Coq Require Import PeanoNat Lia.
From Verif Require Import Base BaseLemmas Gateway_Model Gateway_Spec.
Local Open Scope list_scope.

Lemma close_length : forall l n, List.length (close_object l n) = List.length l.
Proof. induction l as [|o l IH]; intros [|n]; cbn; auto. Qed.
Lemma close_same : forall l n o, nth_error l n = Some o -> nth_error (close_object l n) n = Some (mkObject (o_config o) false).
Proof. induction l as [|x l IH]; intros [|n] o E; cbn in *; try discriminate; [injection E as ->; reflexivity|auto]. Qed.
Lemma close_other : forall l n k, k <> n -> nth_error (close_object l n) k = nth_error l k.
Proof. induction l as [|x l IH]; intros [|n] [|k] N; cbn; try reflexivity; [congruence|]. apply IH. congruence. Qed.

(** what holds in every history *)
Record sound (st : state) : Prop := {
  s_current : forall n, current st = Some (Py4J n) -> In n (running st) /\ exists c, nth_error (objects st) n = Some (mkObject c true);
  s_cached : forall s, In s (cached st) -> current st = Some s;
  s_running : forall n, In n (running st) -> (n < List.length (objects st))%nat;
  s_once : NoDup (running st) }.
Lemma cached_none : forall st, sound st -> current st = None -> cached st = [].
Proof. intros st H E. destruct (cached st) as [|s l] eqn:C; [reflexivity|]. pose proof (s_cached st H s) as X. rewrite C, E in X. discriminate (X (or_introl eq_refl)). Qed.
Lemma sound_initial : sound initial.
Proof. split; cbn; try contradiction; [discriminate|constructor]. Qed.
Lemma remove_nodup : forall l m, NoDup l -> NoDup (remove Nat.eq_dec m l).
Proof.
  induction l as [|x l IH]; intros m N; [constructor|]. inversion N as [|? ? I N']; subst. cbn [remove]. destruct (Nat.eq_dec m x); [auto|]. constructor; [|auto]. intros J. apply in_remove in J. tauto.
Qed.
Lemma sound_shutdown : forall st s closes, sound st -> sound (snd (shutdown s closes st)).
Proof.
  intros st s closes H. destruct H as [Hc Hk Hr Ho] eqn:EH. clear EH. unfold shutdown. destruct s as [n|].
  - destruct (nth_error (objects st) n) as [[c [|]]|] eqn:E; try (split; assumption).
    destruct (current st) as [[m|]|] eqn:C.
    + destruct closes; cbn [snd]; split; cbn; try contradiction; try discriminate; try assumption.
      * intros k K. apply in_remove in K as [K _]. rewrite close_length. auto.
      * apply remove_nodup. exact Ho.
    + cbn [snd]. split; cbn; try contradiction; try discriminate; assumption.
    + cbn [snd]. split; cbn; try contradiction; try discriminate; assumption.
  - cbn [snd]. split; cbn; try contradiction; assumption.
Qed.
Lemma sound_step : forall st op, sound st -> sound (step st op).
Proof.
  intros st op H. destruct op as [c|c| |starts| | |s closes|s closes]; cbn [step].
  - unfold configure. destruct (current st) eqn:C; cbn [snd]; [exact H|]. pose proof (cached_none st H C) as K. destruct H as [Hc Hk Hr Ho]. split; cbn; try assumption; [discriminate|]. rewrite K. contradiction.
  - unfold configure_on_subclass. destruct (current st); exact H.
  - destruct H as [Hc Hk Hr Ho]. split; assumption.
  - unfold initialize_py4j. destruct (current st) as [[n|]|] eqn:C; cbn [snd]; try exact H. destruct starts; cbn [snd]; [|exact H]. pose proof (cached_none st H C) as K. destruct H as [Hc Hk Hr Ho]. split; cbn.
    + intros n E. injection E as <-. split; [left; reflexivity|]. eexists. rewrite nth_error_app2, Nat.sub_diag by lia. reflexivity.
    + rewrite K. contradiction.
    + intros n [<-|I]; rewrite app_length; cbn; [lia|]. specialize (Hr n I). lia.
    + constructor; [|exact Ho]. intros I. specialize (Hr _ I). lia.
  - unfold initialize_jpype. destruct (current st) as [[n|]|] eqn:C; cbn [snd]; try exact H. pose proof (cached_none st H C) as K. destruct H as [Hc Hk Hr Ho]. split; cbn; try assumption; [discriminate|]. rewrite K. contradiction.
  - unfold use. destruct (current st) as [s|] eqn:C; cbn [snd]; [|exact H]. destruct H as [Hc Hk Hr Ho]. split; cbn; try assumption; rewrite <- C; try assumption. intros x I. apply in_app_or in I as [I|[<-|[]]]; auto.
  - apply sound_shutdown. exact H.
  - unfold exit_context. destruct s as [n|]; [|exact H]. destruct (nth_error (objects st) n) as [o|]; [|exact H]. destruct (shutdown_on_exit (o_config o)); [apply sound_shutdown; exact H|exact H].
Qed.
Lemma history_snoc : forall ops op, history (ops ++ [op]) = step (history ops) op.
Proof. intros ops op. unfold history. rewrite fold_left_app. reflexivity. Qed.
Lemma history_sound : forall ops, sound (history ops).
Proof. induction ops as [|op ops IH] using rev_ind; [exact sound_initial|]. rewrite history_snoc. apply sound_step. exact IH. Qed.

Lemma caches_fresh : forall ops s, In s (cached (history ops)) -> alive (history ops) s.
Proof. intros ops s I. pose proof (history_sound ops) as H. pose proof (s_cached _ H s I) as C. split; [exact C|]. destruct s as [n|]; [|exact Logic.I]. apply (s_current _ H n C). Qed.

(** if nothing fails to close *)
Definition tight (st : state) : Prop := (forall n, In n (running st) -> current st = Some (Py4J n)) /\ (forall n c, nth_error (objects st) n = Some (mkObject c true) -> current st = Some (Py4J n)).
Lemma tight_shutdown : forall st s, sound st -> tight st -> tight (snd (shutdown s true st)).
Proof.
  intros st s H [T1 T2]. unfold shutdown. destruct s as [n|]; [|split; assumption]. destruct (nth_error (objects st) n) as [[c [|]]|] eqn:E; try (split; assumption).
  pose proof (T2 n c E) as C. rewrite C. cbn [snd]. split; cbn.
  - intros k K. apply in_remove in K as [K D]. specialize (T1 k K). congruence.
  - intros k d K. destruct (Nat.eq_dec k n) as [->|D]; [rewrite (close_same _ _ _ E) in K; discriminate K|]. rewrite close_other in K by exact D. specialize (T2 k d K). congruence.
Qed.
Lemma tight_step : forall st op, sound st -> tight st -> closes_well op -> tight (step st op).
Proof.
  intros st op H T W. pose proof T as [T1 T2]. destruct op as [c|c| |starts| | |s closes|s closes]; cbn [step closes_well] in *.
  - unfold configure. destruct (current st) eqn:C; cbn [snd]; [exact T|]. split; cbn; assumption.
  - unfold configure_on_subclass. destruct (current st); exact T.
  - split; assumption.
  - unfold initialize_py4j. destruct (current st) as [[n|]|] eqn:C; cbn [snd]; try exact T. destruct starts; cbn [snd]; [|exact T]. split; cbn.
    + intros n [<-|I]; [reflexivity|]. discriminate (T1 n I).
    + intros n c E. destruct (Nat.lt_ge_cases n (List.length (objects st))) as [L|L]; [rewrite nth_error_app1 in E by exact L; discriminate (T2 n c E)|]. rewrite nth_error_app2 in E by exact L. destruct (n - List.length (objects st))%nat as [|k] eqn:D; [|destruct k; discriminate E]. do 2 f_equal. lia.
  - unfold initialize_jpype. destruct (current st) as [[n|]|] eqn:C; cbn [snd]; try exact T. split; cbn; [intros n I; discriminate (T1 n I)|intros n c E; discriminate (T2 n c E)].
  - unfold use. destruct (current st) as [s|] eqn:C; cbn [snd]; [|exact T]. split; cbn; rewrite <- C in *; assumption.
  - subst closes. apply tight_shutdown; assumption.
  - subst closes. unfold exit_context. destruct s as [n|]; [|exact T]. destruct (nth_error (objects st) n) as [o|]; [|exact T]. destruct (shutdown_on_exit (o_config o)); [apply tight_shutdown; assumption|exact T].
Qed.
Lemma history_tight : forall ops, Forall closes_well ops -> tight (history ops).
Proof.
  induction ops as [|op ops IH] using rev_ind; intros W; [split; cbn; [contradiction|intros [|n] c E; discriminate E]|]. apply Forall_app in W as [W W']. apply Forall_inv in W'. rewrite history_snoc. apply tight_step; [apply history_sound|auto|exact W'].
Qed.
Lemma one_process : forall ops, Forall closes_well ops -> running (history ops) = match current (history ops) with Some (Py4J n) => [n] | _ => [] end.
Proof.
  intros ops W. pose proof (history_tight ops W) as [T _]. pose proof (history_sound ops) as H. destruct (history ops) as [cur objs run conf cach]. cbn in *. pose proof (s_once _ H) as O. pose proof (s_current _ H) as K. cbn in *.
  destruct run as [|a [|b run]].
  - destruct cur as [[n|]|]; [|reflexivity|reflexivity]. destruct (K n eq_refl) as [[] _].
  - rewrite (T a (or_introl eq_refl)). reflexivity.
  - exfalso. pose proof (T a (or_introl eq_refl)) as A. pose proof (T b (or_intror (or_introl eq_refl))) as B. inversion O as [|? ? NI _]; subst. apply NI. left. congruence.
Qed.

(** leaving the context *)
Lemma exit_effect : forall ops n o, current (history ops) = Some (Py4J n) -> nth_error (objects (history ops)) n = Some o ->
  (shutdown_on_exit (o_config o) = true -> current (history (ops ++ [Exit (Py4J n) true])) = None /\ ~ In n (running (history (ops ++ [Exit (Py4J n) true]))) /\ cached (history (ops ++ [Exit (Py4J n) true])) = []) /\
  (shutdown_on_exit (o_config o) = false -> history (ops ++ [Exit (Py4J n) true]) = history ops).
Proof.
  intros ops n o C E. rewrite history_snoc. cbn [step]. pose proof (history_sound ops) as H. destruct (s_current _ H n C) as [R (c & E')]. rewrite E in E'. injection E' as ->. unfold exit_context. rewrite E. cbn [o_config]. split; intros S; rewrite S; [|reflexivity].
  unfold shutdown. rewrite E, C. cbn [snd current running cached]. split; [reflexivity|]. split; [|reflexivity]. apply remove_In.
Qed.
(** the configuration *)
Lemma step_config : forall st op n o, nth_error (objects st) n = Some o -> exists o', nth_error (objects (step st op)) n = Some o' /\ o_config o' = o_config o.
Proof.
  intros st op n o E. assert (S : forall s closes, exists o', nth_error (objects (snd (shutdown s closes st))) n = Some o' /\ o_config o' = o_config o).
  { intros s closes. unfold shutdown. destruct s as [k|]; [|exists o; auto]. destruct (nth_error (objects st) k) as [[c [|]]|]; try (exists o; auto; fail). destruct (current st) as [[m|]|]; try (exists o; auto; fail). destruct closes; [|exists o; auto]. cbn [snd objects].
    destruct (Nat.eq_dec n m) as [->|D]; [rewrite (close_same _ _ _ E); eexists; split; reflexivity|rewrite close_other by exact D; exists o; auto]. }
  destruct op as [c|c| |starts| | |s closes|s closes]; cbn [step].
  - unfold configure. destruct (current st); exists o; auto.
  - unfold configure_on_subclass. destruct (current st); exists o; auto.
  - exists o. auto.
  - unfold initialize_py4j. destruct (current st) as [[k|]|]; try (exists o; auto; fail). destruct starts; [|exists o; auto]. cbn [snd objects]. exists o. split; [|reflexivity]. rewrite nth_error_app1; [exact E|]. apply nth_error_Some. congruence.
  - unfold initialize_jpype. destruct (current st) as [[k|]|]; exists o; auto.
  - unfold use. destruct (current st); exists o; auto.
  - apply S.
  - unfold exit_context. destruct s as [k|]; [|exists o; auto]. destruct (nth_error (objects st) k) as [x|]; [|exists o; auto]. destruct (shutdown_on_exit (o_config x)); [apply S|exists o; auto].
Qed.
Lemma configuration_used : forall ops c,
  (forall s, current (history ops) = Some s -> configure c (history ops) = (Err OtherError, history ops)) /\
  (current (history ops) = None -> exists n, current (history (ops ++ [Configure c; InitializePy4J true])) = Some (Py4J n) /\
     forall later, exists o, nth_error (objects (history (ops ++ [Configure c; InitializePy4J true] ++ later))) n = Some o /\ o_config o = c).
Proof.
  intros ops c. split.
  - intros s C. unfold configure. rewrite C. reflexivity.
  - intros C. exists (List.length (objects (history ops))).
    assert (X : history (ops ++ [Configure c; InitializePy4J true]) = step (step (history ops) (Configure c)) (InitializePy4J true)) by (unfold history; rewrite fold_left_app; reflexivity).
    assert (Y : current (history (ops ++ [Configure c; InitializePy4J true])) = Some (Py4J (List.length (objects (history ops)))) /\ nth_error (objects (history (ops ++ [Configure c; InitializePy4J true]))) (List.length (objects (history ops))) = Some (mkObject c true)).
    { rewrite X. cbn [step]. unfold configure. rewrite C. cbn [snd]. unfold initialize_py4j. cbn. split; [reflexivity|]. rewrite nth_error_app2, Nat.sub_diag by lia. reflexivity. }
    destruct Y as [Y1 Y2]. split; [exact Y1|]. intros later. rewrite app_assoc. induction later as [|op later IH] using rev_ind.
    + rewrite app_nil_r. eexists. split; [exact Y2|reflexivity].
    + destruct IH as (o & E & Ec). rewrite app_assoc, history_snoc. destruct (step_config _ op _ _ E) as (o' & E' & Ec'). exists o'. split; [exact E'|congruence].
Qed.
(** one kind of service at a time *)
Lemma one_kind : forall ops s, current (history ops) = Some s ->
  fst (use (history ops)) = Ok s /\ match s with
  | Py4J _ => (forall starts, initialize_py4j starts (history ops) = (Ok s, history ops)) /\ initialize_jpype (history ops) = (Err ProgrammingError, history ops)
  | JPype => initialize_jpype (history ops) = (Ok s, history ops) /\ forall starts, initialize_py4j starts (history ops) = (Err ProgrammingError, history ops) end.
Proof. intros ops s C. unfold use, initialize_py4j, initialize_jpype. rewrite C. split; [reflexivity|]. destruct s; auto. Qed.

(** wrong expectations *)
Lemma nested_contexts_refuted : exists ops s, current (history ops) = Some s /\ initialize_py4j true (history ops) = (Ok s, history ops) /\
  fst (use (history (ops ++ [InitializePy4J true; Exit s true]))) = Err ProgrammingError.
Proof. exists [InitializePy4J true], (Py4J 0). repeat split. Qed.
Lemma failed_close_refuted : exists ops, running (history ops) = [1; 0]%nat /\ current (history ops) = Some (Py4J 1) /\
  current (history (ops ++ [Shutdown (Py4J 0) true])) = None /\ running (history (ops ++ [Shutdown (Py4J 0) true])) = [0]%nat.
Proof. exists [InitializePy4J true; Exit (Py4J 0) false; InitializePy4J true]. repeat split. Qed.
Lemma configured_on_subclass_refuted : exists c, c <> default_config /\ configure_on_subclass c initial = (Ok tt, initial) /\
  objects (history [ConfigureOnSubclass c; InitializePy4J true]) = [mkObject default_config true].
Proof. exists (mkConfig 4 false). repeat split. discriminate. Qed.

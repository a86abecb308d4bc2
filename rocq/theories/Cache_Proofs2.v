(** The cache: threads. *)
From Coq Require Import ZArith PeanoNat.
From Verif Require Import Base BaseLemmas Cache_Model Cache_Spec Cache_Proofs.
Local Open Scope list_scope.
Local Open Scope nat_scope.

Section Threads.
Context {K V : Type}.
Variable eqb : K -> K -> bool.

Lemma run_app : forall ops1 ops2 (s : @lru K V), run eqb (ops1 ++ ops2) s =
  let (s1, r1) := run eqb ops1 s in let (s2, r2) := run eqb ops2 s1 in (s2, r1 ++ r2).
Proof.
  induction ops1 as [|o ops1 IH]; intros ops2 s; cbn [app run].
  - destruct (run eqb ops2 s); reflexivity.
  - destruct (call eqb o s) as [s1 r]. rewrite IH. destruct (run eqb ops1 s1) as [s2 r1]. destruct (run eqb ops2 s2) as [s3 r2]. reflexivity.
Qed.

Lemma set_thread_at : forall i t (m : @machine K V), i < length (threads m) ->
  length (set_thread i t m) = length (threads m) /\
  forall j, nth_error (set_thread i t m) j = if Nat.eqb i j then Some t else nth_error (threads m) j.
Proof.
  intros i t m. unfold set_thread. generalize (threads m). clear m. intros l. revert i. induction l as [|x l IH]; intros i H; [cbn in H; lia|].
  destruct i as [|i].
  - cbn. split; [reflexivity|]. intros [|j]; reflexivity.
  - cbn [length] in H. destruct (IH i) as [H1 H2]; [lia|]. cbn [firstn skipn app length]. split.
    + f_equal. exact H1.
    + intros [|j]; [reflexivity|]. cbn [nth_error Nat.eqb]. apply H2.
Qed.

Lemma of_thread_app : forall A i (a b : list (nat * A)), of_thread i (a ++ b) = of_thread i a ++ of_thread i b.
Proof. intros A i a b. unfold of_thread. rewrite filter_app, map_app. reflexivity. Qed.

(** What holds at every moment. *)
Definition good (size : Z) (programs : list (list (@op K V))) (h : list (nat * (@op K V * result (@output V)))) (m : @machine K V) : Prop :=
  explains eqb size programs h m /\
  match owner m with
  | None => forall i t, nth_error (threads m) i = Some t -> running t = None
  | Some j => exists t o p, nth_error (threads m) j = Some t /\ running t = Some (o, p) /\
      exec p (shared m) = call eqb o (fst (run eqb (map (fun e => fst (snd e)) h) (new_lru size))) /\
      forall i t', i <> j -> nth_error (threads m) i = Some t' -> running t' = None
  end.

Lemma good_start : forall size programs, good size programs [] (start size programs).
Proof.
  intros size programs. unfold good, start, explains. cbn [owner threads shared]. split.
  - cbn [map run snd fst]. split; [reflexivity|]. split; [intros e []|]. split; [apply map_length|]. split; [|reflexivity].
    intros i t Ht. rewrite nth_error_map in Ht. destruct (nth_error programs i) as [ops|]; [|discriminate]. cbn in Ht. injection Ht as <-.
    split; reflexivity.
  - intros i t Ht. rewrite nth_error_map in Ht. destruct (nth_error programs i) as [ops|]; [|discriminate]. cbn in Ht. injection Ht as <-. reflexivity.
Qed.

Lemma good_step : forall size programs h m m', good size programs h m -> step eqb m m' ->
  exists more, good size programs (h ++ more) m'.
Proof.
  intros size programs h m m' [[H1 [H1b [H2 [H3 H4]]]] H5] Hs. destruct Hs as [m i t o ops Ht Hr Hd Ho|m i t o f k Ht Hr Ho|m i t o r Ht Hr Ho];
    (assert (Hi : i < length (threads m)) by (apply nth_error_Some; congruence)).
  - exists []. rewrite app_nil_r. destruct (set_thread_at i (mk_thread ops (Some (o, prog_of eqb o)) (results t)) m Hi) as [L1 L2].
    split; [split; [assumption|split; [assumption|split; [cbn [threads]; congruence|split]]]|].
    + cbn [threads]. intros j u Hu. rewrite L2 in Hu. destruct (Nat.eqb_spec i j) as [->|Hij]; [|apply H3; assumption].
      injection Hu as <-. destruct (H3 j t Ht) as [E1 E2]. split; [assumption|]. rewrite E2. unfold program_left. cbn [running results todo]. rewrite Hr, Hd. reflexivity.
    + cbn [owner]. discriminate.
    + cbn [owner threads shared]. rewrite Ho in H5. exists (mk_thread ops (Some (o, prog_of eqb o)) (results t)), o, (prog_of eqb o).
      rewrite L2, Nat.eqb_refl. split; [reflexivity|]. split; [reflexivity|]. split; [unfold call; rewrite (H4 Ho); reflexivity|].
      intros j u Hj Hu. rewrite L2 in Hu. destruct (Nat.eqb_spec i j) as [->|_]; [contradiction|]. eapply H5; eassumption.
  - exists []. rewrite app_nil_r. destruct (set_thread_at i (mk_thread (todo t) (Some (o, k (shared m))) (results t)) m Hi) as [L1 L2].
    rewrite Ho in H5. destruct H5 as [t0 [o0 [p0 [G1 [G2 [G3 G4]]]]]]. rewrite Ht in G1. injection G1 as <-. rewrite Hr in G2. injection G2 as <- <-.
    split; [split; [assumption|split; [assumption|split; [cbn [threads]; congruence|split]]]|].
    + cbn [threads]. intros j u Hu. rewrite L2 in Hu. destruct (Nat.eqb_spec i j) as [->|Hij]; [|apply H3; assumption].
      injection Hu as <-. destruct (H3 j t Ht) as [E1 E2]. split; [assumption|]. rewrite E2. unfold program_left. cbn [running results todo]. rewrite Hr. reflexivity.
    + cbn [owner]. discriminate.
    + cbn [owner threads shared]. exists (mk_thread (todo t) (Some (o, k (shared m))) (results t)), o, (k (shared m)).
      rewrite L2, Nat.eqb_refl. split; [reflexivity|]. split; [reflexivity|]. split; [exact G3|].
      intros j u Hj Hu. rewrite L2 in Hu. destruct (Nat.eqb_spec i j) as [->|_]; [contradiction|]. eapply G4; eassumption.
  - exists [(i, (o, r))]. destruct (set_thread_at i (mk_thread (todo t) None (results t ++ [(o, r)])) m Hi) as [L1 L2].
    rewrite Ho in H5. destruct H5 as [t0 [o0 [p0 [G1 [G2 [G3 G4]]]]]]. rewrite Ht in G1. injection G1 as <-. rewrite Hr in G2. injection G2 as <- <-.
    cbn [exec] in G3.
    assert (Erun : run eqb (map (fun e => fst (snd e)) (h ++ [(i, (o, r))])) (new_lru size) = (shared m, map snd (h ++ [(i, (o, r))]))).
    { rewrite map_app, run_app. destruct (run eqb (map (fun e => fst (snd e)) h) (new_lru size)) as [s1 r1] eqn:E. cbn [fst snd map run] in *.
      rewrite <- G3. rewrite map_app, H1. reflexivity. }
    split; [split; [rewrite Erun; reflexivity|split; [|split; [cbn [threads]; congruence|split]]]|].
    + intros e He. apply in_app_or in He. destruct He as [He|[<-|[]]]; [apply H1b; assumption|]. cbn. lia.
    + cbn [threads]. intros j u Hu. rewrite L2 in Hu. rewrite of_thread_app. unfold of_thread at 2. cbn [filter fst]. destruct (Nat.eqb_spec i j) as [->|Hij].
      * injection Hu as <-. destruct (H3 j t Ht) as [E1 E2]. cbn [map snd results]. split; [rewrite E1; reflexivity|].
        rewrite E2. unfold program_left. cbn [running results todo]. rewrite Hr, map_app. cbn [map fst]. rewrite <- app_assoc. reflexivity.
      * cbn [map]. rewrite app_nil_r. apply H3. assumption.
    + cbn [owner shared]. intros _. rewrite Erun. reflexivity.
    + cbn [owner threads]. intros j u Hu. rewrite L2 in Hu. destruct (Nat.eqb_spec i j) as [->|Hij]; [injection Hu as <-; reflexivity|]. eapply G4; [|eassumption]. congruence.
Qed.

Lemma good_steps : forall size programs m m' h, good size programs h m -> steps eqb m m' ->
  exists more, good size programs (h ++ more) m'.
Proof.
  intros size programs m m' h Hg Hs. induction Hs as [m|m m1 m2 Hs IH Hstep].
  - exists []. rewrite app_nil_r. assumption.
  - destruct (IH Hg) as [more1 H1]. destruct (good_step _ _ _ _ _ H1 Hstep) as [more2 H2]. exists (more1 ++ more2). rewrite app_assoc. assumption.
Qed.

Lemma good_progress : forall size programs h m, good size programs h m ->
  (forall t, In t (threads m) -> finished t) \/ exists m', step eqb m m'.
Proof.
  intros size programs h m [_ H]. destruct (owner m) as [j|] eqn:Ho.
  - right. destruct H as [t [o [p [G1 [G2 _]]]]]. destruct p as [r|f k]; eexists; [eapply step_release|eapply step_prim]; eassumption.
  - assert (Hd : (forall t, In t (threads m) -> todo t = []) \/ exists i t o ops, nth_error (threads m) i = Some t /\ todo t = o :: ops).
    { generalize (threads m). intros l. induction l as [|t l IH]; [left; intros t []|]. destruct (todo t) as [|o ops] eqn:E.
      - destruct IH as [IH|[i [u [o [ops [Hi Hu]]]]]].
        + left. intros u [<-|Hu]; [assumption|apply IH; assumption].
        + right. exists (S i), u, o, ops. split; assumption.
      - right. exists 0, t, o, ops. split; [reflexivity|assumption]. }
    destruct Hd as [Hd|[i [t [o [ops [Hi Ht]]]]]].
    + left. intros t Hin. split; [apply Hd; assumption|]. apply In_nth_error in Hin. destruct Hin as [i Hi]. eapply H; eassumption.
    + right. eexists. eapply step_acquire; try eassumption. eapply H; eassumption.
Qed.
End Threads.

Lemma threads_proof : forall (K V : Type) (eqb : K -> K -> bool) (size : Z) (programs : list (list (@op K V))) (m m' : @machine K V),
  steps eqb (start size programs) m -> steps eqb m m' ->
  exists h more, explains eqb size programs h m /\ explains eqb size programs (h ++ more) m' /\
    ((forall t, In t (threads m) -> finished t) \/ exists next, step eqb m next).
Proof.
  intros K V eqb size programs m m' H1 H2. destruct (good_steps eqb size programs _ _ [] (good_start eqb size programs) H1) as [h Hh]. cbn [app] in Hh.
  destruct (good_steps eqb size programs _ _ _ Hh H2) as [more Hm]. exists h, more. split; [apply Hh|]. split; [apply Hm|].
  eapply good_progress; eassumption.
Qed.

Lemma threads_right_proof : forall (K V : Type) (eqb : K -> K -> bool) (size : nat) (programs : list (list (@op K V))) (m : @machine K V),
  (forall a b, eqb a b = true <-> a = b) -> 0 < size ->
  steps eqb (start (Z.of_nat size) programs) m ->
  exists h : list (nat * (@op K V * result (@output V))),
    right_history eqb size [] (map snd h) /\
    forall i t, nth_error (threads m) i = Some t ->
      results t = of_thread i h /\ nth_error programs i = Some (map fst (results t) ++ program_left t).
Proof.
  intros K V eqb size programs m Heq Hs Hm.
  destruct (good_steps eqb _ programs _ _ [] (good_start eqb (Z.of_nat size) programs) Hm) as [h [[H1 [_ [_ [H3 _]]]] _]]. cbn [app] in *.
  exists h. split; [|assumption]. rewrite <- H1. apply (run_right eqb Heq size _ _ []); [assumption|]. apply inv_new.
Qed.

(** ** The registry *)
From Coq Require Import String.
Lemma string_get_set : forall (A : Type) k k' (v : A) d, dict_get String.eqb k (dict_set String.eqb k' v d) = if String.eqb k k' then Some v else dict_get String.eqb k d.
Proof. intros. rewrite dict_get_set by apply String.eqb_eq. reflexivity. Qed.
Lemma get_clear_all : forall (K V : Type) (eqb : K -> K -> bool) name (r : @registry K V),
  dict_get String.eqb name (clear_all eqb r) = option_map (fun c => fst (call eqb Clear c)) (dict_get String.eqb name r).
Proof. intros K V eqb name r. unfold clear_all. induction r as [|[n c] r IH]; cbn; [reflexivity|]. destruct (String.eqb name n); [reflexivity|assumption]. Qed.

Lemma registry_core : forall (K V : Type) (eqb : K -> K -> bool) name (ops : list (@service_op K V)) r,
  dict_get String.eqb name (fold_left (service_step eqb) ops r) =
  match dict_get String.eqb name r with
  | Some c => Some (fst (run eqb (calls_on true name ops) c))
  | None => option_map (fun size => fst (run eqb (calls_on false name ops) (new_lru size))) (first_size name ops)
  end.
Proof.
  intros K V eqb name ops. induction ops as [|o ops IH]; intros r; cbn [fold_left].
  - cbn [calls_on run fst first_size option_map]. destruct (dict_get String.eqb name r); reflexivity.
  - rewrite IH. clear IH.
    assert (Hrun : forall o' l (c : @lru K V), fst (run eqb (o' :: l) c) = fst (run eqb l (fst (call eqb o' c)))).
    { intros o' l c. cbn [run]. destruct (call eqb o' c) as [c1 r1]. cbn [fst]. destruct (run eqb l c1). reflexivity. }
    destruct o as [n size| |n|n o]; cbn [service_step calls_on first_size].
    + unfold create_cache. destruct (String.eqb_spec n name) as [->|Hn].
      * destruct (dict_get String.eqb name r) as [c|] eqn:E.
        -- rewrite E. reflexivity.
        -- rewrite string_get_set, String.eqb_refl. reflexivity.
      * assert (En : String.eqb name n = false) by (apply String.eqb_neq; congruence).
        destruct (dict_get String.eqb n r); [|rewrite string_get_set, En]; destruct (dict_get String.eqb name r); reflexivity.
    + rewrite get_clear_all. destruct (dict_get String.eqb name r) as [c|]; cbn [option_map]; [rewrite Hrun|]; reflexivity.
    + unfold clear_cache. cbn [andb]. destruct (String.eqb_spec n name) as [->|Hn].
      * destruct (dict_get String.eqb name r) as [c|] eqn:E; [rewrite string_get_set, String.eqb_refl, Hrun; reflexivity|]. rewrite E. reflexivity.
      * assert (En : String.eqb name n = false) by (apply String.eqb_neq; congruence).
        destruct (dict_get String.eqb n r); [rewrite string_get_set, En|]; destruct (dict_get String.eqb name r); reflexivity.
    + cbn [andb]. destruct (String.eqb_spec n name) as [->|Hn].
      * destruct (dict_get String.eqb name r) as [c|] eqn:E; [rewrite string_get_set, String.eqb_refl, Hrun; reflexivity|]. rewrite E. reflexivity.
      * assert (En : String.eqb name n = false) by (apply String.eqb_neq; congruence).
        destruct (dict_get String.eqb n r); [rewrite string_get_set, En|]; destruct (dict_get String.eqb name r); reflexivity.
Qed.
Lemma registry_proof : forall (K V : Type) (eqb : K -> K -> bool) name (ops : list (@service_op K V)),
  get_cache name (service_run eqb ops) =
    option_map (fun size => fst (run eqb (calls_on false name ops) (new_lru size))) (first_size name ops).
Proof. intros K V eqb name ops. unfold get_cache, service_run. rewrite registry_core. reflexivity. Qed.
Lemma clear_all_proof : forall (K V : Type) (eqb : K -> K -> bool) name (ops : list (@service_op K V)) c,
  get_cache name (service_run eqb (ops ++ [ClearAll])) = Some c -> entries c = [] /\ hits c = 0 /\ misses c = 0 /\ evictions c = 0.
Proof.
  intros K V eqb name ops c H. unfold get_cache, service_run in H. rewrite fold_left_app in H. cbn [fold_left service_step] in H.
  rewrite get_clear_all in H. destruct (dict_get String.eqb name _) as [c0|]; [|discriminate]. cbn [option_map] in H. injection H as <-. cbn. auto.
Qed.

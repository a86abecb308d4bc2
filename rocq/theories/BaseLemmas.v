(** Lemmas on the list primitives of [Base]. *)
From Verif Require Import Base.
From Coq Require Import PeanoNat.

Lemma eqb_refl_of : forall A (eqb : A -> A -> bool) x,
  (forall a b, eqb a b = true <-> a = b) -> eqb x x = true.
Proof. intros A eqb x H; now apply H. Qed.
Lemma eqb_false_of : forall A (eqb : A -> A -> bool) x y,
  (forall a b, eqb a b = true <-> a = b) -> eqb x y = false <-> x <> y.
Proof.
  intros A eqb x y H; split.
  - intros E Hxy; subst. rewrite (eqb_refl_of _ _ _ H) in E; discriminate.
  - intros N. destruct (eqb x y) eqn:E; auto. apply H in E; contradiction.
Qed.

Lemma index_of_Some : forall A (eqb : A -> A -> bool) x l i,
  (forall a b, eqb a b = true <-> a = b) ->
  index_of eqb x l = Some i ->
  nth_error l i = Some x /\ forall j, (j < i)%nat -> nth_error l j <> Some x.
Proof.
  intros A eqb x l i Heq; revert i; induction l as [|y ys IH]; intros i H; cbn in H; [discriminate|].
  destruct (eqb x y) eqn:E.
  - injection H as <-. apply Heq in E; subst. split; [reflexivity|]. intros j Hj; inversion Hj.
  - destruct (index_of eqb x ys) as [k|] eqn:Ek; [|discriminate]. cbn in H; injection H as <-.
    destruct (IH k eq_refl) as [H1 H2]. split; [exact H1|].
    intros [|j] Hj; cbn.
    + intros [= <-]. assert (eqb y y = true) by now apply Heq. congruence.
    + apply H2. now apply Nat.succ_lt_mono.
Qed.

Lemma index_of_None : forall A (eqb : A -> A -> bool) x l,
  (forall a b, eqb a b = true <-> a = b) ->
  index_of eqb x l = None <-> ~ In x l.
Proof.
  intros A eqb x l Heq; induction l as [|y ys IH]; cbn; [tauto|].
  destruct (eqb x y) eqn:E.
  - apply Heq in E; subst. split; [discriminate|tauto].
  - assert (y <> x) by (apply (eqb_false_of _ _ _ _ Heq) in E; congruence).
    destruct (index_of eqb x ys); cbn; split; intros H'; try discriminate; try reflexivity.
    + destruct IH as [_ IH]. exfalso. assert (Some n = None) by (apply IH; tauto). discriminate.
    + destruct IH as [IH _]. specialize (IH eq_refl). tauto.
Qed.

Lemma index_of_nth : forall A (eqb : A -> A -> bool) x l i,
  (forall a b, eqb a b = true <-> a = b) ->
  NoDup l -> nth_error l i = Some x -> index_of eqb x l = Some i.
Proof.
  intros A eqb x l i Heq Hnd Hi.
  destruct (index_of eqb x l) as [k|] eqn:E.
  - apply index_of_Some in E as [E1 _]; [|assumption].
    f_equal. eapply (proj1 (NoDup_nth_error l)); [assumption| |congruence].
    apply nth_error_Some; congruence.
  - apply index_of_None in E; [|assumption]. apply nth_error_In in Hi; contradiction.
Qed.

Lemma nth_error_slice : forall A (l : list A) i j k,
  nth_error (slice i j l) k = if (k <? j - i)%nat then nth_error l (i + k) else None.
Proof.
  intros A l i j k; unfold slice.
  destruct (Nat.ltb_spec k (j - i)).
  - revert l k H; generalize (j - i)%nat as n; clear j. intros n l; revert n.
    revert l; induction i as [|i IH]; intros l n k H; cbn [skipn].
    + cbn. revert k n H; induction l as [|x l IHl]; intros k n H.
      * rewrite firstn_nil; reflexivity.
      * destruct n; [lia|]. destruct k; cbn; [reflexivity|]. apply IHl; lia.
    + destruct l as [|x l]; [now rewrite firstn_nil; destruct k|]. cbn [Nat.add nth_error]. now apply IH.
  - apply nth_error_None. rewrite firstn_length; lia.
Qed.

Lemma slice_length : forall A (l : list A) i j, (j <= length l)%nat -> length (slice i j l) = (j - i)%nat.
Proof. intros; unfold slice; rewrite firstn_length, skipn_length; lia. Qed.

Lemma nth_error_firstn : forall A (l : list A) n k,
  nth_error (firstn n l) k = if (k <? n)%nat then nth_error l k else None.
Proof.
  intros A l n k. pose proof (nth_error_slice A l 0 n k) as H. unfold slice in H; cbn [skipn] in H.
  now rewrite Nat.sub_0_r in H.
Qed.

Lemma nth_error_skipn : forall A (l : list A) n k, nth_error (skipn n l) k = nth_error l (n + k).
Proof.
  intros A l n; revert l; induction n as [|n IH]; intros l k; [reflexivity|].
  destruct l as [|x l]; [now destruct k|]. cbn; apply IH.
Qed.

Lemma nth_error_splice : forall A (l new : list A) i j k,
  (i <= j)%nat -> (j <= length l)%nat -> length new = (j - i)%nat ->
  nth_error (splice i j new l) k =
  if (k <? i)%nat then nth_error l k
  else if (k <? j)%nat then nth_error new (k - i) else nth_error l k.
Proof.
  intros A l new i j k Hij Hj Hn; unfold splice.
  destruct (Nat.ltb_spec k i).
  - rewrite nth_error_app1; [|rewrite firstn_length; lia].
    rewrite nth_error_firstn. destruct (Nat.ltb_spec k i); [reflexivity|lia].
  - rewrite nth_error_app2; [|rewrite firstn_length; lia].
    rewrite firstn_length, Nat.min_l by lia.
    destruct (Nat.ltb_spec k j).
    + rewrite nth_error_app1 by lia. reflexivity.
    + rewrite nth_error_app2 by lia. rewrite nth_error_skipn. f_equal; lia.
Qed.

Lemma splice_length : forall A (l new : list A) i j,
  (i <= j)%nat -> (j <= length l)%nat -> length new = (j - i)%nat ->
  length (splice i j new l) = length l.
Proof. intros; unfold splice; rewrite !app_length, firstn_length, skipn_length; lia. Qed.

Lemma list_ext_nth : forall A (l m : list A),
  (forall k, nth_error l k = nth_error m k) -> l = m.
Proof.
  induction l as [|x l IH]; intros [|y m] H; auto.
  - specialize (H 0%nat); discriminate.
  - specialize (H 0%nat); discriminate.
  - pose proof (H 0%nat) as H0; cbn in H0; injection H0 as ->. f_equal. apply IH.
    intros k; apply (H (S k)).
Qed.

Lemma nth_error_map2 : forall A B C (f : A -> B -> C) l m k,
  nth_error (map2 f l m) k =
  match nth_error l k, nth_error m k with Some a, Some b => Some (f a b) | _, _ => None end.
Proof.
  induction l as [|a l IH]; intros [|b m] [|k]; cbn; auto.
  - now destruct (nth_error l k).
Qed.

Lemma map2_length : forall A B C (f : A -> B -> C) l m,
  length (map2 f l m) = Nat.min (length l) (length m).
Proof. induction l as [|a l IH]; intros [|b m]; cbn; auto. Qed.

Lemma map2_map_combine : forall A B C (f : A -> B -> C) l m,
  map2 f l m = map (fun p => f (fst p) (snd p)) (combine l m).
Proof. induction l as [|a l IH]; intros [|b m]; cbn; auto. now rewrite IH. Qed.

Lemma insert_sorted_perm : forall A (le : A -> A -> bool) x l, Permutation (x :: l) (insert_sorted le x l).
Proof.
  induction l as [|y l IH]; cbn; auto. destruct (le x y); auto.
  eapply perm_trans; [apply perm_swap|]. now constructor.
Qed.
Lemma sort_perm : forall A (le : A -> A -> bool) l, Permutation l (sort le l).
Proof.
  induction l as [|x l IH]; cbn; auto.
  eapply perm_trans; [|apply insert_sorted_perm]. now constructor.
Qed.

Lemma insert_sorted_Sorted : forall A (le : A -> A -> bool),
  (forall x y, le x y = false -> le y x = true) ->
  forall x l, Sorted (fun a b => le a b = true) l -> Sorted (fun a b => le a b = true) (insert_sorted le x l).
Proof.
  intros A le Htot x l Hs; induction Hs as [|y l Hs IH Hh]; cbn; [repeat constructor|].
  destruct (le x y) eqn:E.
  - repeat constructor; auto.
  - constructor; auto. destruct l as [|z l]; cbn in *.
    + constructor. now apply Htot.
    + destruct (le x z) eqn:E2; constructor; auto. now inversion Hh.
Qed.
Lemma sort_Sorted : forall A (le : A -> A -> bool),
  (forall x y, le x y = false -> le y x = true) ->
  forall l, Sorted (fun a b => le a b = true) (sort le l).
Proof.
  intros A le Htot l; induction l as [|x l IH]; cbn; [constructor|]. now apply insert_sorted_Sorted.
Qed.

Lemma sort_sorted_id : forall A (le : A -> A -> bool) l,
  Sorted (fun a b => le a b = true) l -> sort le l = l.
Proof.
  intros A le l H; induction H as [|x l H IH Hh]; cbn; auto. rewrite IH.
  destruct l as [|y l]; cbn; auto. inversion Hh as [|? ? E]; subst. now rewrite E.
Qed.

Lemma dict_get_set : forall K V (eqb : K -> K -> bool) k k' (v : V) d,
  (forall a b, eqb a b = true <-> a = b) ->
  dict_get eqb k (dict_set eqb k' v d) = if eqb k k' then Some v else dict_get eqb k d.
Proof.
  intros K V eqb k k' v d Heq; induction d as [|[a w] d IH]; cbn; auto.
  destruct (eqb k' a) eqn:E1; cbn.
  - apply Heq in E1; subst a. destruct (eqb k k'); auto.
  - rewrite IH. destruct (eqb k a) eqn:E2; auto. destruct (eqb k k') eqn:E3; auto.
    apply Heq in E2, E3; subst. assert (eqb a a = true) by now apply Heq. congruence.
Qed.

Lemma dict_set_keys_in : forall K V (eqb : K -> K -> bool) k (v : V) d,
  (forall a b, eqb a b = true <-> a = b) ->
  In k (map fst d) -> map fst (dict_set eqb k v d) = map fst d.
Proof.
  intros K V eqb k v d Heq; induction d as [|[a w] d IH]; cbn; [tauto|].
  intros H. destruct (eqb k a) eqn:E; cbn; auto. f_equal. apply IH.
  destruct H as [->|H]; auto. assert (eqb k k = true) by now apply Heq. congruence.
Qed.
Lemma dict_set_keys_notin : forall K V (eqb : K -> K -> bool) k (v : V) d,
  (forall a b, eqb a b = true <-> a = b) ->
  ~ In k (map fst d) -> dict_set eqb k v d = d ++ [(k, v)].
Proof.
  intros K V eqb k v d Heq; induction d as [|[a w] d IH]; cbn; auto.
  intros H. destruct (eqb k a) eqn:E; cbn.
  - apply Heq in E; subst; tauto.
  - f_equal. apply IH; tauto.
Qed.
Lemma dict_get_In : forall K V (eqb : K -> K -> bool) k (v : V) d,
  (forall a b, eqb a b = true <-> a = b) -> dict_get eqb k d = Some v -> In (k, v) d.
Proof.
  intros K V eqb k v d Heq; induction d as [|[a w] d IH]; cbn; [discriminate|].
  destruct (eqb k a) eqn:E; intros H.
  - apply Heq in E; injection H as ->; subst; auto.
  - right; auto.
Qed.
Lemma dict_get_None : forall K V (eqb : K -> K -> bool) k (d : list (K * V)),
  (forall a b, eqb a b = true <-> a = b) -> (dict_get eqb k d = None <-> ~ In k (map fst d)).
Proof.
  intros K V eqb k d Heq; induction d as [|[a w] d IH]; cbn; [tauto|].
  destruct (eqb k a) eqn:E.
  - apply Heq in E; subst. split; [discriminate|tauto].
  - rewrite IH. assert (a <> k) by (apply (eqb_false_of _ _ _ _ Heq) in E; congruence). tauto.
Qed.
Lemma dict_get_NoDup : forall K V (eqb : K -> K -> bool) k (v : V) d,
  (forall a b, eqb a b = true <-> a = b) -> NoDup (map fst d) -> In (k, v) d -> dict_get eqb k d = Some v.
Proof.
  intros K V eqb k v d Heq; induction d as [|[a w] d IH]; cbn; [tauto|].
  intros Hnd [H|H]; inversion Hnd as [|? ? Hni Hnd']; subst.
  - injection H as -> ->. assert (eqb k k = true) as -> by now apply Heq. reflexivity.
  - destruct (eqb k a) eqn:E; [|auto].
    apply Heq in E; subst. exfalso; apply Hni. now apply (in_map fst) in H.
Qed.

Lemma Zeqb_spec : forall a b : Z, (a =? b) = true <-> a = b.
Proof. exact Z.eqb_eq. Qed.

Lemma mapM_Ok : forall A B (f : A -> result B) l ys,
  mapM f l = Ok ys <-> Forall2 (fun x y => f x = Ok y) l ys.
Proof.
  induction l as [|x l IH]; intros ys; cbn.
  - split; [intros [= <-]; constructor|inversion 1; auto].
  - split.
    + destruct (f x) as [y|] eqn:E; cbn; [|discriminate].
      destruct (mapM f l) as [ys'|] eqn:E2; cbn; [|discriminate].
      intros [= <-]. constructor; auto. now apply IH.
    + inversion 1 as [|? y ? ys' H1 H2]; subst. rewrite H1; cbn.
      apply IH in H2. now rewrite H2.
Qed.

Lemma existsb_ext : forall A (f g : A -> bool) l, (forall x, f x = g x) -> existsb f l = existsb g l.
Proof. intros A f g l H; induction l as [|x l IH]; cbn; [reflexivity|]. now rewrite H, IH. Qed.
Lemma existsb_ext_in : forall A (f g : A -> bool) l, (forall x, In x l -> f x = g x) -> existsb f l = existsb g l.
Proof.
  intros A f g l H; induction l as [|x l IH]; cbn; [reflexivity|]. rewrite H by now left. f_equal. apply IH.
  intros; apply H; now right.
Qed.

(** computing equalities between rationals *)
From Verif Require Import QcTac.
Lemma qc_eq_this : forall x y : Qc, this x = this y -> x = y.
Proof. intros x y H. apply Qc_is_canon. now rewrite H. Qed.
Lemma qc_list_eq : forall l m : list Qc, map this l = map this m -> l = m.
Proof.
  induction l as [|x l IH]; intros [|y m] H; cbn in H; try discriminate; auto.
  injection H as H1 H2. f_equal; [now apply qc_eq_this|auto].
Qed.
Lemma ok_qc_list : forall (r : result (list Qc)) l,
  match r with Ok v => map this v = map this l | Err _ => False end -> r = Ok l.
Proof. intros [v|e] l H; [f_equal; now apply qc_list_eq|contradiction]. Qed.
Ltac qc_compute := first [apply ok_qc_list | apply qc_list_eq | apply qc_eq_this]; vm_compute; reflexivity.

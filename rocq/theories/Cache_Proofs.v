(** The cache: sequential behaviour. *)
From Coq Require Import ZArith PeanoNat.
From Verif Require Import Base BaseLemmas Cache_Model Cache_Spec.
Local Open Scope list_scope.
Local Open Scope nat_scope.

Section Lists.
Context {K V : Type}.
Variable eqb : K -> K -> bool.
Hypothesis eqb_spec : forall a b, eqb a b = true <-> a = b.

Lemma eqb_same : forall a, eqb a a = true.
Proof. intros a. apply eqb_spec. reflexivity. Qed.
Lemma eqb_diff : forall a b, a <> b -> eqb a b = false.
Proof. intros a b H. apply Bool.not_true_is_false. intros E. apply eqb_spec in E. contradiction. Qed.
Definition without (k : K) (l : list K) : list K := filter (fun y => negb (eqb k y)) l.

Lemma in_or_not : forall k (l : list K), In k l \/ ~ In k l.
Proof.
  intros k l. induction l as [|x l IH]; [right; intros []|]. destruct (eqb k x) eqn:E.
  - apply eqb_spec in E. left. left. congruence.
  - destruct IH as [H|H]; [left; right; assumption|]. right. intros [->|H2]; [rewrite eqb_same in E; discriminate|contradiction].
Qed.
Lemma without_In : forall k l x, In x (without k l) <-> In x l /\ x <> k.
Proof.
  intros k l x. unfold without. rewrite filter_In. split; intros [H1 H2]; split; auto.
  - intros ->. rewrite eqb_same in H2. discriminate.
  - rewrite (eqb_diff k x); [reflexivity|congruence].
Qed.
Lemma without_same : forall k l, ~ In k l -> without k l = l.
Proof.
  intros k l. induction l as [|x l IH]; intros H; cbn; [reflexivity|]. rewrite eqb_diff by (intros ->; apply H; left; reflexivity).
  cbn. f_equal. apply IH. intros Hk. apply H. right; assumption.
Qed.
Lemma distinct_In : forall l x, In x (distinct eqb l) <-> In x l.
Proof.
  induction l as [|y l IH]; intros x; cbn; [tauto|]. fold (without y (distinct eqb l)). rewrite without_In, IH.
  destruct (eqb y x) eqn:E.
  - apply eqb_spec in E. subst. tauto.
  - split; [tauto|]. intros [H|H]; [left; assumption|]. right. split; [assumption|]. intros ->. rewrite eqb_same in E. discriminate.
Qed.
Lemma distinct_NoDup : forall l, NoDup (distinct eqb l).
Proof.
  induction l as [|y l IH]; cbn; constructor.
  - fold (without y (distinct eqb l)). rewrite without_In. tauto.
  - apply NoDup_filter. assumption.
Qed.
Lemma distinct_until : forall k l, In k l -> exists rest, distinct eqb l = distinct eqb (until eqb k l) ++ k :: rest.
Proof.
  intros k l. induction l as [|x l IH]; intros H; [destruct H|]. cbn [until distinct].
  destruct (eqb k x) eqn:E.
  - apply eqb_spec in E. subst x. eexists. reflexivity.
  - destruct H as [->|H]; [rewrite eqb_same in E; discriminate|]. destruct (IH H) as [rest Hr]. cbn [distinct].
    rewrite Hr, filter_app. cbn [filter]. rewrite (eqb_diff x k) by (intros ->; rewrite eqb_same in E; discriminate). cbn [negb].
    eexists. reflexivity.
Qed.
Lemma firstn_In_index : forall (l a b : list K) k m, NoDup l -> l = a ++ k :: b -> (In k (firstn m l) <-> length a < m).
Proof.
  intros l a b k m Hnd ->. split; intros H.
  - destruct (Nat.lt_ge_cases (length a) m) as [H2|H2]; [assumption|]. exfalso.
    rewrite firstn_app in H. replace (m - length a) with 0 in H by lia. cbn in H. rewrite app_nil_r in H.
    assert (In k a) by (rewrite <- (firstn_skipn m a); apply in_or_app; left; assumption).
    apply NoDup_remove_2 in Hnd. apply Hnd. apply in_or_app. left; assumption.
  - rewrite firstn_app. apply in_or_app. right. destruct (m - length a) eqn:E; [lia|]. left; reflexivity.
Qed.

Lemma firstn_without_in : forall k D m, NoDup D -> In k (firstn m D) -> without k (firstn m D) = firstn (m - 1) (without k D).
Proof.
  intros k D. induction D as [|x D IH]; intros m Hnd Hin; [rewrite firstn_nil in Hin; destruct Hin|].
  destruct m as [|m]; [destruct Hin|]. cbn [firstn] in *. inversion Hnd as [|? ? Hx Hnd']; subst. cbn [without filter].
  destruct (eqb k x) eqn:E.
  - apply eqb_spec in E. subst x. cbn [negb]. fold (without k (firstn m D)) (without k D).
    rewrite (without_same k D Hx). rewrite without_same; [f_equal; lia|].
    intros H. apply Hx. rewrite <- (firstn_skipn m D). apply in_or_app. left; assumption.
  - cbn [negb]. fold (without k (firstn m D)) (without k D). destruct Hin as [->|Hin]; [rewrite eqb_same in E; discriminate|].
    rewrite IH by assumption. destruct m as [|m]; [destruct Hin|]. replace (S (S m) - 1) with (S (S m - 1)) by lia. reflexivity.
Qed.
Lemma firstn_without_out : forall k D m, ~ In k (firstn m D) -> firstn (m - 1) D = firstn (m - 1) (without k D).
Proof.
  intros k D. induction D as [|x D IH]; intros m H; [reflexivity|]. destruct m as [|m]; [reflexivity|]. cbn [firstn] in H.
  assert (E : eqb k x = false) by (apply eqb_diff; intros ->; apply H; left; reflexivity).
  cbn [without filter]. rewrite E. cbn [negb]. fold (without k D). replace (S m - 1) with m by lia. destruct m as [|m]; [reflexivity|].
  cbn [firstn]. f_equal. assert (H2 : ~ In k (firstn (S m) D)) by (intros H2; apply H; right; assumption).
  specialize (IH (S m) H2). replace (S m - 1) with m in IH by lia. assumption.
Qed.
Lemma rev_without : forall (k : K) l, rev (without k l) = without k (rev l).
Proof.
  intros k l. unfold without. induction l as [|x l IH]; cbn; [reflexivity|]. rewrite filter_app. cbn. destruct (negb (eqb k x)); cbn; rewrite IH; [reflexivity|].
  rewrite app_nil_r. reflexivity.
Qed.
Lemma map_fst_filter : forall (k : K) (l : list (K * V)), map fst (filter (fun p => negb (eqb k (fst p))) l) = without k (map fst l).
Proof. intros k l. induction l as [|[x v] l IH]; cbn; [reflexivity|]. destruct (negb (eqb k x)); cbn; rewrite IH; reflexivity. Qed.

Lemma get_In : forall (l : list (K * V)) k v, dict_get eqb k l = Some v -> In (k, v) l.
Proof.
  induction l as [|[x w] l IH]; intros k v H; cbn in *; [discriminate|]. destruct (eqb k x) eqn:E.
  - apply eqb_spec in E. left. congruence.
  - right. apply IH; assumption.
Qed.
Lemma get_None : forall (l : list (K * V)) k, dict_get eqb k l = None <-> ~ In k (map fst l).
Proof.
  induction l as [|[x w] l IH]; intros k; cbn; [tauto|]. destruct (eqb k x) eqn:E.
  - apply eqb_spec in E. subst. split; [discriminate|tauto].
  - rewrite IH. split; [|tauto]. intros H [->|H2]; [rewrite eqb_same in E; discriminate|contradiction].
Qed.
Lemma get_snoc : forall (l : list (K * V)) k v, ~ In k (map fst l) -> dict_get eqb k (l ++ [(k, v)]) = Some v.
Proof.
  induction l as [|[x w] l IH]; intros k v H; cbn in *; [rewrite eqb_same; reflexivity|].
  rewrite eqb_diff by (intros ->; tauto). apply IH. tauto.
Qed.
Lemma set_snoc : forall (l : list (K * V)) k v w, ~ In k (map fst l) -> dict_set eqb k w (l ++ [(k, v)]) = l ++ [(k, w)].
Proof.
  induction l as [|[x u] l IH]; intros k v w H; cbn in *; [rewrite eqb_same; reflexivity|].
  rewrite eqb_diff by (intros ->; tauto). f_equal. apply IH. tauto.
Qed.
Lemma set_absent : forall (l : list (K * V)) k v, ~ In k (map fst l) -> dict_set eqb k v l = l ++ [(k, v)].
Proof.
  induction l as [|[x u] l IH]; intros k v H; cbn in *; [reflexivity|]. rewrite eqb_diff by (intros ->; tauto). f_equal. apply IH. tauto.
Qed.
Lemma filter_removed : forall (l : list (K * V)) k, ~ In k (map fst (filter (fun p => negb (eqb k (fst p))) l)).
Proof. intros l k. rewrite map_fst_filter, without_In. tauto. Qed.
Lemma filter_length_present : forall (l : list (K * V)) k, NoDup (map fst l) -> In k (map fst l) ->
  S (length (filter (fun p => negb (eqb k (fst p))) l)) = length l.
Proof.
  induction l as [|[x v] l IH]; intros k Hnd H; cbn in *; [destruct H|]. inversion Hnd; subst.
  destruct (eqb k x) eqn:E; cbn.
  - apply eqb_spec in E. subst x. f_equal. clear - H2 eqb_spec. induction l as [|[y w] l IH]; cbn in *; [reflexivity|].
    rewrite eqb_diff by (intros ->; tauto). cbn. f_equal. apply IH. tauto.
  - f_equal. apply IH; [assumption|]. destruct H as [->|H]; [rewrite eqb_same in E; discriminate|assumption].
Qed.

(** ** Single calls *)
Lemma call_get : forall k (s : @lru K V), call eqb (Get k) s =
  match dict_get eqb k (entries s) with
  | Some v => (mk_lru (filter (fun p => negb (eqb k (fst p))) (entries s) ++ [(k, v)]) (max_size s) (S (hits s)) (misses s) (evictions s), Ok (OValue (Some v)))
  | None => (count_miss s, Ok (OValue None))
  end.
Proof.
  intros k s. unfold call, prog_of, get_prog. cbn [exec]. unfold has. destruct (dict_get eqb k (entries s)) as [v|] eqn:E; [|reflexivity].
  cbn [exec]. unfold move_to_end. rewrite E. unfold count_hit, set_entries. cbn [entries max_size hits misses evictions].
  rewrite get_snoc by apply filter_removed. reflexivity.
Qed.

Lemma exec_evict_none : forall n (s : @lru K V), (Z.of_nat (length (entries s)) <= max_size s)%Z -> exec (evict_prog (K := K) (V := V) (S n)) s = (s, Ok ONothing).
Proof.
  intros n s H. cbn [evict_prog exec]. destruct (Z.ltb_spec (max_size s) (Z.of_nat (length (entries s)))) as [H2|H2]; [lia|]. reflexivity.
Qed.
Lemma exec_evict_one : forall n (s : @lru K V), (Z.of_nat (length (entries s)) = max_size s + 1)%Z -> (0 <= max_size s)%Z ->
  exec (evict_prog (K := K) (V := V) (S (S n))) s = (count_eviction (set_entries (tl (entries s)) s), Ok ONothing).
Proof.
  intros n s H Hm. cbn [evict_prog exec]. destruct (Z.ltb_spec (max_size s) (Z.of_nat (length (entries s)))) as [H2|H2]; [|lia].
  destruct (entries s) as [|e l] eqn:E; [cbn in H; lia|]. cbn [exec tl].
  unfold set_entries, count_eviction. cbn [entries max_size hits misses evictions].
  rewrite E. cbn [tl]. destruct (Z.ltb_spec (max_size s) (Z.of_nat (length l))) as [H3|H3]; [cbn [length] in H; lia|]. reflexivity.
Qed.

Lemma call_put : forall k v (s : @lru K V), (0 < max_size s)%Z -> (Z.of_nat (length (entries s)) <= max_size s)%Z -> NoDup (map fst (entries s)) ->
  call eqb (Put k v) s =
  match dict_get eqb k (entries s) with
  | Some _ => (set_entries (filter (fun p => negb (eqb k (fst p))) (entries s) ++ [(k, v)]) s, Ok ONothing)
  | None =>
      if Z.ltb (Z.of_nat (length (entries s))) (max_size s)
      then (set_entries (entries s ++ [(k, v)]) s, Ok ONothing)
      else (count_eviction (set_entries (tl (entries s ++ [(k, v)])) s), Ok ONothing)
  end.
Proof.
  intros k v s Hm Hl Hnd. unfold call, prog_of, put_prog. cbn [exec].
  destruct (Z.eqb_spec (max_size s) 0) as [E0|_]; [lia|]. cbn [exec]. unfold has.
  destruct (dict_get eqb k (entries s)) as [w|] eqn:E; cbn [exec].
  - unfold move_to_end. rewrite E. unfold store, set_entries at 3. cbn [entries].
    rewrite set_snoc by apply filter_removed.
    assert (Hin : In k (map fst (entries s))).
    { apply get_In in E. apply in_map_iff. exists (k, w). auto. }
    rewrite exec_evict_none.
    + reflexivity.
    + cbn [set_entries entries max_size]. rewrite app_length. cbn [length]. pose proof (filter_length_present (entries s) k Hnd Hin). lia.
  - apply get_None in E. unfold store. rewrite set_absent by assumption.
    destruct (Z.ltb_spec (Z.of_nat (length (entries s))) (max_size s)) as [H|H].
    + rewrite exec_evict_none; [reflexivity|]. cbn [set_entries entries max_size]. rewrite app_length. cbn [length]. lia.
    + rewrite exec_evict_one; [reflexivity| |]; cbn [set_entries entries max_size]; [rewrite app_length; cbn [length]; lia|lia].
Qed.

(** ** The invariant *)
Record inv (m : nat) (s : @lru K V) (h : list (op (K := K) (V := V) * result (output (V := V)))) : Prop := {
  inv_size : max_size s = Z.of_nat m;
  inv_keys : map fst (rev (entries s)) = firstn m (distinct eqb (uses h));
  inv_values : forall k v, In (k, v) (entries s) -> last_put eqb k h = Some v;
  inv_hits : hits s = found h;
  inv_misses : misses s = not_found h;
  inv_evictions : evictions s + length (entries s) = added eqb m h }.

Lemma inv_NoDup : forall m s h, inv m s h -> NoDup (map fst (entries s)).
Proof.
  intros m s h H. assert (E : map fst (entries s) = rev (firstn m (distinct eqb (uses h)))).
  { rewrite <- (inv_keys _ _ _ H), <- map_rev, rev_involutive. reflexivity. }
  rewrite E. apply NoDup_rev. pose proof (distinct_NoDup (uses h)) as Hn. rewrite <- (firstn_skipn m) in Hn. revert Hn.
  generalize (firstn m (distinct eqb (uses h))) (skipn m (distinct eqb (uses h))). intros a b Hn.
  induction a as [|x a IH]; [constructor|]. cbn in Hn. inversion Hn; subst. constructor; [|apply IH; assumption].
  intros Hx. apply H2. apply in_or_app. left; assumption.
Qed.
Lemma inv_length : forall m s h, inv m s h -> length (entries s) = Nat.min m (length (distinct eqb (uses h))).
Proof.
  intros m s h H. rewrite <- firstn_length, <- (inv_keys _ _ _ H), map_length, rev_length. reflexivity.
Qed.

Lemma last_put_used : forall k (h : list (@op K V * result (@output V))) v, last_put eqb k h = Some v -> In k (uses h).
Proof.
  intros k h. induction h as [|[o r] h IH]; intros v H; [discriminate|]. destruct o as [k'|k' v'| | |]; cbn in *.
  - destruct r as [[[w|]| | |]|]; cbn; try (right; eapply IH; eassumption); eapply IH; eassumption.
  - destruct (eqb k k') eqn:E; [apply eqb_spec in E; subst; left; reflexivity|]. right. eapply IH; eassumption.
  - discriminate.
  - destruct r; eapply IH; eassumption.
  - destruct r; eapply IH; eassumption.
Qed.

Lemma expected_get : forall m s h k, inv m s h -> expected eqb m k h = dict_get eqb k (entries s).
Proof.
  intros m s h k H. unfold expected, used_since.
  destruct (in_or_not k (uses h)) as [Hin|Hin].
  - destruct (distinct_until k (uses h) Hin) as [rest Hr].
    pose proof (firstn_In_index _ _ _ k m (distinct_NoDup (uses h)) Hr) as Hidx. rewrite <- (inv_keys _ _ _ H) in Hidx.
    destruct (Nat.ltb_spec (length (distinct eqb (until eqb k (uses h)))) m) as [Hlt|Hge].
    + apply Hidx in Hlt. rewrite map_rev, <- in_rev in Hlt.
      destruct (dict_get eqb k (entries s)) as [v|] eqn:E; [|apply get_None in E; contradiction].
      apply (inv_values _ _ _ H). apply get_In. assumption.
    + symmetry. apply get_None. intros Hk. assert (length (distinct eqb (until eqb k (uses h))) < m); [|lia].
      apply Hidx. rewrite map_rev, <- in_rev. assumption.
  - assert (El : last_put eqb k h = None).
    { destruct (last_put eqb k h) as [v|] eqn:E; [|reflexivity]. exfalso. apply Hin. eapply last_put_used; eassumption. }
    rewrite El. assert (Eg : dict_get eqb k (entries s) = None).
    { apply get_None. intros Hk. apply Hin. apply distinct_In. rewrite <- (firstn_skipn m (distinct eqb (uses h))). apply in_or_app. left.
      rewrite <- (inv_keys _ _ _ H), map_rev, <- in_rev. assumption. }
    rewrite Eg. destruct (Nat.ltb _ m); reflexivity.
Qed.

Lemma inv_call : forall m o s h, 0 < m -> inv m s h ->
  snd (call eqb o s) = Ok (right_result eqb m o h) /\ inv m (fst (call eqb o s)) ((o, snd (call eqb o s)) :: h).
Proof.
  intros m o s h Hm H. pose proof (inv_NoDup _ _ _ H) as Hnd. pose proof (inv_length _ _ _ H) as Hlen.
  assert (Hle : length (entries s) <= m) by (rewrite Hlen; lia).
  destruct o as [k|k v| | |].
  - rewrite call_get. cbn [right_result]. rewrite (expected_get m s h k H).
    destruct (dict_get eqb k (entries s)) as [v|] eqn:E; cbn [fst snd]; split; try reflexivity.
    + assert (Hk : In k (map fst (entries s))) by (apply get_In in E; apply in_map_iff; exists (k, v); auto).
      constructor; cbn [entries max_size hits misses evictions].
      * exact (inv_size _ _ _ H).
      * cbn [uses used]. rewrite rev_app_distr. cbn [rev app map fst]. cbn [distinct]. fold (without k (distinct eqb (uses h))).
        destruct m as [|m']; [lia|]. cbn [firstn]. f_equal.
        rewrite map_rev, map_fst_filter, rev_without, <- map_rev, (inv_keys _ _ _ H).
        rewrite firstn_without_in; [f_equal; lia|apply distinct_NoDup|].
        rewrite <- (inv_keys _ _ _ H), map_rev, <- in_rev. assumption.
      * intros k' v' Hin. cbn [last_put]. apply in_app_or in Hin. destruct Hin as [Hin|[Hin|[]]].
        -- apply filter_In in Hin. apply (inv_values _ _ _ H). apply Hin.
        -- injection Hin; intros; subst. apply (inv_values _ _ _ H). apply get_In. assumption.
      * cbn [found]. f_equal. exact (inv_hits _ _ _ H).
      * cbn [not_found]. exact (inv_misses _ _ _ H).
      * cbn [added]. rewrite <- (inv_evictions _ _ _ H). rewrite app_length. cbn [length].
        pose proof (filter_length_present (entries s) k Hnd Hk). lia.
    + constructor; cbn [count_miss entries max_size hits misses evictions uses used last_put found not_found added]; try apply H.
      f_equal. apply H.
  - rewrite call_put; [|rewrite (inv_size _ _ _ H); lia|rewrite (inv_size _ _ _ H); lia|assumption].
    destruct (dict_get eqb k (entries s)) as [w|] eqn:E.
    + cbn [fst snd right_result]. split; [reflexivity|].
      assert (Hk : In k (map fst (entries s))) by (apply get_In in E; apply in_map_iff; exists (k, w); auto).
      constructor; cbn [set_entries entries max_size hits misses evictions].
      * exact (inv_size _ _ _ H).
      * cbn [uses used]. rewrite rev_app_distr. cbn [rev app map fst]. cbn [distinct]. fold (without k (distinct eqb (uses h))).
        destruct m as [|m']; [lia|]. cbn [firstn]. f_equal.
        rewrite map_rev, map_fst_filter, rev_without, <- map_rev, (inv_keys _ _ _ H).
        rewrite firstn_without_in; [f_equal; lia|apply distinct_NoDup|].
        rewrite <- (inv_keys _ _ _ H), map_rev, <- in_rev. assumption.
      * intros k' v' Hin. cbn [last_put]. apply in_app_or in Hin. destruct Hin as [Hin|[Hin|[]]].
        -- apply filter_In in Hin. destruct Hin as [Hin Hne]. cbn [fst] in Hne.
           destruct (eqb k' k) eqn:E2; [apply eqb_spec in E2; subst k'; rewrite eqb_same in Hne; discriminate|]. apply (inv_values _ _ _ H). assumption.
        -- injection Hin; intros; subst. rewrite eqb_same. reflexivity.
      * cbn [found]. apply H.
      * cbn [not_found]. apply H.
      * cbn [added]. rewrite (expected_get m s h k H), E, <- (inv_evictions _ _ _ H), app_length. cbn [length].
        pose proof (filter_length_present (entries s) k Hnd Hk). lia.
    + assert (Hk : ~ In k (map fst (entries s))) by (apply get_None; assumption).
      assert (Hnin : ~ In k (firstn m (distinct eqb (uses h)))) by (rewrite <- (inv_keys _ _ _ H), map_rev, <- in_rev; assumption).
      assert (Hkeys : firstn m (distinct eqb (uses ((Put k v, @Ok (@output V) ONothing) :: h))) = k :: firstn (m - 1) (distinct eqb (uses h))).
      { cbn [uses used distinct]. fold (without k (distinct eqb (uses h))). destruct m as [|m']; [lia|]. cbn [firstn]. f_equal.
        rewrite (firstn_without_out k _ (S m') Hnin). f_equal. lia. }
      destruct (Z.ltb_spec (Z.of_nat (length (entries s))) (max_size s)) as [Hlt|Hge]; cbn [fst snd right_result]; (split; [reflexivity|]);
        rewrite (inv_size _ _ _ H) in *.
      * constructor; cbn [set_entries entries max_size hits misses evictions].
        -- exact (inv_size _ _ _ H).
        -- rewrite Hkeys, rev_app_distr. cbn [rev app map fst]. f_equal. rewrite (inv_keys _ _ _ H).
           rewrite !firstn_all2; [reflexivity|lia|lia].
        -- intros k' v' Hin. cbn [last_put]. apply in_app_or in Hin. destruct Hin as [Hin|[Hin|[]]].
           ++ destruct (eqb k' k) eqn:E2; [apply eqb_spec in E2; subst k'; exfalso; apply Hk; apply in_map_iff; exists (k, v'); auto|]. apply (inv_values _ _ _ H). assumption.
           ++ injection Hin; intros; subst. rewrite eqb_same. reflexivity.
        -- cbn [found]. apply H.
        -- cbn [not_found]. apply H.
        -- cbn [added]. rewrite (expected_get m s h k H), E, <- (inv_evictions _ _ _ H), app_length. cbn [length]. lia.
      * assert (Hfull : length (entries s) = m) by lia.
        destruct (entries s) as [|e l] eqn:El; [cbn in Hfull; lia|]. cbn [app tl].
        constructor; cbn [set_entries count_eviction entries max_size hits misses evictions].
        -- exact (inv_size _ _ _ H).
        -- rewrite Hkeys, rev_app_distr. cbn [rev app map fst]. f_equal.
           pose proof (inv_keys _ _ _ H) as Hik. rewrite El in Hik. cbn [rev] in Hik. rewrite map_app in Hik.
           assert (Hl : length (map fst (rev l)) = m - 1) by (rewrite map_length, rev_length; cbn in Hfull; lia).
           assert (E1 : firstn (m - 1) (firstn m (distinct eqb (uses h))) = map fst (rev l)).
           { rewrite <- Hik. rewrite firstn_app, Hl, Nat.sub_diag. cbn [firstn]. rewrite app_nil_r, <- Hl. apply firstn_all. }
           rewrite <- E1, firstn_firstn. f_equal. lia.
        -- intros k' v' Hin. cbn [last_put]. apply in_app_or in Hin. destruct Hin as [Hin|[Hin|[]]].
           ++ destruct (eqb k' k) eqn:E2; [apply eqb_spec in E2; subst k'; exfalso; apply Hk; cbn; right; apply in_map_iff; exists (k, v'); auto|].
              apply (inv_values _ _ _ H). rewrite El. right; assumption.
           ++ injection Hin; intros; subst. rewrite eqb_same. reflexivity.
        -- cbn [found]. apply H.
        -- cbn [not_found]. apply H.
        -- cbn [added]. rewrite (expected_get m s h k H), El, E, <- (inv_evictions _ _ _ H), El, app_length. cbn [length]. lia.
  - cbn. split; [reflexivity|]. constructor; cbn; try reflexivity; [apply H|rewrite firstn_nil; reflexivity|intros k v []].
  - cbn [call prog_of length_prog exec fst snd right_result]. unfold call, prog_of, length_prog. cbn [exec fst snd]. rewrite Hlen. split; [reflexivity|].
    constructor; cbn [uses used last_put found not_found added]; apply H.
  - unfold call, prog_of, stats_prog. cbn [exec fst snd right_result]. split.
    + rewrite (inv_hits _ _ _ H), (inv_misses _ _ _ H), (inv_size _ _ _ H), Hlen. do 2 f_equal.
      pose proof (inv_evictions _ _ _ H). lia.
    + constructor; cbn [uses used last_put found not_found added]; apply H.
Qed.

Lemma inv_new : forall m, inv m (new_lru (Z.of_nat m)) [].
Proof. intros m. constructor; cbn; try reflexivity; [rewrite firstn_nil; reflexivity|intros k v []]. Qed.

Lemma run_right : forall m ops s h, 0 < m -> inv m s h ->
  right_history eqb m h (snd (run eqb ops s)) /\ inv m (fst (run eqb ops s)) (rev (snd (run eqb ops s)) ++ h) /\ map fst (snd (run eqb ops s)) = ops.
Proof.
  intros m ops. induction ops as [|o ops IH]; intros s h Hm H; cbn [run].
  - split; [constructor|]. split; [assumption|reflexivity].
  - destruct (inv_call m o s h Hm H) as [H1 H2]. destruct (call eqb o s) as [s1 r] eqn:E. cbn [fst snd] in *.
    destruct (IH s1 ((o, r) :: h) Hm H2) as [I1 [I2 I3]]. destruct (run eqb ops s1) as [s2 rs]. cbn [fst snd] in *.
    split; [constructor; assumption|]. split; [|cbn; congruence]. cbn [rev]. rewrite <- app_assoc. exact I2.
Qed.
End Lists.

(** ** Statements *)
Lemma sequential_proof : forall (K V : Type) (eqb : K -> K -> bool) (m : nat) (ops : list (@op K V)),
  (forall a b, eqb a b = true <-> a = b) -> 0 < m ->
  let (s, events) := run eqb ops (new_lru (Z.of_nat m)) in
  right_history eqb m [] events /\ map fst events = ops /\
  length (entries s) <= m /\ NoDup (map fst (entries s)).
Proof.
  intros K V eqb m ops Heq Hm. pose proof (run_right eqb Heq m ops _ [] Hm (inv_new eqb m)) as H.
  destruct (run eqb ops (new_lru (Z.of_nat m))) as [s events]. cbn [fst snd] in H. destruct H as [H1 [H2 H3]].
  split; [assumption|]. split; [assumption|]. split; [rewrite (inv_length _ _ _ _ H2); lia|]. eapply inv_NoDup; eassumption.
Qed.

(** Size zero: nothing is kept. *)
Lemma run_disabled : forall (K V : Type) (eqb : K -> K -> bool) (ops : list (@op K V)) (s : lru), max_size s = 0%Z -> entries s = [] ->
  entries (fst (run eqb ops s)) = [] /\ forall k r, In (Get k, r) (snd (run eqb ops s)) -> r = Ok (OValue None).
Proof.
  intros K V eqb ops. induction ops as [|o ops IH]; intros s Hs He; cbn [run].
  - split; [assumption|]. intros k r [].
  - assert (Hc : max_size (fst (call eqb o s)) = 0%Z /\ entries (fst (call eqb o s)) = [] /\ forall k, o = Get k -> snd (call eqb o s) = Ok (OValue None)).
    { destruct o as [k|k v| | |].
      - unfold call, prog_of, get_prog. cbn [exec]. unfold has. rewrite He. cbn [dict_get exec fst snd count_miss max_size entries]. auto.
      - unfold call, prog_of, put_prog. cbn [exec]. rewrite Hs. cbn [Z.eqb exec fst snd]. repeat split; auto; discriminate.
      - cbn. repeat split; auto; discriminate.
      - cbn. repeat split; auto; discriminate.
      - cbn. repeat split; auto; discriminate. }
    destruct Hc as [H1 [H2 H3]]. destruct (call eqb o s) as [s1 r0]. cbn [fst snd] in *.
    destruct (IH s1 H1 H2) as [I1 I2]. destruct (run eqb ops s1) as [s2 rs]. cbn [fst snd] in *. split; [assumption|].
    intros k r [H|H]; [injection H; intros; subst; apply (H3 k); reflexivity|]. eapply I2; eassumption.
Qed.
Lemma disabled_proof : forall (K V : Type) (eqb : K -> K -> bool) (ops : list (@op K V)),
  let (s, events) := run eqb ops (new_lru 0) in
  entries s = [] /\ forall k r, In (Get k, r) events -> r = Ok (OValue None).
Proof.
  intros K V eqb ops. pose proof (run_disabled K V eqb ops (new_lru 0) eq_refl eq_refl) as H.
  destruct (run eqb ops (new_lru 0)) as [s events]. exact H.
Qed.

(** A negative size makes every put raise (and empties the cache). *)
Lemma evict_negative : forall (K V : Type) n (s : @lru K V), (max_size s < 0)%Z -> length (entries s) < n ->
  snd (exec (evict_prog n) s) = Err KeyError /\ entries (fst (exec (evict_prog n) s)) = [].
Proof.
  intros K V n. induction n as [|n IH]; intros s Hs Hn; [lia|]. cbn [evict_prog exec].
  destruct (Z.ltb_spec (max_size s) (Z.of_nat (length (entries s)))) as [H|H]; [|lia].
  destruct (entries s) as [|e l] eqn:E; [cbn; split; [reflexivity|assumption]|].
  cbn [exec]. apply IH; cbn; [assumption|]. rewrite E. cbn in *. lia.
Qed.
Lemma negative_size_proof : forall (K V : Type) (eqb : K -> K -> bool) (s : @lru K V) k v, (max_size s < 0)%Z ->
  snd (call eqb (Put k v) s) = Err KeyError /\ entries (fst (call eqb (Put k v) s)) = [].
Proof.
  intros K V eqb s k v Hs. unfold call, prog_of, put_prog. cbn [exec]. destruct (Z.eqb_spec (max_size s) 0) as [E|_]; [lia|]. cbn [exec].
  assert (Hrest : forall s', (max_size s' < 0)%Z ->
    snd (exec (Prim (store eqb k v) (fun s => evict_prog (S (S (length (entries s)))))) s') = Err KeyError /\
    entries (fst (exec (Prim (store eqb k v) (fun s => evict_prog (S (S (length (entries s)))))) s')) = []).
  { intros s' Hs'. cbn [exec]. apply evict_negative; [exact Hs'|]. cbn [store set_entries entries].
    clear. induction (entries s') as [|[x w] l IH]; cbn; [lia|]. destruct (eqb k x); cbn; lia. }
  destruct (has eqb k s); [|apply Hrest; assumption]. cbn [exec]. apply Hrest. unfold move_to_end. destruct (dict_get eqb k (entries s)); assumption.
Qed.

(** Proofs about configurations, solutions and pressure targets (C38, C41). *)
From Coq Require Import List Bool ZArith Lia.
From Verif Require Import QcTac Base BaseLemmas Num Stream_Model Process_Model Search_Model Solver_Model Solver_Spec.
Import ListNotations.
Local Open Scope Qc_scope.

Definition put (d : list configuration) (c : configuration) : list configuration := dict_set Nat.eqb (fst c) (snd c) d.
Definition put_all (d l : list configuration) : list configuration := fold_left put l d.

Lemma merge_eq : forall a b, merge_configurations a b = put_all [] (a ++ b).
Proof. intros. unfold merge_configurations, put_all. now rewrite fold_left_app. Qed.

Lemma first_mentions_snoc : forall l i,
  first_mentions (l ++ [i]) = if existsb (Nat.eqb i) l then first_mentions l else first_mentions l ++ [i].
Proof.
  induction l as [|j l IH]; intros i; [reflexivity|].
  cbn [app first_mentions existsb]. rewrite IH.
  destruct (Nat.eqb i j) eqn:E; cbn [orb].
  - apply Nat.eqb_eq in E. subst. destruct (existsb (Nat.eqb j) l); [reflexivity|].
    rewrite filter_app. cbn [filter]. rewrite Nat.eqb_refl. cbn [negb]. now rewrite app_nil_r.
  - destruct (existsb (Nat.eqb i) l); [reflexivity|].
    rewrite filter_app. cbn [filter]. rewrite Nat.eqb_sym, E. reflexivity.
Qed.

Lemma mentions_snoc_in : forall l i, In i l -> first_mentions (l ++ [i]) = first_mentions l.
Proof.
  intros l i H. rewrite first_mentions_snoc.
  assert (existsb (Nat.eqb i) l = true) as -> by (apply existsb_exists; exists i; split; [exact H|apply Nat.eqb_refl]).
  reflexivity.
Qed.
Lemma mentions_snoc_notin : forall l i, ~ In i l -> first_mentions (l ++ [i]) = first_mentions l ++ [i].
Proof.
  intros l i H. rewrite first_mentions_snoc.
  destruct (existsb (Nat.eqb i) l) eqn:E; [|reflexivity].
  apply existsb_exists in E. destruct E as (x & I & X). apply Nat.eqb_eq in X. subst. contradiction.
Qed.

Lemma first_mentions_In : forall l i, In i (first_mentions l) <-> In i l.
Proof.
  induction l as [|j l IH]; intros i; cbn [first_mentions In]; [tauto|].
  rewrite filter_In, IH. destruct (Nat.eqb j i) eqn:E.
  - apply Nat.eqb_eq in E. split; [tauto|auto].
  - cbn [negb]. tauto.
Qed.

Lemma first_mentions_NoDup : forall l, NoDup (first_mentions l).
Proof.
  induction l as [|j l IH]; cbn [first_mentions]; constructor.
  - rewrite filter_In. intros [_ X]. now rewrite Nat.eqb_refl in X.
  - now apply NoDup_filter.
Qed.

Lemma put_all_keys : forall l, map fst (put_all [] l) = first_mentions (map fst l).
Proof.
  induction l as [|c l IH] using rev_ind; [reflexivity|].
  unfold put_all in *. rewrite fold_left_app. cbn [fold_left]. unfold put at 1.
  rewrite map_app. cbn [map].
  destruct (in_dec Nat.eq_dec (fst c) (map fst l)) as [E|E].
  - etransitivity; [|symmetry; apply (mentions_snoc_in _ _ E)]. rewrite dict_set_keys_in; [exact IH|apply Nat.eqb_eq|].
    refine (eq_ind_r (fun k => In (fst c) k) _ IH). now apply first_mentions_In.
  - etransitivity; [|symmetry; apply (mentions_snoc_notin _ _ E)]. rewrite dict_set_keys_notin; [|apply Nat.eqb_eq|].
    + rewrite map_app. cbn [map]. exact (f_equal (fun k => k ++ [fst c]) IH).
    + refine (eq_ind_r (fun k => ~ In (fst c) k) _ IH). intros X. apply E. now apply (proj1 (first_mentions_In _ _)) in X.
Qed.

Lemma put_all_get : forall l i v, dict_get Nat.eqb i (put_all [] l) = Some v <-> last_says l i v.
Proof.
  induction l as [|c l IH] using rev_ind; intros i v.
  - cbn. split; [discriminate|]. intros (b & a & X & _). destruct b; discriminate.
  - unfold put_all in *. rewrite fold_left_app. cbn [fold_left]. unfold put at 1.
    rewrite dict_get_set by apply Nat.eqb_eq.
    destruct c as [j w]. cbn [fst snd]. destruct (Nat.eqb i j) eqn:E.
    + apply Nat.eqb_eq in E. subst j. split.
      * intros X. injection X as ->. exists l, []. split; [reflexivity|intros []].
      * intros (b & a & X & N). destruct a as [|x a] using rev_ind.
        -- apply app_inj_tail in X. destruct X as [_ X]. congruence.
        -- exfalso. rewrite app_comm_cons, app_assoc in X. apply app_inj_tail in X. destruct X as [_ <-].
           apply N. rewrite map_app. apply in_or_app. right. now left.
    + apply Nat.eqb_neq in E. rewrite IH. split; intros (b & a & X & N).
      * exists b, (a ++ [(j, w)]). subst l. split; [now rewrite <- app_assoc|].
        rewrite map_app. intros Y. apply in_app_or in Y. destruct Y as [Y|[Y|[]]]; [now apply N|cbn in Y; congruence].
      * destruct a as [|x a] using rev_ind.
        -- apply app_inj_tail in X. destruct X as [_ X]. congruence.
        -- clear IHa. rewrite app_comm_cons, app_assoc in X. apply app_inj_tail in X. destruct X as [-> X].
           exists b, a. split; [reflexivity|]. intros Y. apply N. rewrite map_app. apply in_or_app. now left.
Qed.

Lemma put_all_merges : forall l, merges l (put_all [] l).
Proof.
  intros l. pose proof (put_all_keys l) as K.
  assert (N : NoDup (map fst (put_all [] l))) by (rewrite K; apply first_mentions_NoDup).
  split; [exact N|split; [|exact K]]. intros i v. rewrite <- put_all_get. split.
  - intros H. apply dict_get_NoDup; auto using Nat.eqb_eq.
  - intros H. eapply dict_get_In; [apply Nat.eqb_eq|exact H].
Qed.

Lemma merge_proof : forall first second, merges (first ++ second) (merge_configurations first second).
Proof. intros. rewrite merge_eq. apply put_all_merges. Qed.

Lemma NoDup_same : forall (a b : list configuration),
  NoDup (map fst a) -> map fst a = map fst b -> (forall i v, In (i, v) a <-> In (i, v) b) -> a = b.
Proof.
  induction a as [|[i v] a IH]; intros b N K H.
  - destruct b; [reflexivity|discriminate].
  - destruct b as [|[j w] b]; [discriminate|]. cbn in K. injection K as -> K.
    cbn in N. inversion N as [|x y Nj Na]; subst.
    assert (v = w).
    { destruct (proj1 (H j v) (or_introl eq_refl)) as [X|X]; [congruence|].
      exfalso. apply Nj. rewrite K. apply (in_map fst) in X. exact X. }
    subst w. f_equal. apply IH; [exact Na|exact K|].
    intros k u. specialize (H k u). cbn [In] in H. split; intros X.
    + destruct (proj1 H (or_intror X)) as [Y|Y]; [|exact Y].
      exfalso. injection Y as -> ->. apply Nj. apply (in_map fst) in X. exact X.
    + destruct (proj2 H (or_intror X)) as [Y|Y]; [|exact Y].
      exfalso. injection Y as -> ->. apply Nj. rewrite K. apply (in_map fst) in X. exact X.
Qed.

Lemma merges_unique_proof : forall l m m', merges l m -> merges l m' -> m = m'.
Proof.
  intros l m m' (N & V & K) (N' & V' & K'). apply NoDup_same; [exact N|congruence|].
  intros. now rewrite V, V'.
Qed.

Lemma last_says_app : forall a b i v,
  last_says (a ++ b) i v <-> last_says b i v \/ (~ In i (map fst b) /\ last_says a i v).
Proof.
  intros a b i v. split.
  - intros (x & y & E & N).
    revert x E. induction a as [|c a IH]; intros x E.
    + left. exists x, y. auto.
    + destruct x as [|d x]; cbn in E.
      * injection E as -> E. right. subst y. rewrite map_app in N.
        split; [intros X; apply N, in_or_app; now right|].
        exists [], a. split; [reflexivity|]. intros X. apply N, in_or_app. now left.
      * injection E as -> E. destruct (IH _ E) as [H|(H & x' & y' & -> & N')]; [now left|].
        right. split; [exact H|]. exists (d :: x'), y'. auto.
  - intros [(x & y & -> & N)|(H & x & y & -> & N)].
    + exists (a ++ x), y. rewrite app_assoc. auto.
    + exists x, (y ++ b). rewrite <- app_assoc. split; [reflexivity|].
      rewrite map_app. intros X. apply in_app_or in X. tauto.
Qed.

Lemma last_says_merges : forall l m i v, merges l m -> (last_says m i v <-> last_says l i v).
Proof.
  intros l m i v (N & V & K). rewrite <- V. split.
  - intros (x & y & -> & _). apply in_or_app. right. now left.
  - intros H. apply in_split in H. destruct H as (x & y & ->). exists x, y. split; [reflexivity|].
    rewrite map_app in N. cbn [map fst] in N. apply NoDup_remove_2 in N.
    intros X. apply N, in_or_app. now right.
Qed.

Lemma filter_filter_comm : forall A (f g : A -> bool) l, filter f (filter g l) = filter g (filter f l).
Proof.
  induction l as [|x l IH]; [reflexivity|]. cbn. destruct (g x) eqn:G, (f x) eqn:F; cbn; rewrite ?F, ?G; congruence.
Qed.

Lemma first_mentions_fm : forall l, NoDup l -> first_mentions l = l.
Proof.
  induction l as [|i l IH]; intros H; [reflexivity|]. inversion H; subst. cbn. rewrite IH by assumption. f_equal.
  assert (forall k, ~ In i k -> filter (fun j => negb (Nat.eqb i j)) k = k) as A.
  { induction k as [|j k IHk]; intros N; [reflexivity|]. cbn. destruct (Nat.eqb i j) eqn:E.
    - apply Nat.eqb_eq in E. exfalso. apply N. now left.
    - cbn. apply f_equal. apply IHk. intros X. apply N. now right. }
  auto.
Qed.

Lemma first_mentions_app : forall a b,
  first_mentions (a ++ b) = first_mentions a ++ filter (fun j => negb (existsb (Nat.eqb j) a)) (first_mentions b).
Proof.
  intros a b. revert a. induction b as [|x b IH] using rev_ind; intros a.
  - cbn. now rewrite !app_nil_r.
  - rewrite app_assoc, first_mentions_snoc, existsb_app, IH, first_mentions_snoc.
    destruct (existsb (Nat.eqb x) b) eqn:B; [now rewrite orb_true_r|]. rewrite orb_false_r.
    rewrite filter_app. cbn [filter]. destruct (existsb (Nat.eqb x) a); cbn [negb].
    + now rewrite app_nil_r.
    + now rewrite app_assoc.
Qed.

Lemma existsb_mentions : forall l j, existsb (Nat.eqb j) (first_mentions l) = existsb (Nat.eqb j) l.
Proof.
  intros l j. apply eq_true_iff_eq. rewrite !existsb_exists. split; intros (x & I & E); exists x; split; auto;
  now apply first_mentions_In.
Qed.

Lemma mentions_l : forall a b, first_mentions (first_mentions a ++ b) = first_mentions (a ++ b).
Proof.
  intros. rewrite !first_mentions_app. rewrite (first_mentions_fm (first_mentions a)) by apply first_mentions_NoDup.
  f_equal. apply filter_ext. intros. now rewrite existsb_mentions.
Qed.

Lemma mentions_r : forall a b, first_mentions (a ++ first_mentions b) = first_mentions (a ++ b).
Proof.
  intros. rewrite !first_mentions_app. now rewrite (first_mentions_fm (first_mentions b)) by apply first_mentions_NoDup.
Qed.

Lemma last_says_key : forall l i, In i (map fst l) <-> exists v, last_says l i v.
Proof.
  intros l i. split.
  - intros H. rewrite <- (first_mentions_In (map fst l)) in H. rewrite <- (put_all_keys l) in H.
    apply in_map_iff in H. destruct H as ([j v] & <- & H). exists v.
    apply (put_all_merges l). exact H.
  - intros (v & x & y & -> & _). rewrite map_app. apply in_or_app. right. now left.
Qed.

Lemma merges_app : forall a a' b b', merges a a' -> merges b b' -> forall m, merges (a' ++ b') m -> merges (a ++ b) m.
Proof.
  intros a a' b b' A B m (N & V & K). split; [exact N|split].
  - intros i v. rewrite V, !last_says_app.
    rewrite (last_says_merges _ _ _ _ A), (last_says_merges _ _ _ _ B).
    assert (In i (map fst b') <-> In i (map fst b)) as ->; [|reflexivity].
    rewrite !last_says_key. split; intros [u H]; exists u; now apply (last_says_merges b b').
  - destruct A as (_ & _ & KA), B as (_ & _ & KB).
    transitivity (first_mentions (first_mentions (map fst a) ++ first_mentions (map fst b))).
    + rewrite K. apply f_equal. etransitivity; [apply map_app|]. exact (f_equal2 (@app nat) KA KB).
    + rewrite mentions_l, mentions_r. apply f_equal. symmetry. apply map_app.
Qed.

Lemma merges_self : forall m, NoDup (map fst m) -> merges m m.
Proof.
  intros m N. split; [exact N|split].
  - intros i v. split; intros H.
    + apply in_split in H. destruct H as (x & y & ->). exists x, y. split; [reflexivity|].
      rewrite map_app in N. cbn [map fst] in N. apply NoDup_remove_2 in N. intros X. apply N, in_or_app. now right.
    + destruct H as (x & y & -> & _). apply in_or_app. right. now left.
  - now rewrite first_mentions_fm.
Qed.

Lemma merge_assoc_proof : forall a b c,
  merge_configurations (merge_configurations a b) c = merge_configurations a (merge_configurations b c).
Proof.
  intros a b c.
  apply (merges_unique_proof (a ++ b ++ c)).
  - rewrite app_assoc. apply merges_app with (a' := merge_configurations a b) (b' := put_all [] c).
    + apply merge_proof.
    + apply put_all_merges.
    + pose proof (merge_proof (merge_configurations a b) c) as P.
      pose proof (put_all_merges c) as C. pose proof (merge_proof a b) as AB.
      assert (merges (merge_configurations a b ++ put_all [] c) (put_all [] (merge_configurations a b ++ put_all [] c)))
        as Q by apply put_all_merges.
      assert (merges (merge_configurations a b ++ c) (put_all [] (merge_configurations a b ++ put_all [] c))) as Q'.
      { eapply merges_app; [|exact C|exact Q]. apply merges_self, AB. }
      now rewrite (merges_unique_proof _ _ _ P Q').
  - pose proof (merge_proof b c) as BC. pose proof (merge_proof a (merge_configurations b c)) as P.
    assert (merges (put_all [] a ++ merge_configurations b c) (put_all [] (put_all [] a ++ merge_configurations b c)))
      as Q by apply put_all_merges.
    assert (merges (a ++ merge_configurations b c) (put_all [] (put_all [] a ++ merge_configurations b c))) as Q'.
    { eapply merges_app; [apply put_all_merges| |exact Q]. apply merges_self, BC. }
    rewrite (merges_unique_proof _ _ _ P Q').
    eapply merges_app; [apply put_all_merges|exact BC|exact Q].
Qed.

Lemma combine_proof : forall a b,
  (success (combine_solutions a b) = true <-> success a = true /\ success b = true) /\
  (success a = false -> combine_solutions a b = a) /\
  (success a = true ->
     sol_failure (combine_solutions a b) = sol_failure b /\
     merges (sol_configuration a ++ sol_configuration b) (sol_configuration (combine_solutions a b))).
Proof.
  intros a b. unfold combine_solutions. destruct (success a) eqn:A.
  - split; [|split].
    + unfold success at 1. cbn [sol_failure]. fold (success b). tauto.
    + discriminate.
    + intros _. split; [reflexivity|]. apply merge_proof.
  - split; [rewrite A; intuition congruence|]. split; [reflexivity|discriminate].
Qed.

Lemma combine_assoc_proof : forall a b c,
  combine_solutions (combine_solutions a b) c = combine_solutions a (combine_solutions b c).
Proof.
  intros a b c. unfold combine_solutions at 2. destruct (success a) eqn:A.
  - unfold combine_solutions. rewrite A. unfold success at 1. cbn [sol_failure]. fold (success b).
    destruct (success b) eqn:B; cbn [sol_configuration sol_failure]; [|reflexivity].
    now rewrite merge_assoc_proof.
  - unfold combine_solutions. now rewrite A.
Qed.

Lemma find_first : forall (l : list configuration) i v, NoDup (map fst l) -> In (i, v) l ->
  find (fun c : configuration => Nat.eqb (fst c) i) l = Some (i, v).
Proof.
  induction l as [|[j w] l IH]; intros i v N H; [destruct H|].
  cbn [find fst]. inversion N; subst. destruct H as [H|H].
  - injection H as -> ->. now rewrite Nat.eqb_refl.
  - destruct (Nat.eqb j i) eqn:E.
    + exfalso. apply Nat.eqb_eq in E. subst. apply H2. apply (in_map fst) in H. exact H.
    + auto.
Qed.

Lemma get_configuration_proof : forall a b i, success a = true ->
  (forall v, last_says (sol_configuration a ++ sol_configuration b) i v ->
             get_configuration (combine_solutions a b) i = Return v) /\
  (~ In i (map fst (sol_configuration a ++ sol_configuration b)) ->
             get_configuration (combine_solutions a b) i = Raise ValueErr).
Proof.
  intros a b i A. destruct (proj2 (proj2 (combine_proof a b)) A) as (_ & N & V & K). unfold get_configuration. split.
  - intros v H. apply V in H. now rewrite (find_first _ _ _ N H).
  - intros H. destruct (find _ _) as [[j v]|] eqn:F; [|reflexivity]. exfalso.
    apply find_some in F. destruct F as [F E]. cbn in E. apply Nat.eqb_eq in E. subst j.
    apply H. rewrite <- first_mentions_In, <- K. apply (in_map fst) in F. exact F.
Qed.

(** ** Pressure targets *)

Lemma rolling_length : forall n ratio tol p, length (rolling_targets n ratio tol p) = n.
Proof. induction n; intros; cbn; [reflexivity|]. now rewrite IHn. Qed.

Lemma rolling_nth : forall n ratio tol p i, (i < n)%nat ->
  nth_error (rolling_targets n ratio tol p) i = Some (mk_constraint (p * power ratio (S i)) tol).
Proof.
  induction n; intros ratio tol p i H; [lia|]. cbn [rolling_targets]. destruct i; cbn [nth_error].
  - f_equal. f_equal. cbn. ring.
  - rewrite IHn by lia. f_equal. f_equal. cbn [power]. ring.
Qed.

Lemma nth_error_removelast : forall A (l : list A) i, (S i < length l)%nat -> nth_error (removelast l) i = nth_error l i.
Proof.
  induction l as [|x l IH]; intros i H; [cbn in H; lia|].
  destruct l as [|y l]; [cbn in H; lia|]. destruct i; [reflexivity|].
  change (removelast (x :: y :: l)) with (x :: removelast (y :: l)). cbn [nth_error]. apply IH. cbn in *. lia.
Qed.

Lemma removelast_length : forall A (l : list A), length (removelast l) = (length l - 1)%nat.
Proof.
  induction l as [|x l IH]; [reflexivity|]. destruct l as [|y l]; [reflexivity|].
  change (removelast (x :: y :: l)) with (x :: removelast (y :: l)). cbn [length]. rewrite IH. cbn [length]. lia.
Qed.

Lemma equal_ratio_proof : forall ph nth_root secs target inlet,
  let n := length secs in
  (0 < n)%nat -> s_pressure inlet <> 0 ->
  exists targets,
    multi_shaft_equal_ratio ph nth_root secs [target] inlet = multi_shaft ph secs targets inlet /\
    length targets = n /\
    nth_error targets (n - 1) = Some target /\
    (forall i c, (S i < n)%nat -> nth_error targets i = Some c -> fc_abs_tol c = fc_abs_tol target) /\
    (exists ratio,
       ratio = nth_root (fc_value target / s_pressure inlet) n /\
       (forall c, (1 < n)%nat -> nth_error targets 0 = Some c -> fc_value c = s_pressure inlet * ratio) /\
       (forall i c c', (S (S i) < n)%nat -> nth_error targets i = Some c -> nth_error targets (S i) = Some c' ->
          fc_value c' = fc_value c * ratio) /\
       (power ratio n = fc_value target / s_pressure inlet ->
          forall i c c', (S i < n)%nat -> nth_error targets i = Some c -> nth_error targets (S i) = Some c' ->
            fc_value c' = fc_value c * ratio)).
Proof.
  intros ph nth_root secs target inlet n Hn Hp.
  set (ratio := nth_root (fc_value target / s_pressure inlet) n).
  set (ts := equal_ratio_targets n ratio target (s_pressure inlet)).
  assert (L : length (rolling_targets n ratio (fc_abs_tol target) (s_pressure inlet)) = n) by apply rolling_length.
  assert (NTH : forall i, (S i < n)%nat -> nth_error ts i = Some (mk_constraint (s_pressure inlet * power ratio (S i)) (fc_abs_tol target))).
  { intros i Hi. unfold ts, equal_ratio_targets. rewrite nth_error_app1 by (rewrite removelast_length, L; lia).
    rewrite nth_error_removelast by (rewrite L; lia). apply rolling_nth. lia. }
  assert (LAST : nth_error ts (n - 1) = Some target).
  { unfold ts, equal_ratio_targets. rewrite nth_error_app2 by (rewrite removelast_length, L; lia).
    rewrite removelast_length, L, Nat.sub_diag. reflexivity. }
  exists ts. split; [|split; [|split; [|split]]].
  - unfold multi_shaft_equal_ratio. destruct secs as [|s secs]; [cbn in n; lia|].
    destruct (Qceqb (s_pressure inlet) 0) eqn:E; [exfalso; apply Hp; now apply Qceqb_eq|]. reflexivity.
  - unfold ts, equal_ratio_targets. rewrite app_length, removelast_length, L. cbn. lia.
  - exact LAST.
  - intros i c Hi H. rewrite NTH in H by assumption. injection H as <-. reflexivity.
  - exists ratio. split; [reflexivity|]. split; [|split].
    + intros c Hi H. rewrite NTH in H by assumption. injection H as <-. cbn [fc_value power]. ring.
    + intros i c c' Hi H H'. rewrite NTH in H by lia. rewrite NTH in H' by assumption. injection H as <-. injection H' as <-.
      cbn [fc_value power]. ring.
    + intros P i c c' Hi H H'. rewrite NTH in H by assumption. injection H as <-.
      destruct (Nat.eq_dec (S (S i)) n) as [E|E].
      * assert (S i = (n - 1)%nat) as X by lia. rewrite X, LAST in H'. injection H' as <-.
        cbn [fc_value].
        assert (fc_value target = s_pressure inlet * power ratio n) as ->.
        { rewrite P. field. exact Hp. }
        rewrite <- E. cbn [power]. ring.
      * rewrite NTH in H' by lia. injection H' as <-. cbn [fc_value power]. ring.
Qed.

Lemma equal_ratio_errors_proof : forall ph nth_root secs targets inlet h,
  (length targets <> 1%nat -> multi_shaft_equal_ratio ph nth_root secs targets inlet h = (Raise AssertionErr, h)) /\
  (forall target, targets = [target] -> secs = [] ->
     multi_shaft_equal_ratio ph nth_root secs targets inlet h = (Return (mk_solution [] None), h)) /\
  (forall target, targets = [target] -> secs <> [] -> s_pressure inlet = 0 ->
     multi_shaft_equal_ratio ph nth_root secs targets inlet h = (Raise ZeroDivisionErr, h)).
Proof.
  intros. split; [|split].
  - destruct targets as [|? [|? ?]]; cbn; intros H; try reflexivity. lia.
  - intros target -> ->. reflexivity.
  - intros target -> H X. destruct secs; [congruence|]. unfold multi_shaft_equal_ratio.
    destruct (Qceqb (s_pressure inlet) 0) eqn:E; [reflexivity|]. exfalso. now apply (proj1 (Qceqb_neq _ _) E).
Qed.

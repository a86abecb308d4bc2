(** Proofs about the time model. *)
From Verif Require Import Base BaseLemmas Time_Model Time_Spec.
From Coq Require Import PeanoNat.

Lemma increasing_nth_lt : forall ts i j x y,
  increasing ts -> nth_error ts i = Some x -> nth_error ts j = Some y -> (i < j)%nat -> x < y.
Proof.
  induction ts as [|t ts IH]; intros i j x y H Hi Hj Hlt; [destruct i; discriminate|].
  destruct H as [H1 H2]. destruct j as [|j]; [lia|]. cbn in Hj.
  destruct i as [|i]; cbn in Hi.
  - injection Hi as <-. destruct ts as [|u ts]; [destruct j; discriminate|].
    destruct j as [|j]; [cbn in Hj; injection Hj as <-; assumption|].
    assert (u < y) by (eapply (IH 0%nat (S j)); eauto; lia). lia.
  - eapply IH; eauto; lia.
Qed.

Lemma increasing_nth_le : forall ts i j x y,
  increasing ts -> nth_error ts i = Some x -> nth_error ts j = Some y -> ((i <= j)%nat <-> x <= y).
Proof.
  intros ts i j x y H Hi Hj; split; intros L.
  - destruct (Nat.eq_dec i j); [subst; rewrite Hi in Hj; injection Hj; lia|].
    assert (x < y) by (eapply increasing_nth_lt; eauto; lia). lia.
  - destruct (Nat.le_gt_cases i j) as [|G]; auto.
    assert (y < x) by (eapply increasing_nth_lt; eauto). lia.
Qed.

Lemma increasing_NoDup : forall ts, increasing ts -> NoDup ts.
Proof.
  intros ts H. apply NoDup_nth_error. intros i j Hi E.
  apply nth_error_Some in Hi. destruct (nth_error ts i) as [x|] eqn:Ei; [|congruence].
  destruct (Nat.lt_trichotomy i j) as [L|[L|L]]; auto.
  - assert (x < x) by (apply (increasing_nth_lt ts i j); congruence). lia.
  - assert (x < x) by (apply (increasing_nth_lt ts j i); congruence). lia.
Qed.

Lemma increasing_cons : forall t ts, increasing (t :: ts) ->
  increasing ts /\ forall x, In x ts -> t < x.
Proof.
  intros t ts [H1 H2]; split; auto. intros x Hx. apply In_nth_error in Hx as [k Hk].
  eapply (increasing_nth_lt (t :: ts) 0 (S k)); eauto; cbn; auto. lia.
Qed.

Lemma increasing_app : forall l1 l2, increasing l1 -> increasing l2 ->
  (forall x y, In x l1 -> In y l2 -> x < y) -> increasing (l1 ++ l2).
Proof.
  induction l1 as [|a l1 IH]; intros l2 H1 H2 H; cbn [app]; auto.
  destruct H1 as [H1 H1']. split.
  - destruct l1 as [|b l1]; cbn; auto. destruct l2 as [|b l2]; cbn; auto. apply H; cbn; auto.
  - apply IH; auto. intros x y Hx Hy; apply H; cbn; auto.
Qed.

(** *** contiguous series *)

Lemma contiguous_tl : forall p ps, contiguous (p :: ps) -> contiguous ps.
Proof. intros p ps (_ & _ & H); exact H. Qed.

Lemma contiguous_nonempty : forall ps p, contiguous ps -> In p ps -> nonempty p.
Proof.
  induction ps as [|q ps IH]; intros p H Hp; [contradiction|].
  destruct H as (H1 & _ & H2). destruct Hp as [<-|Hp]; auto.
Qed.

(** the dates of a contiguous series: starts followed by the last end *)
Fixpoint dates_of (ps : list period) : list datetime :=
  match ps with
  | [] => []
  | [p] => [p_start p; p_end p]
  | p :: rest => p_start p :: dates_of rest
  end.

Lemma last_cons_cons : forall A (x y : A) l d, last (x :: y :: l) d = last (y :: l) d.
Proof. reflexivity. Qed.

Lemma last_default : forall A (l : list A) x d d', last (x :: l) d = last (x :: l) d'.
Proof.
  induction l as [|y l IH]; intros x d d'; [reflexivity|]. rewrite !last_cons_cons. apply IH.
Qed.

Lemma last_shift : forall A (l : list A) b a, last (b :: l) a = last l b.
Proof. intros A [|c l] b a; [reflexivity|]. rewrite last_cons_cons. apply last_default. Qed.

Lemma dates_of_eq : forall p ps, dates_of (p :: ps) = start_dates (p :: ps) ++ [p_end (last (p :: ps) p)].
Proof.
  intros p ps; revert p; induction ps as [|q ps IH]; intros p; [reflexivity|].
  change (dates_of (p :: q :: ps)) with (p_start p :: dates_of (q :: ps)).
  rewrite IH. rewrite last_cons_cons. rewrite (last_default _ ps q p q). reflexivity.
Qed.

Lemma dates_of_increasing : forall ps, contiguous ps -> increasing (dates_of ps).
Proof.
  induction ps as [|p ps IH]; intros H; [exact I|].
  destruct H as (H1 & H2 & H3). destruct ps as [|q ps].
  - cbn. unfold nonempty in H1. lia.
  - change (dates_of (p :: q :: ps)) with (p_start p :: dates_of (q :: ps)).
    split; [|apply IH; assumption].
    unfold nonempty in H1.
    assert (forall r rs, exists ds, dates_of (r :: rs) = p_start r :: ds) as Hd.
    { intros r rs; destruct rs; eexists; reflexivity. }
    destruct (Hd q ps) as [ds Eq]. rewrite Eq. lia.
Qed.

Lemma dates_of_nth : forall ps k p, contiguous ps -> nth_error ps k = Some p ->
  nth_error (dates_of ps) k = Some (p_start p) /\ nth_error (dates_of ps) (S k) = Some (p_end p).
Proof.
  induction ps as [|q ps IH]; intros k p H Hk; [destruct k; discriminate|].
  destruct H as (H1 & H2 & H3). destruct ps as [|r ps].
  - destruct k as [|[|k]]; cbn in Hk; try discriminate. injection Hk as <-. split; reflexivity.
  - change (dates_of (q :: r :: ps)) with (p_start q :: dates_of (r :: ps)).
    destruct k as [|k]; cbn in Hk.
    + injection Hk as <-. split; [reflexivity|].
      destruct (IH 0%nat r H3 eq_refl) as [E _]. transitivity (nth_error (dates_of (r :: ps)) 0); [reflexivity|]. rewrite E. congruence.
    + apply (IH k p H3) in Hk as [E1 E2]. split; assumption.
Qed.

Lemma contiguous_order : forall ps i j p q, contiguous ps ->
  nth_error ps i = Some p -> nth_error ps j = Some q -> (i < j)%nat -> p_end p <= p_start q.
Proof.
  intros ps i j p q H Hi Hj L.
  destruct (dates_of_nth _ _ _ H Hi) as [_ E1]. destruct (dates_of_nth _ _ _ H Hj) as [E2 _].
  apply (increasing_nth_le (dates_of ps) (S i) j); auto. now apply dates_of_increasing.
Qed.

Lemma contiguous_unique : forall ps d i j p q, contiguous ps ->
  nth_error ps i = Some p -> nth_error ps j = Some q ->
  In_period d p -> In_period d q -> i = j.
Proof.
  intros ps d i j p q H Hi Hj [H1 H2] [H3 H4].
  destruct (Nat.lt_trichotomy i j) as [L|[L|L]]; auto.
  - pose proof (contiguous_order ps i j p q H Hi Hj L). lia.
  - pose proof (contiguous_order ps j i q p H Hj Hi L). lia.
Qed.

Lemma contiguous_cover : forall ps p d, contiguous (p :: ps) ->
  p_start p <= d < p_end (last (p :: ps) p) ->
  exists i q, nth_error (p :: ps) i = Some q /\ In_period d q.
Proof.
  induction ps as [|q ps IH]; intros p d H Hd.
  - exists 0%nat, p. split; [reflexivity|]. exact Hd.
  - destruct (Z.lt_ge_cases d (p_end p)) as [L|G].
    + exists 0%nat, p. split; [reflexivity|]. unfold In_period; lia.
    + destruct H as (H1 & H2 & H3). rewrite last_cons_cons, (last_default _ ps q p q) in Hd.
      destruct (IH q d H3) as (i & r & E & Hr); [lia|]. exists (S i), r. auto.
Qed.

Lemma nth_error_last : forall A (l : list A) (x : A),
  nth_error (x :: l) (length l) = Some (last (x :: l) x).
Proof.
  induction l as [|y l IH]; intros x; [reflexivity|].
  change (nth_error (x :: y :: l) (length (y :: l))) with (nth_error (y :: l) (length l)).
  rewrite IH, last_cons_cons. f_equal. apply last_default.
Qed.

Lemma contiguous_bounds : forall ps p q d i, contiguous (p :: ps) ->
  nth_error (p :: ps) i = Some q -> In_period d q ->
  p_start p <= d < p_end (last (p :: ps) p).
Proof.
  intros ps p q d i H Hi [H1 H2].
  pose proof (dates_of_increasing _ H) as Hinc.
  destruct (dates_of_nth _ _ _ H Hi) as [E1 E2].
  destruct (dates_of_nth _ 0%nat p H eq_refl) as [E3 _].
  destruct (dates_of_nth _ (length ps) (last (p :: ps) p) H (nth_error_last _ _ _)) as [_ E4].
  assert (p_start p <= p_start q).
  { apply (increasing_nth_le (dates_of (p :: ps)) 0 i); auto; lia. }
  assert (p_end q <= p_end (last (p :: ps) p)).
  { apply (increasing_nth_le (dates_of (p :: ps)) (S i) (S (length ps))); auto.
    assert (i < length (p :: ps))%nat by (apply nth_error_Some; congruence). cbn in *; lia. }
  lia.
Qed.

Lemma contiguous_in_exactly_one : forall p ps d, contiguous (p :: ps) ->
  (p_start p <= d < p_end (last (p :: ps) p) <-> in_exactly_one (p :: ps) d).
Proof.
  intros p ps d H; split.
  - intros Hd. destruct (contiguous_cover _ _ _ H Hd) as (i & q & Hi & Hq).
    exists i; split; [exists q; auto|]. intros j (r & Hj & Hr).
    eapply contiguous_unique; eauto.
  - intros (i & (q & Hi & Hq) & _). eapply contiguous_bounds; eauto.
Qed.

(** *** create_periods *)

Lemma consecutive_cons2 : forall a b l, consecutive (a :: b :: l) = mkPeriod a b :: consecutive (b :: l).
Proof. reflexivity. Qed.

Lemma consecutive_snoc : forall l a x, consecutive ((a :: l) ++ [x]) = consecutive (a :: l) ++ [mkPeriod (last l a) x].
Proof.
  induction l as [|b l IH]; intros a x; [reflexivity|].
  change ((a :: b :: l) ++ [x]) with (a :: b :: (l ++ [x])).
  rewrite !consecutive_cons2. change (b :: l ++ [x]) with ((b :: l) ++ [x]). rewrite IH.
  rewrite (last_shift _ l b a). reflexivity.
Qed.

Definition extended (times : list datetime) (ib ia : bool) : list datetime :=
  (if ib then [DT_MIN] else []) ++ times ++ (if ia then [DT_MAX] else []).

Lemma create_periods_consecutive : forall t0 rest ib ia,
  create_periods (t0 :: rest) ib ia = consecutive (extended (t0 :: rest) ib ia).
Proof.
  intros t0 rest ib ia. unfold create_periods, extended.
  assert (forall ib, (if ib : bool then [mkPeriod DT_MIN t0] else []) ++ consecutive (t0 :: rest)
    = consecutive ((if ib then [DT_MIN] else []) ++ t0 :: rest)) as Hb by (intros []; reflexivity).
  rewrite app_assoc, Hb. rewrite (app_assoc _ (t0 :: rest)).
  destruct ia; [|rewrite !app_nil_r; reflexivity].
  destruct ib.
  - cbn [app]. change (DT_MIN :: t0 :: rest ++ [DT_MAX]) with ((DT_MIN :: t0 :: rest) ++ [DT_MAX]).
    rewrite consecutive_snoc, last_shift. reflexivity.
  - cbn [app]. change (t0 :: rest ++ [DT_MAX]) with ((t0 :: rest) ++ [DT_MAX]). now rewrite consecutive_snoc.
Qed.

Lemma consecutive_contiguous : forall ts, increasing ts -> contiguous (consecutive ts).
Proof.
  induction ts as [|a ts IH]; intros H; [exact I|]. destruct ts as [|b ts]; [exact I|].
  rewrite consecutive_cons2. destruct H as [H1 H2]. cbn [contiguous].
  split; [exact H1|]. split; [|apply IH; exact H2].
  destruct ts as [|c ts]; [exact I|]. rewrite consecutive_cons2. reflexivity.
Qed.

Lemma consecutive_dates : forall a b ts, dates_of (consecutive (a :: b :: ts)) = a :: b :: ts.
Proof.
  intros a b ts; revert a b; induction ts as [|c ts IH]; intros a b; [reflexivity|].
  rewrite consecutive_cons2.
  specialize (IH b c). rewrite (consecutive_cons2 b c ts) in *.
  change (dates_of (mkPeriod a b :: mkPeriod b c :: consecutive (c :: ts)))
    with (a :: dates_of (mkPeriod b c :: consecutive (c :: ts))).
  now rewrite IH.
Qed.

Lemma consecutive_last : forall ts a b, p_end (last (consecutive (a :: b :: ts)) (mkPeriod a b)) = last ts b.
Proof.
  induction ts as [|c ts IH]; intros a b; [reflexivity|].
  rewrite consecutive_cons2, (consecutive_cons2 b c). rewrite last_cons_cons.
  rewrite (last_default _ _ _ _ (mkPeriod b c)). rewrite <- consecutive_cons2. rewrite IH.
  now rewrite last_shift.
Qed.

Lemma consecutive_partition : forall ts a d, increasing (a :: ts) ->
  (a <= d < last ts a <-> in_exactly_one (consecutive (a :: ts)) d).
Proof.
  intros [|b ts] a d H.
  - cbn. split; [lia|]. intros (i & (p & E & _) & _). destruct i; discriminate.
  - pose proof (consecutive_contiguous _ H) as Hc. rewrite consecutive_cons2 in *.
    rewrite <- (contiguous_in_exactly_one _ _ _ Hc). rewrite <- consecutive_cons2, consecutive_last.
    cbn [p_start]. rewrite last_shift. reflexivity.
Qed.

Lemma extended_increasing : forall t0 rest ib ia, increasing (t0 :: rest) ->
  (ib = true -> DT_MIN < t0) -> (ia = true -> last rest t0 < DT_MAX) ->
  increasing (extended (t0 :: rest) ib ia).
Proof.
  intros t0 rest ib ia H Hb Ha; unfold extended.
  assert (forall x, In x (t0 :: rest) -> t0 <= x) as Hmin.
  { intros x [<-|Hx]; [lia|]. apply increasing_cons in H as [_ H]. specialize (H x Hx); lia. }
  assert (forall x, In x (t0 :: rest) -> x <= last rest t0) as Hmax.
  { intros x Hx. apply In_nth_error in Hx as [k Hk].
    assert (nth_error (t0 :: rest) (length rest) = Some (last rest t0)) as Hl.
    { rewrite nth_error_last, last_shift. reflexivity. }
    apply (increasing_nth_le (t0 :: rest) k (length rest)); auto.
    assert (k < length (t0 :: rest))%nat by (apply nth_error_Some; congruence). cbn in *; lia. }
  apply increasing_app; [destruct ib; cbn; auto| |].
  - apply increasing_app; [assumption|destruct ia; cbn; auto|].
    intros x y Hx Hy. destruct ia; [|contradiction]. destruct Hy as [<-|[]]. specialize (Hmax x Hx).
    specialize (Ha eq_refl). lia.
  - intros x y Hx Hy. destruct ib; [|contradiction]. destruct Hx as [<-|[]].
    specialize (Hb eq_refl). apply in_app_or in Hy as [Hy|Hy]; [specialize (Hmin y Hy); lia|].
    destruct ia; [|contradiction]. destruct Hy as [<-|[]]. unfold DT_MIN, DT_MAX; lia.
Qed.

Lemma last_app_one : forall A (l : list A) x d, last (l ++ [x]) d = x.
Proof.
  induction l as [|a l IH]; intros x d; [reflexivity|].
  cbn [app]. destruct (l ++ [x]) eqn:E; [now destruct l|]. rewrite last_cons_cons, <- E. apply IH.
Qed.

Theorem create_periods_partition_proof :
  forall (t0 : datetime) (rest : list datetime) (include_before include_after : bool),
    increasing (t0 :: rest) ->
    (include_before = true -> DT_MIN < t0) ->
    (include_after = true -> last rest t0 < DT_MAX) ->
    let ps := create_periods (t0 :: rest) include_before include_after in
    let from := if include_before then DT_MIN else t0 in
    let until := if include_after then DT_MAX else last rest t0 in
    contiguous ps /\ forall d, from <= d < until <-> in_exactly_one ps d.
Proof.
  intros t0 rest ib ia H Hb Ha. cbv zeta.
  rewrite create_periods_consecutive.
  pose proof (extended_increasing t0 rest ib ia H Hb Ha) as Hinc.
  split; [now apply consecutive_contiguous|]. intros d.
  unfold extended in *. destruct ib; cbn [app] in *.
  - rewrite <- consecutive_partition by assumption.
    destruct ia; cbn [app].
    + change (t0 :: rest ++ [DT_MAX]) with ((t0 :: rest) ++ [DT_MAX]). now rewrite last_app_one.
    + rewrite app_nil_r. rewrite last_shift. reflexivity.
  - rewrite <- consecutive_partition by assumption.
    destruct ia; [now rewrite last_app_one|now rewrite app_nil_r].
Qed.

(** *** intersection *)

Lemma contains_date_iff : forall p d, contains_date p d = true <-> In_period d p.
Proof. intros; unfold contains_date, In_period; lia. Qed.

Lemma intersects_iff : forall a b, nonempty a -> nonempty b ->
  (intersects a b = true <-> exists d, In_period d a /\ In_period d b).
Proof.
  intros a b Ha Hb; unfold intersects. rewrite orb_true_iff, !contains_date_iff.
  unfold nonempty, In_period in *. split.
  - intros [H|H]; [exists (p_start a)|exists (p_start b)]; lia.
  - intros (d & H1 & H2). lia.
Qed.

Lemma intersection_Some : forall a b c, intersection a b = Some c ->
  forall d, In_period d c <-> In_period d a /\ In_period d b.
Proof.
  unfold intersection; intros a b c H d. destruct (intersects a b); cbn in H; [|discriminate].
  injection H as <-. unfold In_period; cbn. lia.
Qed.

Lemma intersection_None : forall a b, nonempty a -> nonempty b ->
  (intersection a b = None <-> ~ exists d, In_period d a /\ In_period d b).
Proof.
  intros a b Ha Hb. rewrite <- (intersects_iff a b Ha Hb). unfold intersection.
  destruct (intersects a b); cbn; split; congruence.
Qed.

Lemma intersection_nonempty : forall a b c, nonempty a -> nonempty b ->
  intersection a b = Some c -> nonempty c.
Proof.
  unfold intersection; intros a b c Ha Hb H. destruct (intersects a b) eqn:E; cbn in H; [|discriminate].
  injection H as <-. unfold intersects in E. rewrite orb_true_iff, !contains_date_iff in E.
  unfold nonempty, In_period in *; cbn; lia.
Qed.

Lemma intersection_comm : forall a b, intersection a b = intersection b a.
Proof.
  intros a b; unfold intersection, intersects. rewrite orb_comm.
  destruct (_ || _); cbn; auto. do 2 f_equal; lia.
Qed.

Lemma intersects_bounds : forall a b, nonempty a -> nonempty b ->
  intersects a b = (Z.max (p_start a) (p_start b) <? Z.min (p_end a) (p_end b)).
Proof.
  intros a b Ha Hb; unfold intersects, contains_date, nonempty in *.
  destruct (_ <? _) eqn:E; lia.
Qed.

Lemma intersection_bounds : forall a b, nonempty a -> nonempty b ->
  intersection a b =
  if Z.max (p_start a) (p_start b) <? Z.min (p_end a) (p_end b)
  then Some (mkPeriod (Z.max (p_start a) (p_start b)) (Z.min (p_end a) (p_end b))) else None.
Proof.
  intros a b Ha Hb; unfold intersection. rewrite intersects_bounds by assumption. now destruct (_ <? _).
Qed.

Lemma intersection_assoc : forall a b c, nonempty a -> nonempty b -> nonempty c ->
  (match intersection a b with Some ab => intersection ab c | None => None end) =
  (match intersection b c with Some bc => intersection a bc | None => None end).
Proof.
  intros a b c Ha Hb Hc.
  rewrite (intersection_bounds a b), (intersection_bounds b c) by assumption.
  destruct (Z.ltb_spec (Z.max (p_start a) (p_start b)) (Z.min (p_end a) (p_end b)));
  destruct (Z.ltb_spec (Z.max (p_start b) (p_start c)) (Z.min (p_end b) (p_end c)));
  repeat (rewrite intersection_bounds by (unfold nonempty in *; cbn; lia)); cbn [p_start p_end].
  - rewrite Z.max_assoc, Z.min_assoc. reflexivity.
  - destruct (Z.ltb_spec (Z.max (Z.max (p_start a) (p_start b)) (p_start c))
                (Z.min (Z.min (p_end a) (p_end b)) (p_end c))); [lia|reflexivity].
  - destruct (Z.ltb_spec (Z.max (p_start a) (Z.max (p_start b) (p_start c)))
                (Z.min (p_end a) (Z.min (p_end b) (p_end c)))); [lia|reflexivity].
  - reflexivity.
Qed.

(** *** selecting periods *)

Lemma filter_slice : forall A (P : A -> bool) l i j,
  (forall k x, nth_error l k = Some x -> (P x = true <-> (i <= k < j)%nat)) ->
  filter P l = slice i j l.
Proof.
  intros A P; induction l as [|x l IH]; intros i j H.
  - unfold slice. rewrite skipn_nil, firstn_nil. reflexivity.
  - cbn [filter]. pose proof (H 0%nat x eq_refl) as H0. destruct i as [|i].
    + destruct j as [|j].
      * destruct (P x) eqn:E; [exfalso; destruct H0 as [H0 _]; specialize (H0 eq_refl); lia|].
        rewrite (IH 0%nat 0%nat); [reflexivity|]. intros k y Hk.
        rewrite (H (S k) y Hk). lia.
      * destruct (P x) eqn:E; [|exfalso; destruct H0 as [_ H0]; assert (false = true) by (apply H0; lia); discriminate].
        rewrite (IH 0%nat j); [unfold slice; cbn; now rewrite Nat.sub_0_r|]. intros k y Hk.
        rewrite (H (S k) y Hk). lia.
    + destruct (P x) eqn:E; [exfalso; destruct H0 as [H0 _]; specialize (H0 eq_refl); lia|].
      rewrite (IH i (pred j)).
      * unfold slice. cbn [skipn]. f_equal. lia.
      * intros k y Hk. rewrite (H (S k) y Hk). lia.
Qed.

Lemma get_period_indices_slice : forall self first rest i j,
  contiguous (first :: rest) ->
  get_period_indices self (first :: rest) = Ok (i, j) ->
  slice i j (first :: rest) = filter (fun q => (p_start self <=? p_start q) && (p_end q <=? p_end self)) (first :: rest)
  /\ (i < length (first :: rest))%nat /\ (j <= length (first :: rest))%nat.
Proof.
  intros self first rest i j Hc H. unfold get_period_indices in H.
  change (last_opt (first :: rest)) with (Some (last rest first)) in H.
  cbv iota beta in H.
  assert (last (first :: rest) first = last rest first) as El.
  { destruct rest; [reflexivity|]. now rewrite last_cons_cons. }
  destruct (index_of Z.eqb (Z.max _ _) _) as [i'|] eqn:Ei; [|discriminate].
  destruct (index_of Z.eqb (Z.min _ _) _) as [j'|] eqn:Ej; [|discriminate].
  injection H as -> ->.
  apply index_of_Some in Ei as [Ei _]; [|apply Zeqb_spec].
  apply index_of_Some in Ej as [Ej _]; [|apply Zeqb_spec].
  pose proof (dates_of_eq first rest) as Ed. rewrite El in Ed. rewrite <- Ed in Ej.
  pose proof (dates_of_increasing _ Hc) as Hinc.
  assert (nth_error (dates_of (first :: rest)) i = Some (Z.max (p_start self) (p_start first))) as Ei'.
  { rewrite Ed, nth_error_app1; auto. apply nth_error_Some. intros F. rewrite F in Ei. discriminate. }
  assert (length (start_dates (first :: rest)) = length (first :: rest)) as Els by (unfold start_dates; now rewrite map_length).
  split; [|split].
  - symmetry. apply filter_slice. intros k q Hk.
    destruct (dates_of_nth _ _ _ Hc Hk) as [E1 E2].
    rewrite andb_true_iff, !Z.leb_le.
    destruct (dates_of_nth _ 0%nat first Hc eq_refl) as [E3 _].
    destruct (dates_of_nth _ _ _ Hc (nth_error_last _ rest first)) as [_ E4]. rewrite El in E4.
    assert (p_start first <= p_start q) by (apply (increasing_nth_le _ 0 k _ _ Hinc); auto; lia).
    assert (p_end q <= p_end (last rest first)).
    { apply (increasing_nth_le _ (S k) (S (length rest)) _ _ Hinc); auto.
      assert (k < length (first :: rest))%nat by (apply nth_error_Some; congruence). cbn in *; lia. }
    pose proof (increasing_nth_le _ _ _ _ _ Hinc Ei' E1) as F1.
    pose proof (increasing_nth_le _ _ _ _ _ Hinc E2 Ej) as F2.
    split.
    + intros [G1 G2]. split; [apply F1; lia|]. assert (S k <= j)%nat by (apply F2; lia). lia.
    + intros [G1 G2]. apply F1 in G1. assert (p_end q <= Z.min (p_end self) (p_end (last rest first))) by (apply F2; lia). lia.
  - rewrite <- Els. apply nth_error_Some; congruence.
  - assert (j < length (dates_of (first :: rest)))%nat by (apply nth_error_Some; congruence).
    rewrite Ed, app_length, Els in H. cbn in *; lia.
Qed.

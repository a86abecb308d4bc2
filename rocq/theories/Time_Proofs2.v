(** Proofs about selecting periods and about temporal models. *)
From Verif Require Import Base BaseLemmas Time_Model Time_Spec Time_Proofs.
From Coq Require Import PeanoNat.

Lemma dates_of_In : forall ps t, contiguous ps -> (In t (dates_of ps) <-> is_boundary ps t).
Proof.
  induction ps as [|p ps IH]; intros t H.
  - cbn. unfold is_boundary. split; [tauto|]. intros (p & [] & _).
  - destruct H as (H1 & H2 & H3). destruct ps as [|q ps].
    + cbn. unfold is_boundary. split.
      * intros [<-|[<-|[]]]; exists p; cbn; auto.
      * intros (r & [->|[]] & [E|E]); auto.
    + change (dates_of (p :: q :: ps)) with (p_start p :: dates_of (q :: ps)). cbn [In].
      rewrite IH by assumption. unfold is_boundary. split.
      * intros [<-|(r & Hr & E)]; [exists p; cbn; auto|exists r; cbn in *; auto].
      * intros (r & [->|Hr] & [E|E]); auto.
        -- right. exists q. split; [now left|]. left; congruence.
        -- right. exists r; auto.
        -- right. exists r; auto.
Qed.

Theorem get_periods_proof :
  forall (self first : period) (rest : list period),
    contiguous (first :: rest) -> nonempty self ->
    let ps := first :: rest in
    let whole := mkPeriod (p_start first) (p_end (last rest first)) in
    (* the query does not meet the series, or its ends clamped to the series are dates of the series *)
    ((~ exists d, In_period d whole /\ In_period d self) \/
     (is_boundary ps (Z.max (p_start self) (p_start first)) /\
      is_boundary ps (Z.min (p_end self) (p_end (last rest first))))) ->
    get_periods self ps =
    Ok (filter (fun q => (p_start self <=? p_start q) && (p_end q <=? p_end self)) ps).
Proof.
  intros self first rest Hc Hs. cbv zeta. intros Hg.
  set (whole := mkPeriod (p_start first) (p_end (last rest first))) in *.
  assert (nonempty whole) as Hw.
  { destruct (dates_of_nth _ 0%nat first Hc eq_refl) as [E3 _].
    destruct (dates_of_nth _ _ _ Hc (nth_error_last _ rest first)) as [_ E4].
    rewrite last_shift in E4. unfold nonempty, whole; cbn.
    apply (increasing_nth_lt _ _ _ _ _ (dates_of_increasing _ Hc) E3 E4). lia. }
  unfold get_periods. cbn [periods_period last_opt bind]. fold whole.
  destruct (intersects whole self) eqn:Ei.
  - destruct Hg as [Hg|[Hg1 Hg2]].
    { exfalso; apply Hg. now apply intersects_iff. }
    assert (exists i j, get_period_indices self (first :: rest) = Ok (i, j)) as (i & j & E).
    { unfold get_period_indices. cbn [last_opt].
      apply (dates_of_In _ _ Hc) in Hg1, Hg2. rewrite dates_of_eq, last_shift in Hg1, Hg2.
      destruct (index_of Z.eqb (Z.max _ _) _) as [i|] eqn:E1.
      2:{ exfalso. apply index_of_None in E1; [|apply Zeqb_spec].
          apply in_app_or in Hg1 as [Hg1|[Hg1|[]]]; [contradiction|].
          rewrite intersects_bounds in Ei by assumption. unfold whole, nonempty in *; cbn in *. lia. }
      destruct (index_of Z.eqb (Z.min _ _) _) as [j|] eqn:E2; [eauto|].
      exfalso. apply index_of_None in E2; [|apply Zeqb_spec]. contradiction. }
    rewrite E. cbn [bind fst snd]. f_equal. now apply get_period_indices_slice.
  - f_equal. symmetry.
    assert (forall q, In q (first :: rest) -> (p_start self <=? p_start q) && (p_end q <=? p_end self) = false) as Hf.
    { intros q Hq. apply In_nth_error in Hq as [k Hk].
      destruct ((p_start self <=? p_start q) && (p_end q <=? p_end self)) eqn:E; auto.
      exfalso. assert (intersects whole self = true); [|congruence].
      apply intersects_iff; auto. exists (p_start q).
      pose proof (contiguous_nonempty _ _ Hc (nth_error_In _ _ Hk)) as Hq. unfold nonempty in Hq.
      assert (In_period (p_start q) q) as Hqq by (unfold In_period; lia).
      pose proof (contiguous_bounds _ _ _ _ _ Hc Hk Hqq) as B. rewrite last_shift in B.
      unfold In_period, whole; cbn. lia. }
    clear -Hf. induction (first :: rest) as [|q l IH]; cbn; auto.
    rewrite Hf by (left; auto). apply IH. intros; apply Hf; right; auto.
Qed.

Theorem get_periods_off_grid_proof :
  forall (self first : period) (rest : list period),
    contiguous (first :: rest) -> nonempty self ->
    let ps := first :: rest in
    let whole := mkPeriod (p_start first) (p_end (last rest first)) in
    (exists d, In_period d whole /\ In_period d self) ->
    ~ (is_boundary ps (Z.max (p_start self) (p_start first)) /\
       is_boundary ps (Z.min (p_end self) (p_end (last rest first)))) ->
    get_periods self ps = Err ProgrammingError.
Proof.
  intros self first rest Hc Hs. cbv zeta. intros Hi Hg.
  set (whole := mkPeriod (p_start first) (p_end (last rest first))) in *.
  assert (nonempty whole) as Hw by (destruct Hi as (d & H1 & _); unfold In_period, nonempty in *; lia).
  unfold get_periods. cbn [periods_period last_opt bind]. fold whole.
  assert (intersects whole self = true) as -> by (now apply intersects_iff).
  enough (get_period_indices self (first :: rest) = Err ProgrammingError) as -> by reflexivity.
  unfold get_period_indices. cbn [last_opt].
  destruct (index_of Z.eqb (Z.max _ _) _) as [i|] eqn:E1; [|reflexivity].
  destruct (index_of Z.eqb (Z.min _ _) _) as [j|] eqn:E2; [|reflexivity].
  exfalso; apply Hg. rewrite <- !(dates_of_In _ _ Hc), dates_of_eq, last_shift.
  apply index_of_Some in E1 as [E1 _]; [|apply Zeqb_spec]. apply index_of_Some in E2 as [E2 _]; [|apply Zeqb_spec].
  apply nth_error_In in E1, E2. split; auto. apply in_or_app; auto.
Qed.

(** *** temporal models *)

Lemma period_eqb_spec : forall a b, period_eqb a b = true <-> a = b.
Proof.
  intros [a1 a2] [b1 b2]; unfold period_eqb; cbn. rewrite andb_true_iff, !Z.eqb_eq.
  split; [intros [-> ->]; auto|intros [= -> ->]; auto].
Qed.

Lemma list_eqb_spec : forall A (eqb : A -> A -> bool), (forall a b, eqb a b = true <-> a = b) ->
  forall l m, list_eqb eqb l m = true <-> l = m.
Proof.
  intros A eqb H; induction l as [|a l IH]; intros [|b m]; cbn; try (split; easy).
  rewrite andb_true_iff, H, IH. split; [intros [-> ->]; auto|intros [= -> ->]; auto].
Qed.

Lemma period_leb_total : forall a b, period_leb a b = false -> period_leb b a = true.
Proof. intros a b; unfold period_leb; lia. Qed.

Lemma temporal_model_of_periods_iff : forall M (l tm : list (period * M)),
  temporal_model_of_periods l = Ok tm <->
  tm = l /\ Sorted (fun a b => period_leb a b = true) (map fst l).
Proof.
  intros M l tm; unfold temporal_model_of_periods.
  destruct (list_eqb _ _ _) eqn:E.
  - apply (list_eqb_spec _ _ period_eqb_spec) in E. split.
    + intros [= <-]. split; auto. rewrite E. apply sort_Sorted, period_leb_total.
    + intros [-> _]; auto.
  - split; [discriminate|]. intros [_ H]. rewrite sort_sorted_id in E by assumption.
    assert (list_eqb period_eqb (map fst l) (map fst l) = true) by now apply (list_eqb_spec _ _ period_eqb_spec).
    congruence.
Qed.

Lemma dates_to_periods_sorted : forall M (l : list (datetime * M)), NoDup (map fst l) ->
  (Sorted (fun a b => period_leb a b = true) (map fst (dates_to_periods l)) <-> increasing (map fst l)).
Proof.
  induction l as [|[d m] l IH]; intros Hnd; [cbn; split; auto; constructor|].
  inversion Hnd as [|? ? Hni Hnd']; subst. specialize (IH Hnd').
  cbn [dates_to_periods map fst increasing]. destruct l as [|[d' m'] l].
  - cbn. split; intros _; [tauto|repeat constructor].
  - cbn [map fst dates_to_periods] in *. split.
    + intros H. apply Sorted_inv in H as [H1 H2]. split; [|now apply IH].
      inversion H2 as [|? ? E]; subst. unfold period_leb in E; cbn in E.
      assert (d <> d') by (intros ->; apply Hni; cbn; auto). lia.
    + intros [H1 H2]. constructor; [now apply IH|]. constructor. unfold period_leb; cbn. lia.
Qed.

Lemma temporal_model_of_dates_iff : forall M (l : list (datetime * M)) tm, NoDup (map fst l) ->
  (temporal_model_of_dates l = Ok tm <-> tm = dates_to_periods l /\ increasing (map fst l)).
Proof.
  intros M l tm Hnd; unfold temporal_model_of_dates. rewrite temporal_model_of_periods_iff.
  rewrite dates_to_periods_sorted by assumption. tauto.
Qed.

Lemma get_model_cons : forall M p (m : M) tm d,
  get_model ((p, m) :: tm) d = if contains_date p d then Ok m else get_model tm d.
Proof. intros; unfold get_model; cbn. now destruct (contains_date p d). Qed.

Lemma get_model_dates : forall M (l : list (datetime * M)) d m,
  increasing (map fst l) -> d < DT_MAX ->
  (get_model (dates_to_periods l) d = Ok m <-> latest_model l d m).
Proof.
  induction l as [|[k m0] l IH]; intros d m Hinc Hd.
  - cbn. split; [discriminate|]. intros (k & [] & _).
  - cbn [dates_to_periods]. rewrite get_model_cons. unfold contains_date; cbn [p_start p_end].
    cbn [map fst] in Hinc. destruct (increasing_cons _ _ Hinc) as [Hinc' Hlt].
    assert (forall k' m', In (k', m') l -> k < k') as Hlt'.
    { intros k' m' H. apply Hlt. now apply (in_map fst) in H. }
    destruct (Z.leb_spec k d) as [L|L]; cbn [andb].
    + destruct l as [|[k2 m2] l].
      * destruct (Z.ltb_spec d DT_MAX); [|lia]. split.
        -- intros [= <-]. exists k. cbn. repeat split; auto. intros k' m' [[= <- <-]|[]]; lia.
        -- intros (k' & [[= <- <-]|[]] & _); auto.
      * specialize (IH d m Hinc' Hd). destruct (Z.ltb_spec d k2) as [L2|L2].
        -- assert (forall k' m', In (k', m') ((k2, m2) :: l) -> d < k') as Hgt.
           { intros k' m' [[= <- <-]|H]; auto. cbn [map fst] in Hinc'.
             destruct (increasing_cons _ _ Hinc') as [_ H2]. apply (in_map fst) in H. specialize (H2 _ H). cbn in H2. lia. }
           split.
           ++ intros [= <-]. exists k. split; [now left|]. split; [lia|].
              intros k' m' [[= <- <-]|H] Hk; [lia|]. specialize (Hgt _ _ H); lia.
           ++ intros (k' & [[= <- <-]|H] & Hk & _); auto. specialize (Hgt _ _ H); lia.
        -- rewrite IH. split.
           ++ intros (k' & H & Hk & Hmax). exists k'. split; [now right|]. split; [assumption|].
              intros k'' m'' [[= <- <-]|H''] Hk''; eauto. specialize (Hlt' _ _ H). lia.
           ++ intros (k' & [[= <- <-]|H] & Hk & Hmax).
              ** specialize (Hmax k2 m2 (or_intror (or_introl eq_refl)) L2). specialize (Hlt' k2 m2 (or_introl eq_refl)). lia.
              ** exists k'. split; [assumption|]. split; [assumption|]. intros k'' m'' H'' Hk''. apply (Hmax k'' m''); auto. now right.
    + assert (get_model (dates_to_periods l) d = Err ValueError) as ->.
      { specialize (IH d). destruct (get_model (dates_to_periods l) d) as [m'|e] eqn:E.
        - exfalso. destruct (proj1 (IH m' Hinc' Hd) eq_refl) as (k' & H & Hk & _). specialize (Hlt' _ _ H). lia.
        - unfold get_model in E. destruct (find _ _); congruence. }
      split; [discriminate|]. intros (k' & [[= <- <-]|H] & Hk & _); [lia|]. specialize (Hlt' _ _ H). lia.
Qed.

(** *** restriction to a target period *)

Lemma dict_of_list_NoDup : forall K V (eqb : K -> K -> bool), (forall a b, eqb a b = true <-> a = b) ->
  forall (l acc : list (K * V)), NoDup (map fst (acc ++ l)) ->
  fold_left (fun acc e => dict_set eqb (fst e) (snd e) acc) l acc = acc ++ l.
Proof.
  intros K V eqb Heq; induction l as [|[k v] l IH]; intros acc H; cbn; [now rewrite app_nil_r|].
  rewrite dict_set_keys_notin; auto.
  - rewrite IH; [now rewrite <- app_assoc|]. now rewrite <- app_assoc.
  - rewrite map_app in H. cbn in H. apply NoDup_remove_2 in H. intros Hin; apply H. apply in_or_app; auto.
Qed.

Definition restrict_entry {M} (target : period) (e : period * M) : list (period * M) :=
  match intersection (fst e) target with Some p => [(p, snd e)] | None => [] end.

Lemma define_fold : forall M (target : period) (l acc : list (period * M)),
  fold_left
    (fun acc e =>
       if intersects (fst e) target then
         match intersection (fst e) target with
         | Some p => dict_set period_eqb p (snd e) acc
         | None => acc
         end
       else acc) l acc =
  fold_left (fun acc e => dict_set period_eqb (fst e) (snd e) acc) (flat_map (restrict_entry target) l) acc.
Proof.
  induction l as [|[p m] l IH]; intros acc; cbn [fold_left flat_map]; auto.
  rewrite fold_left_app, IH. f_equal. unfold restrict_entry; cbn [fst snd].
  unfold intersection. destruct (intersects p target); reflexivity.
Qed.

(** pairwise disjoint, by structure *)
Inductive pdisj {M} : list (period * M) -> Prop :=
| pdisj_nil : pdisj []
| pdisj_cons : forall e l, pdisj l ->
    (forall f d, In f l -> In_period d (fst e) -> In_period d (fst f) -> False) -> pdisj (e :: l).

Lemma disjoint_pdisj : forall M (l : list (period * M)), disjoint_entries l -> pdisj l.
Proof.
  induction l as [|e l IH]; intros H; constructor.
  - apply IH. intros i j e1 e2 d H1 H2 H3 H4. assert (S i = S j) by (eapply H; eauto). lia.
  - intros f d Hf H1 H2. apply In_nth_error in Hf as [k Hk].
    assert (0%nat = S k) by (apply (H 0%nat (S k) e f d); auto). lia.
Qed.

Lemma restrict_NoDup : forall M (target : period) (l : list (period * M)),
  nonempty target -> (forall e, In e l -> nonempty (fst e)) -> pdisj l ->
  NoDup (map fst (flat_map (restrict_entry target) l)).
Proof.
  intros M target l Ht; induction l as [|e l IH]; intros Hne Hd; cbn; [constructor|].
  inversion Hd as [|? ? Hd' Hdis]; subst.
  assert (NoDup (map fst (flat_map (restrict_entry target) l))) as IH' by (apply IH; auto; intros; apply Hne; now right).
  unfold restrict_entry at 1. destruct (intersection (fst e) target) as [p|] eqn:E; cbn; auto.
  constructor; auto. intros Hin. apply in_map_iff in Hin as ((q & m) & Eq & Hin). cbn in Eq; subst q.
  apply in_flat_map in Hin as (f & Hf & Hin). unfold restrict_entry in Hin.
  destruct (intersection (fst f) target) as [q|] eqn:E2; [|contradiction].
  destruct Hin as [[= -> _]|[]].
  pose proof (intersection_nonempty _ _ _ (Hne e (or_introl eq_refl)) Ht E) as Hp. unfold nonempty in Hp.
  assert (In_period (p_start p) p) as Hin by (unfold In_period; lia).
  apply (Hdis f (p_start p) Hf).
  - apply (intersection_Some _ _ _ E) in Hin. tauto.
  - apply (intersection_Some _ _ _ E2) in Hin. tauto.
Qed.

Lemma define_restrict : forall M (data : temporal_data M) target,
  nonempty target ->
  (forall e, In e (default_temporal_model data target) -> nonempty (fst e)) ->
  pdisj (default_temporal_model data target) ->
  define_time_model_for_period data target = flat_map (restrict_entry target) (default_temporal_model data target).
Proof.
  intros M data target Ht Hne Hd. unfold define_time_model_for_period. rewrite define_fold.
  rewrite (dict_of_list_NoDup _ _ _ period_eqb_spec); [reflexivity|]. cbn [app].
  now apply restrict_NoDup.
Qed.

Lemma restrict_in_force : forall M (target : period) (l : list (period * M)) d m,
  in_force (flat_map (restrict_entry target) l) d m <->
  In_period d target /\ exists p, In (p, m) l /\ intersects p target = true /\ In_period d p.
Proof.
  intros M target l d m; split.
  - intros (p & Hp & Hd). apply in_flat_map in Hp as ((q & m') & Hq & Hin). unfold restrict_entry in Hin; cbn in Hin.
    destruct (intersection q target) as [r|] eqn:E; [|contradiction]. destruct Hin as [[= -> ->]|[]].
    apply (intersection_Some _ _ _ E) in Hd as [H1 H2]. split; auto. exists q. repeat split; auto; try apply H1.
    unfold intersection in E. destruct (intersects q target); auto. discriminate.
  - intros (Ht & p & Hp & Hi & Hd).
    destruct (intersection p target) as [r|] eqn:E.
    + exists r. split; [|now apply (intersection_Some _ _ _ E)].
      apply in_flat_map. exists (p, m). split; auto. unfold restrict_entry; cbn. rewrite E. now left.
    + unfold intersection in E. rewrite Hi in E. discriminate.
Qed.

Lemma dates_to_periods_props : forall M (l : list (datetime * M)),
  increasing (map fst l) -> (forall k, In k (map fst l) -> k < DT_MAX) ->
  (forall e, In e (dates_to_periods l) -> nonempty (fst e)) /\ pdisj (dates_to_periods l) /\
  (forall e, In e (dates_to_periods l) -> match l with [] => True | (k, _) :: _ => k <= p_start (fst e) end).
Proof.
  induction l as [|[k m] l IH]; intros Hinc Hb; [repeat split; cbn; try contradiction; constructor|].
  cbn [map fst] in Hinc. destruct (increasing_cons _ _ Hinc) as [Hinc' Hlt].
  destruct (IH Hinc') as (H1 & H2 & H3); [intros; apply Hb; now right|].
  assert (match l with [] => k < DT_MAX | (k2, _) :: _ => k < k2 end) as Hk.
  { destruct l as [|[k2 m2] l]; [apply Hb; now left|]. apply Hlt. now left. }
  split; [|split].
  - intros e [<-|He]; auto. unfold nonempty; cbn. destruct l as [|[k2 m2] l]; auto.
  - constructor; auto. intros f d Hf [G1 G2] [G3 G4]. specialize (H3 f Hf). cbn in *.
    destruct l as [|[k2 m2] l]; [contradiction|]. lia.
  - intros e [<-|He]; [cbn; lia|]. specialize (H3 e He). destruct l as [|[k2 m2] l]; [contradiction|]. lia.
Qed.

Lemma find_pdisj : forall M (l : list (period * M)) d m, pdisj l ->
  (get_model l d = Ok m <-> in_force l d m).
Proof.
  intros M l d m H; induction H as [|[p m0] l H IH Hdis].
  - cbn. split; [discriminate|]. intros (p & [] & _).
  - rewrite get_model_cons. destruct (contains_date p d) eqn:E.
    + apply contains_date_iff in E. split.
      * intros [= <-]. exists p. split; [now left|assumption].
      * intros (q & [[= -> ->]|Hq] & Hd); auto. exfalso; eapply Hdis; eauto.
    + rewrite IH. split; intros (q & Hq & Hd).
      * exists q; split; [now right|assumption].
      * destruct Hq as [[= -> ->]|Hq]; [apply contains_date_iff in Hd; congruence|]. exists q; auto.
Qed.

Lemma period_dict_dates : forall M (l : list (datetime * M)),
  increasing (map fst l) -> period_dict (dates_to_periods l) = dates_to_periods l.
Proof.
  intros M l H. unfold period_dict. rewrite (dict_of_list_NoDup _ _ _ period_eqb_spec); [reflexivity|].
  cbn [app]. apply increasing_NoDup in H.
  assert (forall l : list (datetime * M), map p_start (map fst (dates_to_periods l)) = map fst l) as E.
  { induction l0 as [|[k m] l0 IH]; cbn; [reflexivity|]. now rewrite IH. }
  rewrite <- E in H. now apply NoDup_map_inv in H.
Qed.

Lemma period_dict_disjoint : forall M (l : list (period * M)),
  (forall e, In e l -> nonempty (fst e)) -> pdisj l -> period_dict l = l.
Proof.
  intros M l Hne Hd. unfold period_dict. rewrite (dict_of_list_NoDup _ _ _ period_eqb_spec); [reflexivity|].
  cbn [app]. induction Hd as [|e l Hd IH Hdis]; cbn; [constructor|].
  constructor; [|apply IH; intros; apply Hne; now right].
  intros Hin. apply in_map_iff in Hin as (f & E & Hf).
  pose proof (Hne e (or_introl eq_refl)) as Hn. unfold nonempty in Hn.
  apply (Hdis f (p_start (fst e)) Hf); [unfold In_period; lia|]. rewrite E; unfold In_period; lia.
Qed.

Lemma dates_to_periods_starts : forall M (l : list (datetime * M)),
  map (fun e => p_start (fst e)) (dates_to_periods l) = map fst l.
Proof. induction l as [|[k m] l IH]; cbn; [reflexivity|]. now rewrite IH. Qed.

Lemma restrict_sorted : forall M (target : period) (l : list (period * M)),
  increasing (map (fun e => p_start (fst e)) l) -> (forall e, In e l -> nonempty (fst e)) -> pdisj l ->
  nonempty target ->
  Sorted (fun a b => period_leb a b = true) (map fst (flat_map (restrict_entry target) l)).
Proof.
  intros M target l Hinc Hne Hd Ht. apply StronglySorted_Sorted.
  induction Hd as [|e l Hd IH Hdis]; cbn [flat_map map]; [constructor|].
  cbn [map] in Hinc. destruct (increasing_cons _ _ Hinc) as [Hinc' Hlt].
  specialize (IH Hinc' (fun k H => Hne k (or_intror H))).
  unfold restrict_entry at 1.
  destruct (intersection _ target) as [p|] eqn:E; cbn [map app fst]; auto.
  constructor; auto. apply Forall_forall. intros q Hq.
  apply in_map_iff in Hq as ((q' & m') & Eq & Hq). cbn in Eq; subst q'.
  apply in_flat_map in Hq as (f & Hr & Hq). unfold restrict_entry in Hq.
  destruct (intersection (fst f) target) as [s|] eqn:E2; [|contradiction]. destruct Hq as [[= <- _]|[]].
  pose proof (Hne e (or_introl eq_refl)) as N1. pose proof (Hne f (or_intror Hr)) as N2.
  assert (p_start (fst e) < p_start (fst f)) as L by (apply Hlt, in_map_iff; exists f; auto).
  assert (p_end (fst e) <= p_start (fst f)) as L2.
  { destruct (Z.le_gt_cases (p_end (fst e)) (p_start (fst f))) as [|G]; auto. exfalso.
    apply (Hdis f (p_start (fst f)) Hr); unfold In_period, nonempty in *; lia. }
  rewrite intersection_bounds in E by assumption. rewrite intersection_bounds in E2 by assumption.
  destruct (_ <? _) eqn:L3 in E; [|discriminate]. injection E as <-.
  destruct (_ <? _) eqn:L4 in E2; [|discriminate]. injection E2 as <-.
  unfold period_leb; cbn [p_start p_end]. unfold nonempty in *. lia.
Qed.

Lemma default_model_props : forall M (data : temporal_data M) target,
  data_well_formed data -> nonempty target ->
  (forall e, In e (default_temporal_model data target) -> nonempty (fst e)) /\
  pdisj (default_temporal_model data target) /\
  (data_ordered data -> increasing (map (fun e => p_start (fst e)) (default_temporal_model data target))) /\
  forall d m, In_period d target ->
    (in_force (default_temporal_model data target) d m <-> data_in_force data d m).
Proof.
  intros M data target Hwf Ht. destruct data as [m0|first rest|first rest]; cbn [default_temporal_model].
  - repeat split; cbn; auto.
    + intros e [<-|[]]; auto.
    + constructor; [constructor|]. intros f d [].
    + intros (p & [[= <- <-]|[]] & _); auto.
    + intros ->. exists target; split; [now left|assumption].
  - destruct Hwf as [H1 H2]. rewrite period_dict_dates by assumption.
    destruct (dates_to_periods_props _ _ H1 H2) as (P1 & P2 & _). split; [assumption|]. split; [assumption|].
    split; [intros _; now rewrite dates_to_periods_starts|].
    intros d m Hd. cbn [data_in_force]. split.
    + intros H. assert (d < DT_MAX) as L.
      { destruct H as (p & Hp & Hdp).
        assert (forall (l : list (datetime * M)) p m, In (p, m) (dates_to_periods l) ->
                  p_end p = DT_MAX \/ In (p_end p) (map fst l)) as Hend.
        { induction l as [|[k mm] l IH]; intros q mq Hq; [contradiction|]. destruct Hq as [[= <- <-]|Hq].
          - cbn. destruct l as [|[k2 m2] l]; auto. right; right; now left.
          - destruct (IH _ _ Hq); auto. right; right; assumption. }
        destruct (Hend _ _ _ Hp) as [E|E].
        - unfold In_period in Hdp; lia.
        - specialize (H2 _ E). unfold In_period in Hdp; lia. }
      split; auto. apply get_model_dates; auto. now apply find_pdisj.
    + intros [L H]. apply find_pdisj; auto. apply get_model_dates; auto.
  - destruct Hwf as [H1 H2]. pose proof (disjoint_pdisj _ _ H1) as Hp. rewrite period_dict_disjoint by assumption.
    split; [assumption|]. split; [assumption|]. split; [auto|]. intros d m _. reflexivity.
Qed.

Theorem define_time_model_proof : forall M (data : temporal_data M) target,
  data_well_formed data -> nonempty target ->
  forall d m, in_force (define_time_model_for_period data target) d m <->
              In_period d target /\ data_in_force data d m.
Proof.
  intros M data target Hwf Ht d m.
  destruct (default_model_props M data target Hwf Ht) as (P1 & P2 & _ & P4).
  rewrite define_restrict by assumption. rewrite restrict_in_force. split.
  - intros (Hd & p & Hp & _ & Hdp). split; auto. apply P4; auto. exists p; auto.
  - intros (Hd & H). split; auto. apply P4 in H as (p & Hp & Hdp); auto. exists p. repeat split; auto; try apply Hdp.
    apply intersects_iff; auto. + apply (P1 _ Hp). + exists d; auto.
Qed.

Lemma restrict_pdisj : forall M (target : period) (l : list (period * M)),
  pdisj l -> pdisj (flat_map (restrict_entry target) l).
Proof.
  intros M target l H; induction H as [|e l H IH Hdis]; cbn [flat_map]; [constructor|].
  unfold restrict_entry at 1. destruct (intersection (fst e) target) as [p|] eqn:E; cbn [app]; auto.
  constructor; auto. intros f d Hf Hd1 Hd2. cbn in Hd1.
  apply in_flat_map in Hf as (g & Hg & Hf). unfold restrict_entry in Hf.
  destruct (intersection (fst g) target) as [q|] eqn:E2; [|contradiction]. destruct Hf as [<-|[]]. cbn in Hd2.
  apply (Hdis g d Hg); [apply (intersection_Some _ _ _ E) in Hd1; tauto|apply (intersection_Some _ _ _ E2) in Hd2; tauto].
Qed.

Theorem temporal_model_create_proof : forall M (data : temporal_data M) target,
  data_well_formed data -> data_ordered data -> nonempty target ->
  exists tm, temporal_model_create data target = Ok tm /\
    forall d m, get_model tm d = Ok m <-> In_period d target /\ data_in_force data d m.
Proof.
  intros M data target Hwf Hord Ht.
  destruct (default_model_props M data target Hwf Ht) as (P1 & P2 & P3 & P4).
  exists (define_time_model_for_period data target). split.
  - unfold temporal_model_create. apply temporal_model_of_periods_iff. split; auto.
    rewrite define_restrict by assumption. apply restrict_sorted; auto.
  - intros d m. rewrite <- (define_time_model_proof M data target Hwf Ht). apply find_pdisj.
    rewrite define_restrict by assumption. now apply restrict_pdisj.
Qed.

Theorem get_model_dates_proof : forall M (first : datetime * M) rest,
  NoDup (map fst (first :: rest)) ->
  (* accepted exactly when the dates are in increasing order *)
  (is_ok (temporal_model_of_dates (first :: rest)) = true <-> increasing (map fst (first :: rest))) /\
  forall tm, temporal_model_of_dates (first :: rest) = Ok tm ->
    (forall d m, d < DT_MAX -> (get_model tm d = Ok m <-> latest_model (first :: rest) d m)) /\
    (forall d, fst first <= d < DT_MAX -> exists m, get_model tm d = Ok m) /\
    (forall d, d < fst first -> get_model tm d = Err ValueError).
Proof.
  intros M first rest Hnd.
  assert (forall (tm : list (period * M)) d, (exists m, get_model tm d = Ok m) \/ get_model tm d = Err ValueError) as Hcase.
  { intros tm d. unfold get_model. destruct (find _ _); eauto. }
  split.
  - split.
    + destruct (temporal_model_of_dates (first :: rest)) as [tm|] eqn:E; cbn; [|discriminate]. intros _.
      now apply (temporal_model_of_dates_iff _ _ tm Hnd) in E.
    + intros H. assert (temporal_model_of_dates (first :: rest) = Ok (dates_to_periods (first :: rest))) as ->; [|reflexivity].
      now apply temporal_model_of_dates_iff.
  - intros tm H. apply (temporal_model_of_dates_iff _ _ tm Hnd) in H as [-> Hinc].
    assert (forall d m, d < DT_MAX -> (get_model (dates_to_periods (first :: rest)) d = Ok m <-> latest_model (first :: rest) d m)) as HG.
    { intros d m Hd. now apply get_model_dates. }
    split; [assumption|]. split.
    + intros d Hd. destruct (Hcase (dates_to_periods (first :: rest)) d) as [|E]; auto.
      assert (forall l : list (datetime * M), increasing (map fst l) -> (exists e, In e l /\ fst e <= d) -> exists m, latest_model l d m) as HL.
      { induction l as [|[k m] l IH]; intros Hi (e & He & Hed); [contradiction|].
        cbn [map] in Hi. destruct (increasing_cons _ _ Hi) as [Hi' Hlt].
        assert (forall k' m', In (k', m') l -> k < k') as Hlt' by (intros k' m' H; apply Hlt; now apply (in_map fst) in H).
        destruct (existsb (fun e => fst e <=? d) l) eqn:Ex.
        - apply existsb_exists in Ex as (f & Hf & Hfd). destruct IH as (m' & k' & Hk & Hkd & Hmax); auto.
          { exists f; split; auto; lia. }
          exists m', k'. split; [now right|]. split; auto. intros k'' m'' [[= <- <-]|H''] L; eauto. specialize (Hlt' _ _ Hk). lia.
        - assert (forall k' m', In (k', m') l -> d < k') as Hgt.
          { intros k' m' H. destruct (Z.le_gt_cases k' d); [|lia]. enough (existsb (fun e => fst e <=? d) l = true) by congruence.
            apply existsb_exists. exists (k', m'). split; auto. cbn; lia. }
          exists m, k. destruct He as [<-|He]; [|destruct e as [k' m']; specialize (Hgt _ _ He); cbn in *; lia].
          split; [now left|]. split; auto. intros k' m' [[= <- <-]|H] L; [lia|]. specialize (Hgt _ _ H). lia. }
      destruct (HL _ Hinc) as (m & Hm). { exists first; split; [now left|lia]. }
      apply HG in Hm; [|lia]. eauto.
    + intros d Hd. destruct (Hcase (dates_to_periods (first :: rest)) d) as [(m & E)|]; auto. exfalso.
      assert (d < DT_MAX \/ DT_MAX <= d) as [L|L] by lia.
      * apply HG in E as (k & Hk & Hkd & _); auto. destruct Hk as [->|Hk]; [cbn in *; lia|].
        cbn [map] in Hinc. destruct (increasing_cons _ _ Hinc) as [_ Hlt]. apply (in_map fst) in Hk. specialize (Hlt _ Hk). cbn in *; lia.
      * unfold get_model in E. destruct (find _ _) as [e|] eqn:F; [|discriminate]. apply find_some in F as [F1 F2].
        apply contains_date_iff in F2. destruct F2 as [F2 _].
        assert (In (p_start (fst e)) (map fst (first :: rest))) as Hin.
        { rewrite <- dates_to_periods_starts. apply in_map_iff. exists e; auto. }
        destruct Hin as [Hin|Hin]; [lia|]. cbn [map] in Hinc. destruct (increasing_cons _ _ Hinc) as [_ Hlt]. specialize (Hlt _ Hin). lia.
Qed.

Theorem create_periods_boundaries_proof :
  forall (t0 : datetime) (rest : list datetime) (include_before include_after : bool),
    increasing (t0 :: rest) ->
    (include_before = true -> DT_MIN < t0) ->
    (include_after = true -> last rest t0 < DT_MAX) ->
    let dates := (if include_before then [DT_MIN] else []) ++ (t0 :: rest)
                 ++ (if include_after then [DT_MAX] else []) in
    (2 <= length dates)%nat ->
    forall t, is_boundary (create_periods (t0 :: rest) include_before include_after) t <-> In t dates.
Proof.
  intros t0 rest ib ia H Hb Ha. cbv zeta. intros Hlen t.
  rewrite create_periods_consecutive.
  pose proof (extended_increasing t0 rest ib ia H Hb Ha) as Hinc.
  unfold extended in *. destruct ((if ib then [DT_MIN] else []) ++ (t0 :: rest) ++ (if ia then [DT_MAX] else [])) as [|a [|b ts]]; cbn in Hlen; try lia.
  rewrite <- dates_of_In by now apply consecutive_contiguous. now rewrite consecutive_dates.
Qed.

(** a date-keyed model written in the wrong order: restricted to a later target period it is
    silently accepted and gives the older model *)
Lemma unsorted_dates_refuted_proof :
  exists (data : temporal_data nat) target d tm m,
    nonempty target /\ In_period d target /\
    (match data with TDDates first rest => NoDup (map fst (first :: rest)) | _ => False end) /\
    temporal_model_create data target = Ok tm /\ get_model tm d = Ok m /\
    ~ data_in_force data d m.
Proof.
  exists (TDDates (200, 1%nat) [(100, 2%nat)]), (mkPeriod 300 400), 300, [(mkPeriod 300 400, 2%nat)], 2%nat.
  split; [unfold nonempty; cbn; lia|]. split; [unfold In_period; cbn; lia|].
  split; [repeat constructor; cbn; lia|]. split; [reflexivity|]. split; [reflexivity|].
  intros (_ & k & Hk & _ & Hmax). specialize (Hmax 200 1%nat (or_introl eq_refl)).
  destruct Hk as [[= <-]|[[= <-]|[]]]. lia.
Qed.

(** two period keys that overlap: the restriction keeps the model of the last entry while the
    first containing entry is the one in force before *)
Lemma overlapping_periods_refuted_proof :
  exists (data : list (period * nat)) first rest target d m1 m2,
    data = first :: rest /\ NoDup (map fst data) /\ nonempty target /\ In_period d target /\
    get_model data d = Ok m1 /\
    (exists tm, temporal_model_create (TDPeriods first rest) target = Ok tm /\ get_model tm d = Ok m2) /\ m1 <> m2.
Proof.
  exists [(mkPeriod 0 100, 1%nat); (mkPeriod 0 200, 2%nat)], (mkPeriod 0 100, 1%nat), [(mkPeriod 0 200, 2%nat)],
         (mkPeriod 0 50), 10, 1%nat, 2%nat.
  split; [reflexivity|]. split; [repeat constructor; cbn; intuition congruence|].
  split; [unfold nonempty; cbn; lia|]. split; [unfold In_period; cbn; lia|]. split; [reflexivity|].
  split; [exists [(mkPeriod 0 50, 2%nat)]; split; reflexivity|lia].
Qed.

Lemma pdisj_disjoint : forall M (l : list (period * M)), pdisj l -> disjoint_entries l.
Proof.
  intros M l H; induction H as [|e l H IH Hdis]; intros i j a b d Hi Hj Ha Hb.
  - destruct i; discriminate.
  - destruct i as [|i], j as [|j]; cbn in Hi, Hj; auto.
    + injection Hi as <-. exfalso. apply (Hdis b d); auto. now apply nth_error_In in Hj.
    + injection Hj as <-. exfalso. apply (Hdis a d); auto. now apply nth_error_In in Hi.
    + f_equal. eapply IH; eauto.
Qed.

Lemma last_In' : forall A (l : list A) d, In (last l d) (d :: l).
Proof.
  induction l as [|a l IH]; intros d; [now left|]. rewrite last_shift. specialize (IH a). right; auto.
Qed.

From Coq Require Import PeanoNat.
From Verif Require Import QcTac Base BaseLemmas Num Time_Model Time_Spec Time_Proofs Time_Proofs2 Time_Proofs3 Units_Model Units_Proofs Rates_Model Rates_Spec Rates_Proofs Rates_Proofs2 Rates_Proofs3.
Local Open Scope Z_scope.

Lemma unit_eqb_refl : forall u, unit_eqb u u = true.
Proof. now destruct u. Qed.
Lemma unit_eqb_eq : forall u v, unit_eqb u v = true <-> u = v.
Proof. intros u v. unfold unit_eqb. destruct (unit_eq_dec u v); split; intros; easy. Qed.

(** ** indices of a query on the grid *)
Lemma dates_length : forall ps, ps <> [] -> length (dates_of ps) = S (length ps).
Proof.
  intros [|p ps] H; [congruence|]. rewrite dates_of_eq, app_length. unfold start_dates. rewrite map_length. cbn. lia.
Qed.

Lemma dates_bounds : forall p ps t, contiguous (p :: ps) -> In t (dates_of (p :: ps)) ->
  p_start p <= t <= p_end (last ps p).
Proof.
  intros p ps t Hc Ht. apply (dates_of_In _ _ Hc) in Ht as (q & Hq & Et).
  assert (spans (p :: ps) (p_start p) (p_end (last ps p))) as Hs.
  { exists p, (last ps p), ps. rewrite last_shift. auto. }
  destruct (contiguous_within _ _ _ Hc Hs q Hq) as (Hn & H1 & H2). unfold nonempty in Hn. lia.
Qed.

Lemma index_of_app_l : forall A (eqb : A -> A -> bool) x l m i, index_of eqb x l = Some i -> index_of eqb x (l ++ m) = Some i.
Proof.
  intros A eqb x l m; induction l as [|y l IH]; intros i H; cbn in *; [discriminate|].
  destruct (eqb x y); auto. destruct (index_of eqb x l) as [j|]; cbn in *; [|discriminate]. now rewrite (IH j).
Qed.

Lemma period_indices_eq : forall p ps q i j, contiguous (p :: ps) ->
  nth_error (dates_of (p :: ps)) i = Some (p_start q) -> nth_error (dates_of (p :: ps)) j = Some (p_end q) -> (i < j)%nat ->
  get_period_indices q (p :: ps) = Ok (i, j).
Proof.
  intros p ps q i j Hc Hi Hj L.
  pose proof (dates_bounds _ _ _ Hc (nth_error_In _ _ Hi)) as Bi.
  pose proof (dates_bounds _ _ _ Hc (nth_error_In _ _ Hj)) as Bj.
  pose proof (increasing_NoDup _ (dates_of_increasing _ Hc)) as Hnd.
  assert (j < length (dates_of (p :: ps)))%nat as Lj by (apply nth_error_Some; congruence).
  rewrite dates_length in Lj by discriminate.
  unfold get_period_indices.
  change (last_opt (p :: ps)) with (Some (last ps p)).
  assert (start_dates (p :: ps) ++ [p_end (last ps p)] = dates_of (p :: ps)) as Ed
    by (rewrite dates_of_eq, last_shift; reflexivity).
  rewrite Z.max_l, Z.min_l by lia. rewrite Ed.
  rewrite (index_of_nth _ _ _ _ _ Zeqb_spec Hnd Hj).
  rewrite <- Ed in Hi, Hnd. rewrite nth_error_app1 in Hi by (unfold start_dates; rewrite map_length; lia).
  assert (NoDup (start_dates (p :: ps))) as Hnd'.
  { clear -Hnd. revert Hnd. generalize (start_dates (p :: ps)) as l. induction l as [|x l IH]; intros H; [constructor|].
    inversion H as [|? ? N H']; subst. constructor; auto. intros Hx. apply N. apply in_or_app. now left. }
  rewrite (index_of_nth _ _ _ _ _ Zeqb_spec Hnd' Hi). reflexivity.
Qed.

Lemma slice_0 : forall A (l : list A) k, slice 0 k l = firstn k l.
Proof. intros. unfold slice. now rewrite Nat.sub_0_r. Qed.
Lemma slice_to_end : forall A (l : list A) k, slice k (length l) l = skipn k l.
Proof. intros. unfold slice. apply firstn_all2. rewrite skipn_length. lia. Qed.

Lemma contiguous_app_inv : forall a b, contiguous (a ++ b) -> contiguous a /\ contiguous b.
Proof.
  induction a as [|p a IH]; intros b H; [split; [exact I|exact H]|].
  cbn [app] in H. destruct H as (H1 & H2 & H3). apply IH in H3 as [H3 H4]. split; auto.
  split; auto. split; auto. destruct a; auto.
Qed.

Lemma split_spans : forall ps a b k t, contiguous ps -> spans ps a b -> nth_error (dates_of ps) k = Some t ->
  (0 < k < length ps)%nat -> spans (firstn k ps) a t /\ spans (skipn k ps) t b.
Proof.
  intros ps a b k t Hc (p & q & rest & -> & El & <- & <-) Hk L. split.
  - destruct k as [|k]; [lia|]. cbn [firstn].
    exists p, (last (p :: firstn k rest) p), (firstn k rest). repeat split.
    assert (nth_error (p :: rest) k = Some (last (p :: firstn k rest) p)) as Hn.
    { pose proof (nth_error_last _ (firstn k rest) p) as Hl.
      rewrite firstn_length, Nat.min_l in Hl by (cbn in L; lia).
      rewrite <- Hl. destruct k; [reflexivity|]. cbn [nth_error]. rewrite nth_error_firstn.
      replace (k <? S k)%nat with true by (symmetry; apply Nat.ltb_lt; lia). reflexivity. }
    destruct (dates_of_nth _ _ _ Hc Hn) as [_ E]. rewrite Hk in E. now injection E.
  - destruct (skipn k (p :: rest)) as [|r rs] eqn:Es.
    { apply (f_equal (@length _)) in Es. rewrite skipn_length in Es. cbn [length] in *. lia. }
    exists r, q, rs. repeat split; auto.
    + rewrite <- El. pose proof (firstn_skipn k (p :: rest)) as Ef. rewrite Es in Ef.
      rewrite (last_default _ rs r r p). rewrite <- Ef. clear. generalize (firstn k (p :: rest)) as l.
      induction l as [|x l IH]; [reflexivity|]. cbn [app]. destruct (l ++ r :: rs) eqn:E; [destruct l; discriminate|].
      rewrite last_cons_cons. exact IH.
    + assert (nth_error (p :: rest) k = Some r) as Hr.
      { rewrite <- (Nat.add_0_r k), <- nth_error_skipn, Es. reflexivity. }
      destruct (dates_of_nth _ _ _ Hc Hr) as [E _]. rewrite Hk in E. now injection E.
Qed.

Lemma spans_period : forall ps a b, spans ps a b -> periods_period ps = Ok (mkPeriod a b).
Proof. intros ps a b (p & q & rest & -> & El & <- & <-). rewrite periods_period_eq, <- El, last_shift. reflexivity. Qed.

Lemma spans_lt : forall ps a b, contiguous ps -> spans ps a b -> a < b.
Proof.
  intros ps a b Hc Hs. pose proof Hs as (p & q & rest & E & _).
  destruct (contiguous_within _ _ _ Hc Hs p ltac:(rewrite E; now left)) as (Hn & H1 & H2). unfold nonempty in Hn. lia.
Qed.
Lemma spans_exists : forall ps, ps <> [] -> exists a b, spans ps a b.
Proof. intros [|p ps] H; [congruence|]. do 2 eexists. exists p, (last (p :: ps) p), ps. auto. Qed.

(** ** merge and extend *)
Definition adjacent_case {A} (a0 a1 b0 b1 : Z) (ab ba no : A) : A :=
  if a1 =? b0 then ab else if b1 =? a0 then ba else no.

Lemma intersects_disjoint : forall a0 a1 b0 b1, a0 < a1 -> b0 < b1 ->
  intersects (mkPeriod a0 a1) (mkPeriod b0 b1) = true \/ a1 <= b0 \/ b1 <= a0.
Proof. intros. unfold intersects, contains_date. cbn. lia. Qed.

Theorem series_merge_proof : forall V (a b : series V) a0 a1 b0 b1,
  well_formed a -> well_formed b -> s_unit a = s_unit b ->
  spans (s_periods a) a0 a1 -> spans (s_periods b) b0 b1 ->
  (a1 = b0 -> series_merge a b = Ok (mkSeries (s_periods a ++ s_periods b) (s_values a ++ s_values b) (s_unit a))) /\
  (b1 = a0 -> series_merge a b = Ok (mkSeries (s_periods b ++ s_periods a) (s_values b ++ s_values a) (s_unit a))) /\
  (a1 <> b0 -> b1 <> a0 -> series_merge a b = Err ValueError).
Proof.
  intros V a b a0 a1 b0 b1 (Ha & _ & La) (Hb & _ & Lb) Hu Sa Sb.
  pose proof (spans_lt _ _ _ Ha Sa). pose proof (spans_lt _ _ _ Hb Sb).
  unfold series_merge, s_period. rewrite Hu, unit_eqb_refl. cbn [negb].
  rewrite (spans_period _ _ _ Sa), (spans_period _ _ _ Sb). cbn [bind p_start p_end].
  split; [|split]; intros.
  - subst b0. replace (intersects _ _) with false by (unfold intersects, contains_date; cbn; lia).
    replace (_ && _) with false by lia. replace (a0 <? b1) with true by lia.
    unfold make_series. now rewrite !app_length, La, Lb, Nat.eqb_refl.
  - subst a0. replace (intersects _ _) with false by (unfold intersects, contains_date; cbn; lia).
    replace (_ && _) with false by lia. replace (b1 <? b1) with false by lia.
    unfold make_series. now rewrite !app_length, La, Lb, Nat.eqb_refl.
  - destruct (intersects _ _); [reflexivity|]. now replace (_ && _) with true by lia.
Qed.

Theorem series_extend_proof : forall V (a b : series V) a0 a1 b0 b1,
  well_formed a -> well_formed b -> s_unit a = s_unit b ->
  spans (s_periods a) a0 a1 -> spans (s_periods b) b0 b1 ->
  (a1 = b0 -> series_extend a b = Ok (mkSeries (s_periods a ++ s_periods b) (s_values a ++ s_values b) (s_unit a))) /\
  (b1 = a0 -> series_extend a b = Ok (mkSeries (s_periods b ++ s_periods a) (s_values b ++ s_values a) (s_unit a))) /\
  (a1 <> b0 -> b1 <> a0 -> series_extend a b = Err ValueError).
Proof.
  intros V a b a0 a1 b0 b1 (Ha & Na & La) (Hb & Nb & Lb) Hu Sa Sb.
  pose proof (spans_lt _ _ _ Ha Sa). pose proof (spans_lt _ _ _ Hb Sb).
  unfold series_extend, s_period. rewrite Hu, unit_eqb_refl. cbn [negb].
  rewrite (spans_period _ _ _ Sa), (spans_period _ _ _ Sb). cbn [bind p_start p_end].
  destruct (s_values a) as [|va vas] eqn:Ea; [destruct (s_periods a); [congruence|discriminate]|].
  destruct (s_values b) as [|vb vbs] eqn:Eb; [destruct (s_periods b); [congruence|discriminate]|].
  split; [|split]; intros.
  - subst b0. rewrite Z.eqb_refl. cbn [negb andb].
    unfold make_series. now rewrite !app_length, La, Lb, Nat.eqb_refl.
  - subst a0. rewrite Z.eqb_refl. cbn [negb]. rewrite andb_false_r. replace (a1 =? b0) with false by lia.
    unfold make_series. now rewrite !app_length, La, Lb, Nat.eqb_refl.
  - now replace (_ && _) with true by lia.
Qed.

Theorem rate_merge_proof : forall a b a0 a1 b0 b1,
  rate_well_formed a -> rate_well_formed b -> r_unit a = r_unit b -> r_type a = r_type b ->
  spans (r_periods a) a0 a1 -> spans (r_periods b) b0 b1 ->
  (a1 = b0 -> rate_merge a b = Ok (mkRate (r_periods a ++ r_periods b) (r_values a ++ r_values b) (r_unit a) (r_type a)
                                     (r_regularity a ++ r_regularity b))) /\
  (b1 = a0 -> rate_merge a b = Ok (mkRate (r_periods b ++ r_periods a) (r_values b ++ r_values a) (r_unit a) (r_type a)
                                     (r_regularity b ++ r_regularity a))) /\
  (a1 <> b0 -> b1 <> a0 -> rate_merge a b = Err ValueError).
Proof.
  intros a b a0 a1 b0 b1 (Ha & _ & La & Ra) (Hb & _ & Lb & Rb) Hu Ht Sa Sb.
  pose proof (spans_lt _ _ _ Ha Sa). pose proof (spans_lt _ _ _ Hb Sb).
  unfold rate_merge. rewrite Hu, Ht, unit_eqb_refl. cbn [negb].
  replace (rate_type_eqb (r_type b) (r_type b)) with true by now destruct (r_type b). cbn [negb].
  rewrite (spans_period _ _ _ Sa), (spans_period _ _ _ Sb). cbn [bind p_start p_end].
  split; [|split]; intros.
  - subst b0. replace (intersects _ _) with false by (unfold intersects, contains_date; cbn; lia).
    replace (_ && _) with false by lia. replace (a0 <? b1) with true by lia.
    unfold make_rate. now rewrite !app_length, La, Lb, Ra, Rb, Nat.eqb_refl.
  - subst a0. replace (intersects _ _) with false by (unfold intersects, contains_date; cbn; lia).
    replace (_ && _) with false by lia. replace (b1 <? b1) with false by lia.
    unfold make_rate. now rewrite !app_length, La, Lb, Ra, Rb, Nat.eqb_refl.
  - destruct (intersects _ _); [reflexivity|]. now replace (_ && _) with true by lia.
Qed.

Lemma rate_extend_eq : forall a b, rate_well_formed a -> rate_well_formed b -> r_unit a = r_unit b -> r_type a = r_type b ->
  rate_extend a b = Ok (mkRate (r_periods a ++ r_periods b) (r_values a ++ r_values b) (r_unit a) (r_type a)
                          (r_regularity a ++ r_regularity b)).
Proof.
  intros a b (Ha & _ & La & Ra) (Hb & _ & Lb & Rb) Hu Ht. unfold rate_extend. rewrite Hu, Ht, unit_eqb_refl. cbn [negb].
  replace (rate_type_eqb (r_type b) (r_type b)) with true by now destruct (r_type b). cbn [negb].
  unfold make_rate. now rewrite !app_length, La, Lb, Ra, Rb, Nat.eqb_refl.
Qed.

(** ** splitting *)
Lemma split_index : forall ps a b t, contiguous ps -> spans ps a b -> is_boundary ps t -> a < t < b ->
  exists k, nth_error (dates_of ps) k = Some t /\ (0 < k < length ps)%nat /\
    nth_error (dates_of ps) 0 = Some a /\ nth_error (dates_of ps) (length ps) = Some b.
Proof.
  intros ps a b t Hc Hs Hb L. pose proof Hs as (p & q & rest & -> & El & Ea & Eb).
  apply (dates_of_In _ _ Hc) in Hb. apply In_nth_error in Hb as [k Hk]. exists k.
  assert (nth_error (dates_of (p :: rest)) 0 = Some a) as H0 by (subst a; now destruct rest).
  assert (nth_error (dates_of (p :: rest)) (length (p :: rest)) = Some b) as Hn.
  { pose proof (nth_error_last _ rest p) as Hl. rewrite El in Hl.
    destruct (dates_of_nth _ _ _ Hc Hl) as [_ E]. rewrite Eb in E. exact E. }
  split; [exact Hk|]. split; [|split; assumption].
  pose proof (dates_of_increasing _ Hc) as Hi.
  split.
  - destruct k; [rewrite H0 in Hk; injection Hk; lia|lia].
  - destruct (Nat.lt_ge_cases k (length (p :: rest))) as [|Lk]; auto.
    pose proof (proj1 (increasing_nth_le _ _ _ _ _ Hi Hn Hk) Lk). lia.
Qed.

Lemma existsb_dates : forall ps t k, nth_error (dates_of ps) k = Some t -> existsb (Z.eqb t) (dates_of ps) = true.
Proof. intros ps t k H. apply existsb_exists. exists t. split; [eapply nth_error_In; eauto|apply Z.eqb_refl]. Qed.

Theorem series_split_proof : forall V (s : series V) a b t,
  well_formed s -> spans (s_periods s) a b -> is_boundary (s_periods s) t -> a < t < b ->
  exists x y, series_for_period s (mkPeriod a t) = Ok x /\ series_for_period s (mkPeriod t b) = Ok y /\
    spans (s_periods x) a t /\ spans (s_periods y) t b /\ well_formed x /\ well_formed y /\
    series_merge x y = Ok s /\ series_merge y x = Ok s /\ series_extend x y = Ok s /\ series_extend y x = Ok s.
Proof.
  intros V s a b t Hw Hs Hb L. pose proof Hw as (Hc & Hne & Lv).
  destruct (split_index _ _ _ _ Hc Hs Hb L) as (k & Hk & Lk & H0 & Hn).
  destruct (split_spans _ _ _ _ _ Hc Hs Hk Lk) as [S1 S2].
  set (x := mkSeries (firstn k (s_periods s)) (firstn k (s_values s)) (s_unit s)).
  set (y := mkSeries (skipn k (s_periods s)) (skipn k (s_values s)) (s_unit s)).
  assert (forall p i j, nth_error (dates_of (s_periods s)) i = Some (p_start p) ->
            nth_error (dates_of (s_periods s)) j = Some (p_end p) -> (i < j <= length (s_periods s))%nat ->
            series_for_period s p = Ok (mkSeries (slice i j (s_periods s)) (slice i j (s_values s)) (s_unit s))) as F.
  { intros p i j Hi Hj Lij. unfold series_for_period. destruct (s_periods s) as [|p0 ps] eqn:Eps; [congruence|].
    rewrite all_dates_of. cbn [bind]. rewrite (existsb_dates _ _ _ Hi), (existsb_dates _ _ _ Hj). cbn [negb orb].
    rewrite (period_indices_eq _ _ _ i j) by (auto; lia). cbn [bind fst snd]. unfold make_series.
    rewrite !slice_length by lia. now rewrite Nat.eqb_refl. }
  exists x, y.
  assert (contiguous (firstn k (s_periods s)) /\ contiguous (skipn k (s_periods s))) as [C1 C2]
    by (apply contiguous_app_inv; now rewrite firstn_skipn).
  assert (well_formed x) as Wx.
  { repeat split; auto; cbn [s_periods s_values x]; [|rewrite !firstn_length; lia].
    destruct S1 as (? & ? & ? & E & _). rewrite E. discriminate. }
  assert (well_formed y) as Wy.
  { repeat split; auto; cbn [s_periods s_values y]; [|rewrite !skipn_length; lia].
    destruct S2 as (? & ? & ? & E & _). rewrite E. discriminate. }
  destruct (series_merge_proof _ x y _ _ _ _ Wx Wy eq_refl S1 S2) as (M1 & _).
  destruct (series_merge_proof _ y x _ _ _ _ Wy Wx eq_refl S2 S1) as (_ & M2 & _).
  destruct (series_extend_proof _ x y _ _ _ _ Wx Wy eq_refl S1 S2) as (E1 & _).
  destruct (series_extend_proof _ y x _ _ _ _ Wy Wx eq_refl S2 S1) as (_ & E2 & _).
  rewrite M1, M2, E1, E2 by reflexivity. cbn [x y s_periods s_values s_unit]. rewrite !firstn_skipn.
  rewrite (F (mkPeriod a t) 0%nat k) by (auto; lia). rewrite (F (mkPeriod t b) k (length (s_periods s))) by (auto; lia).
  rewrite !slice_0, slice_to_end. rewrite <- Lv, slice_to_end.
  destruct s as [sp sv su]; cbn [s_periods s_values s_unit] in *. do 9 (split; [first [reflexivity|assumption]|]). reflexivity.
Qed.

Theorem rate_split_proof : forall s a b t,
  rate_well_formed s -> spans (r_periods s) a b -> is_boundary (r_periods s) t -> a < t < b ->
  exists x y, rate_for_period s (mkPeriod a t) = Ok x /\ rate_for_period s (mkPeriod t b) = Ok y /\
    spans (r_periods x) a t /\ spans (r_periods y) t b /\ rate_well_formed x /\ rate_well_formed y /\
    rate_merge x y = Ok s /\ rate_merge y x = Ok s /\ rate_extend x y = Ok s.
Proof.
  intros s a b t Hw Hs Hb L. pose proof Hw as (Hc & Hne & Lv & Lr).
  destruct (split_index _ _ _ _ Hc Hs Hb L) as (k & Hk & Lk & H0 & Hn).
  destruct (split_spans _ _ _ _ _ Hc Hs Hk Lk) as [S1 S2].
  set (x := mkRate (firstn k (r_periods s)) (firstn k (r_values s)) (r_unit s) (r_type s) (firstn k (r_regularity s))).
  set (y := mkRate (skipn k (r_periods s)) (skipn k (r_values s)) (r_unit s) (r_type s) (skipn k (r_regularity s))).
  assert (forall p i j, nth_error (dates_of (r_periods s)) i = Some (p_start p) ->
            nth_error (dates_of (r_periods s)) j = Some (p_end p) -> (i < j <= length (r_periods s))%nat ->
            a <= p_start p < b -> p_start p < p_end p ->
            rate_for_period s p = Ok (mkRate (slice i j (r_periods s)) (slice i j (r_values s)) (r_unit s) (r_type s)
                                         (slice i j (r_regularity s)))) as F.
  { intros p i j Hi Hj Lij Hp1 Hp2. unfold rate_for_period. rewrite (spans_period _ _ _ Hs). cbn [bind].
    replace (intersects (mkPeriod a b) p) with true by (unfold intersects, contains_date; cbn; lia). cbn [negb].
    destruct (r_periods s) as [|p0 ps] eqn:Eps; [congruence|].
    rewrite (period_indices_eq _ _ _ i j) by (auto; lia). cbn [bind fst snd]. unfold make_rate.
    rewrite !slice_length by lia. now rewrite Nat.eqb_refl. }
  exists x, y.
  assert (contiguous (firstn k (r_periods s)) /\ contiguous (skipn k (r_periods s))) as [C1 C2]
    by (apply contiguous_app_inv; now rewrite firstn_skipn).
  assert (rate_well_formed x) as Wx.
  { repeat split; auto; cbn [r_periods r_values r_regularity x]; try (rewrite !firstn_length; lia).
    destruct S1 as (? & ? & ? & E & _). rewrite E. discriminate. }
  assert (rate_well_formed y) as Wy.
  { repeat split; auto; cbn [r_periods r_values r_regularity y]; try (rewrite !skipn_length; lia).
    destruct S2 as (? & ? & ? & E & _). rewrite E. discriminate. }
  destruct (rate_merge_proof x y _ _ _ _ Wx Wy eq_refl eq_refl S1 S2) as (M1 & _).
  destruct (rate_merge_proof y x _ _ _ _ Wy Wx eq_refl eq_refl S2 S1) as (_ & M2 & _).
  rewrite M1, M2, rate_extend_eq by (auto; reflexivity). cbn [x y r_periods r_values r_unit r_type r_regularity]. rewrite !firstn_skipn.
  rewrite (F (mkPeriod a t) 0%nat k) by (auto; cbn; lia). rewrite (F (mkPeriod t b) k (length (r_periods s))) by (auto; cbn; lia).
  rewrite !slice_0, slice_to_end. replace (slice k (length (r_periods s)) (r_values s)) with (skipn k (r_values s)) by (rewrite <- Lv; symmetry; apply slice_to_end). replace (slice k (length (r_periods s)) (r_regularity s)) with (skipn k (r_regularity s)) by (rewrite <- Lr; symmetry; apply slice_to_end).
  destruct s as [sp sv su sy sr]; cbn [r_periods r_values r_unit r_type r_regularity] in *. do 8 (split; [first [reflexivity|assumption]|]). reflexivity.
Qed.

(** TimeSeriesRate.extend checks neither order nor gaps *)
Theorem rate_extend_refuted_proof : exists a b s,
  rate_well_formed a /\ rate_well_formed b /\
  p_end (last (r_periods a) (mkPeriod 0 0)) <> p_start (hd (mkPeriod 0 0) (r_periods b)) /\
  p_end (last (r_periods b) (mkPeriod 0 0)) <> p_start (hd (mkPeriod 0 0) (r_periods a)) /\
  rate_extend a b = Ok s /\ ~ contiguous (r_periods s).
Proof.
  exists (mkRate [mkPeriod 0 10] [Some 1%Qc] KILO_PER_DAY STREAM_DAY [Some 1%Qc]),
         (mkRate [mkPeriod 20 30] [Some 1%Qc] KILO_PER_DAY STREAM_DAY [Some 1%Qc]).
  eexists. repeat split; try discriminate; unfold nonempty; cbn; try lia. 
Qed.
Theorem rate_extend_order_refuted_proof : exists s a b t x y z,
  rate_well_formed s /\ spans (r_periods s) a b /\ is_boundary (r_periods s) t /\ a < t < b /\
  rate_for_period s (mkPeriod a t) = Ok x /\ rate_for_period s (mkPeriod t b) = Ok y /\
  rate_extend y x = Ok z /\ ~ contiguous (r_periods z).
Proof.
  exists (mkRate [mkPeriod 0 10; mkPeriod 10 20] [Some 1%Qc; Some 0%Qc] KILO_PER_DAY STREAM_DAY [Some 1%Qc; Some 1%Qc]), 0, 20, 10.
  do 3 eexists. split; [repeat split; try discriminate; unfold nonempty; cbn; lia|].
  split; [do 3 eexists; repeat split; reflexivity|].
  split; [exists (mkPeriod 0 10); split; [now left|now right]|]. split; [lia|].
  split; [reflexivity|]. split; [reflexivity|]. split; [reflexivity|]. cbn. unfold nonempty; cbn. lia.
Qed.

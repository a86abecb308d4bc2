(** Proofs about exports: modifiers, reports and tables. *)
From Coq Require Import String PeanoNat Sorted.
From Verif Require Import QcTac Num Time_Model Time_Spec Time_Proofs Time_Proofs2 Time_Proofs3 Units_Model Rates_Model Rates_Spec Rates_Proofs Rates_Proofs2 Rates_Proofs4 Rates_Proofs6 Numbers_Model Numbers_Spec Numbers_Proofs Numbers_Proofs2 Base BaseLemmas Input_Proofs Export_Model Export_Spec Export_Proofs Export_Proofs2 Export_Proofs3.
Local Open Scope list_scope.

(** ** The share of a period in itself *)
Lemma overlap_self : forall p, nonempty p -> overlap p p = seconds p.
Proof. intros p H. unfold overlap, seconds, nonempty in *. lia. Qed.
Lemma prorated_none : forall ps xs q, (forall p, In p ps -> overlap p q = 0) -> prorated ps (map Some xs) q = 0%Qc.
Proof.
  unfold prorated, qsum. induction ps as [|p ps IH]; intros [|x xs] q H; cbn [map map2 fold_right]; auto. rewrite IH by (intros; apply H; now right). rewrite (H p) by now left.
  replace (qz 0 / qz (seconds p))%Qc with 0%Qc; [cbn [nan_zero]; ring|]. unfold Qcdiv. change (qz 0) with 0%Qc. ring.
Qed.
Lemma prorated_own : forall ps xs k p x, contiguous ps -> nth_error ps k = Some p -> nth_error xs k = Some x -> prorated ps (map Some xs) p = x.
Proof.
  induction ps as [|p0 ps IH]; intros xs k p x C P X; [destruct k; discriminate|]. destruct xs as [|x0 xs]; [destruct k; discriminate|].
  assert (contiguous ps) as C' by (destruct C as (_ & _ & C); exact C).
  assert (forall r, In r (p0 :: ps) -> nonempty r) as NE by (intros r; now apply contiguous_nonempty).
  unfold prorated. cbn [map map2]. unfold qsum. cbn [fold_right]. fold (qsum (map2 (fun p' v => nan_zero v * (qz (overlap p' p) / qz (seconds p')))%Qc ps (map Some xs))). fold (prorated ps (map Some xs) p).
  destruct k as [|k].
  - cbn in P, X. assert (p0 = p) as -> by congruence. assert (x0 = x) as -> by congruence. rewrite prorated_none.
    + rewrite overlap_self by (apply NE; now left). cbn [nan_zero]. assert (qz (seconds p) <> 0%Qc) by (apply qz_nonzero; specialize (NE p (or_introl eq_refl)); unfold nonempty, seconds in *; lia). field. assumption.
    + intros r R. apply In_nth_error in R as (j & R). assert (p_end p <= p_start r) by (apply (contiguous_order (p :: ps) 0 (S j)); auto; lia). unfold overlap. specialize (NE r (or_intror (nth_error_In _ _ R))). pose proof (contiguous_nonempty _ _ C (or_introl eq_refl)). unfold nonempty in *. lia.
  - cbn in P, X. rewrite (IH xs k p x C' P X). assert (p_end p0 <= p_start p) by (apply (contiguous_order (p0 :: ps) 0 (S k)); auto; lia).
    replace (overlap p0 p) with 0; [unfold Qcdiv; change (qz 0) with 0%Qc; cbn [nan_zero]; ring|]. unfold overlap. specialize (NE p (or_intror (nth_error_In _ _ P))). pose proof (contiguous_nonempty _ _ C (or_introl eq_refl)). unfold nonempty in *. lia.
Qed.
Lemma combine_own : forall all alls ps xs, contiguous all -> (forall k p x, nth_error ps k = Some p -> nth_error xs k = Some x -> exists j, nth_error all j = Some p /\ nth_error alls j = Some x) -> List.length ps = List.length xs ->
  combine ps (map Some xs) = map (fun p => (p, Some (prorated all (map Some alls) p))) ps.
Proof.
  intros all alls. induction ps as [|p ps IH]; intros [|x xs] C H L; try discriminate; auto. cbn [map combine].
  destruct (H 0%nat p x eq_refl eq_refl) as (j & J1 & J2). rewrite (prorated_own _ _ _ _ _ C J1 J2), (IH xs); auto. intros k p' x' E1 E2. now apply (H (S k)).
Qed.

(** C46: the rows of any query of volumes *)
Theorem query_rows_proof : forall q e u l f, q_kind q <> MaxUsageFromShore -> unit_ok q u -> contiguous (e_periods e) -> right_installation q e -> frequency_ok f (e_periods e) ->
  attributes_of e (q_kind q) u = Ok l -> (forall a, In a l -> matches q a -> finite_on (e_periods e) a) ->
  exists sums new, Forall2 (fun p x => total_in (matches q) p l x) (e_periods e) sums /\ resample_periods (e_periods e) f true true = Ok new /\ contiguous new /\
    run_query q e u f = Ok (Some (map (fun p => (p, Some (prorated (e_periods e) (map Some sums) p))) new)).
Proof.
  intros q e u l f K U C R FO A F. assert (f = FreqNone \/ (f <> FreqNone /\ exists A B, (A < B)%Z /\ spans (e_periods e) (86400 * A) (86400 * B))) as [->|(NF & A0 & B0 & L & S)].
  { destruct FO as [->|H]; [now left|]. destruct f; [now left|right|right|right]; split; auto; discriminate. }
  - destruct (query_sum_proof q e u l K U C R A F) as (sums & T & Q). exists sums, (e_periods e). split; [exact T|]. split; [reflexivity|]. split; [exact C|]. rewrite Q. do 2 f_equal.
    apply combine_own; auto; [eauto|exact (F2_length _ _ _ _ _ T)].
  - destruct (query_resampled_proof q e u l f A0 B0 K U C R A F NF L S) as (sums & new & T & E & Cn & _ & Q & _). exists sums, new. auto.
Qed.

(** ** Modifiers *)
Lemma all_total : forall (A B : Type) (g : A -> result B) l, (forall x, In x l -> exists y, g x = Ok y) -> exists ys, mapM g l = Ok ys.
Proof.
  induction l as [|x l IH]; intros H; [exists []; reflexivity|]. destruct (H x (or_introl eq_refl)) as (y & E). destruct IH as (ys & M); [intros; apply H; now right|].
  exists (y :: ys). cbn [mapM]. rewrite E. cbn [Base.bind]. now rewrite M.
Qed.
Lemma modify_fold : forall ms (rows : list (period * cell)) r, fold_left (fun r m => do l <- r; mapM (fun pc => do c <- modify_cell m (snd pc); Ok (fst pc, c)) l) ms (Ok rows) = Ok r ->
  Forall2 (fun a b : period * cell => fst a = fst b /\ fold_left (fun r m => do c <- r; modify_cell m c) ms (Ok (snd a)) = Ok (snd b)) rows r.
Proof.
  induction ms as [|m ms IH]; intros rows r H; cbn [fold_left] in *.
  - injection H as <-. induction rows; constructor; auto.
  - cbn [Base.bind] in H. destruct (mapM _ rows) as [rows'|er] eqn:E; cbn [fold_left Base.bind] in H.
    + apply IH in H. apply mapM_Ok in E. clear IH. revert r H. induction E as [|x y l l' E0 E IH]; intros r H; inversion H as [|? z ? r' [H1 H2] H3]; subst; constructor; auto.
      cbn [Base.bind]. destruct (modify_cell m (snd x)) as [c|] eqn:M; cbn [Base.bind] in E0; [|discriminate]. assert (y = (fst x, c)) as -> by congruence. cbn [fst snd] in *. auto.
    + exfalso. clear - H. induction ms as [|m' ms IH]; cbn in H; [discriminate|auto].
Qed.
Lemma modify_fold_total : forall ms (rows : list (period * cell)), (forall pc, In pc rows -> exists c, fold_left (fun r m => do c <- r; modify_cell m c) ms (Ok (snd pc)) = Ok c) ->
  exists r, fold_left (fun r m => do l <- r; mapM (fun pc => do c <- modify_cell m (snd pc); Ok (fst pc, c)) l) ms (Ok rows) = Ok r.
Proof.
  induction ms as [|m ms IH]; intros rows H; cbn [fold_left]; [eauto|]. cbn [Base.bind].
  assert (forall pc, In pc rows -> exists c, modify_cell m (snd pc) = Ok c /\ exists c', fold_left (fun r m => do c <- r; modify_cell m c) ms (Ok c) = Ok c') as H'.
  { intros pc I. destruct (H pc I) as (c & E). cbn [fold_left Base.bind] in E. destruct (modify_cell m (snd pc)) as [c'|er] eqn:M; [eauto|]. exfalso. clear - E. revert E. induction ms as [|m' ms IH]; cbn; [discriminate|auto]. }
  clear H. assert (exists rows', mapM (fun pc : period * cell => do c <- modify_cell m (snd pc); Ok (fst pc, c)) rows = Ok rows') as (rows' & E).
  { apply all_total. intros pc I. destruct (H' pc I) as (c & -> & _). cbn. eauto. }
  rewrite E. apply IH. intros pc' I'. apply mapM_Ok in E. clear IH. revert H'. induction E as [|x y l l' E0 E IHE]; intros H'; [destruct I'|]. destruct I' as [<-|I'].
  - destruct (H' x) as (c & M & c' & F); [now left|]. rewrite M in E0. cbn in E0. assert (y = (fst x, c)) as -> by congruence. cbn [snd]. eauto.
  - apply IHE; auto. intros; apply H'; now right.
Qed.
Lemma signs_fold : forall ms x, ~ In Format ms -> exists y, signs ms x y /\ fold_left (fun r m => do c <- r; modify_cell m c) ms (Ok (Number (Some x))) = Ok (Number (Some y)).
Proof.
  induction ms as [|[| |] ms IH]; intros x H; cbn [fold_left Base.bind modify_cell].
  - exists x. split; [constructor|reflexivity].
  - destruct (IH x) as (y & G & E); [intros I; apply H; now right|]. exists y. split; [now constructor|exact E].
  - destruct (IH (- x)%Qc) as (y & G & E); [intros I; apply H; now right|]. exists y. split; [now constructor|].
    replace (if Qceqb x 0 then 0 else - (1) * x)%Qc with (- x)%Qc; [exact E|]. destruct (Qceqb x 0) eqn:Z; [apply Qceqb_eq in Z; subst; ring|ring].
  - exfalso. apply H. now left.
Qed.
Lemma signs_is : forall ms x y, signs ms x y -> y = x \/ y = (- x)%Qc.
Proof. intros ms x y H. induction H; auto. destruct IHsigns as [-> | ->]; [now right|left; ring]. Qed.

(** C46: the chain of modifiers that ends with formatting *)
Theorem formatted_proof : forall ms rows, ~ In Format ms -> exists cells, modify (ms ++ [Format]) (map (fun pv : period * Qc => (fst pv, Some (snd pv))) rows) = Ok cells /\
  Forall2 (fun pv pc => fst pc = fst pv /\ exists y t, signs ms (snd pv) y /\ format_to_precision y 6 = Ok t /\ snd pc = Text (Some t)) rows cells.
Proof.
  intros ms rows NF. unfold modify. rewrite map_map. cbn [fst snd].
  assert (forall x, exists y t, signs ms x y /\ format_to_precision y 6 = Ok t /\ fold_left (fun r m => do c <- r; modify_cell m c) (ms ++ [Format]) (Ok (Number (Some x))) = Ok (Text (Some t))) as C.
  { intros x. destruct (signs_fold ms x NF) as (y & G & E). destruct (format_proof y 6) as (t & Ft & _); [lia|]. exists y, t. split; [exact G|]. split; [exact Ft|]. rewrite fold_left_app, E. cbn [fold_left Base.bind modify_cell]. unfold LTP_PRECISION. now rewrite Ft. }
  destruct (modify_fold_total (ms ++ [Format]) (map (fun pv : period * Qc => (fst pv, Number (Some (snd pv)))) rows)) as (r & E).
  { intros pc I. apply in_map_iff in I as (pv & <- & _). cbn [snd]. destruct (C (snd pv)) as (y & t & _ & _ & F). eauto. }
  exists r. split; [exact E|]. apply modify_fold in E. clear NF. revert r E. induction rows as [|pv rows IH]; intros r E; inversion E as [|? z ? r' [H1 H2] H3]; subst; constructor; auto.
  cbn [fst snd] in *. split; [auto|]. destruct (C (snd pv)) as (y & t & G & Ft & F). rewrite F in H2. exists y, t. split; [exact G|]. split; [exact Ft|congruence].
Qed.

(** ** Reports *)
Lemma resample_nonempty : forall f ps new, frequency_ok f ps -> ps <> [] -> resample_periods ps f true true = Ok new -> new <> [].
Proof.
  intros f ps new FO NE En. assert (f = FreqNone \/ f <> FreqNone) as [->|NF] by (destruct f; auto; right; discriminate); [cbn in En; congruence|].
  destruct FO as [|(A0 & B0 & L & S)]; [contradiction|]. destruct (resample_periods_proof _ _ _ _ S L NF) as (n' & E' & _ & Sn & _).
  assert (n' = new) as <- by congruence. destruct Sn as (? & ? & ? & E'' & _). rewrite E''. discriminate.
Qed.
Lemma column_ok : forall f e a, contiguous (e_periods e) -> e_periods e <> [] -> frequency_ok f (e_periods e) -> can_report f e a -> right_installation (ap_query a) e ->
  exists r, apply_applier a e f = Ok (Some r) /\ formatted_column f a e r.
Proof.
  intros f e a C NE FO (K & U & (ms & Em & NF) & H) R. destruct (H R) as (l & A & F).
  destruct (query_rows_proof _ _ _ _ f K U C R FO A F) as (sums & new & T & En & Cn & Q).
  pose proof (resample_nonempty _ _ _ FO NE En) as NN.
  destruct (formatted_proof ms (map (fun p => (p, prorated (e_periods e) (map Some sums) p)) new) NF) as (cells & M & FC). rewrite map_map in M. cbn [fst snd] in M.
  exists (mkQueryResult (ap_name a) (ap_title a) (ap_unit a) cells). split.
  - unfold apply_applier. rewrite Q. cbn [Base.bind]. destruct new as [|n ns]; [congruence|]. cbn [map] in *. rewrite Em, M. reflexivity.
  - unfold formatted_column. cbn [qr_name qr_title qr_unit qr_values]. repeat split. exists l, sums, new. repeat split; auto.
    clear - FC Em. revert cells FC. induction new as [|p new IH]; intros cells FC; inversion FC as [|? z ? r' [H1 (y & t & G & Ft & E)] H3]; subst; constructor; auto. cbn [fst snd] in *. split; [auto|]. exists ms, y, t. auto.
Qed.
Lemma skipped_column : forall f e a, ~ right_installation (ap_query a) e -> apply_applier a e f = Ok None.
Proof. intros f e a H. unfold apply_applier. now rewrite category_proof. Qed.
Lemma right_dec : forall q e, {right_installation q e} + {~ right_installation q e}.
Proof. intros q e. destruct (other_installation q e) eqn:E; [right; intros R; apply installation_spec in R; congruence|left; now apply installation_spec]. Qed.
Lemma columns_ok : forall f e l, contiguous (e_periods e) -> e_periods e <> [] -> frequency_ok f (e_periods e) -> (forall a, In a l -> can_report f e a) ->
  exists rs, mapM (fun a => apply_applier a e f) l = Ok rs /\ reported f e l (flat_map (fun r => match r with Some x => [x] | None => [] end) rs).
Proof.
  intros f e l C NE FO. induction l as [|a l IH]; intros H; [exists []; split; [reflexivity|constructor]|].
  destruct IH as (rs & M & R); [intros; apply H; now right|]. cbn [mapM]. destruct (right_dec (ap_query a) e) as [Y|Y].
  - destruct (column_ok f e a C NE FO (H a (or_introl eq_refl)) Y) as (r & E & F). exists (Some r :: rs). rewrite E. cbn [Base.bind]. rewrite M. cbn [Base.bind flat_map app]. split; [reflexivity|]. now constructor.
  - exists (None :: rs). rewrite (skipped_column f e a Y). cbn [Base.bind]. rewrite M. cbn [Base.bind flat_map app]. split; [reflexivity|]. now constructor.
Qed.
(** C46: one group per installation, in order, with a column for every applier that wants its category *)
Theorem report_proof : forall f appliers es, (forall e, In e es -> contiguous (e_periods e) /\ e_periods e <> [] /\ frequency_ok f (e_periods e) /\ forall a, In a appliers -> can_report f e a) ->
  exists groups, aggregate f appliers es = Ok groups /\ Forall2 (fun e g => fst g = e_name e /\ reported f e appliers (snd g)) es groups.
Proof.
  intros f appliers es. induction es as [|e es IH]; intros H; [exists []; split; [reflexivity|constructor]|].
  destruct IH as (groups & A & F); [intros; apply H; now right|]. destruct (H e (or_introl eq_refl)) as (C & NE & FO & CR). destruct (columns_ok f e appliers C NE FO CR) as (rs & M & R).
  eexists. split; [unfold aggregate; cbn [mapM]; rewrite M; cbn [Base.bind]; fold (aggregate f appliers es); rewrite A; reflexivity|]. constructor; [split; auto|exact F].
Qed.

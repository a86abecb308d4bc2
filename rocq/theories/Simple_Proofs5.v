(** Proofs about comparing results: the result of a comparison. *)
From Coq Require Import String PeanoNat.
From Verif Require Import QcTac Base BaseLemmas Num Input_Proofs System_Proofs3 Time_Model Time_Spec Time_Proofs Time_Proofs2 Time_Proofs3 Simple_Model Simple_Spec Simple_Proofs Simple_Proofs2 Simple_Proofs3 Simple_Proofs4.
Local Open Scope list_scope.

Lemma spans_last : forall p ps s e, spans (p :: ps) s e <-> p_start p = s /\ p_end (last ps p) = e.
Proof.
  intros p ps s e. split.
  - intros (p' & q & rest & E & L & S1 & E1). injection E as <- <-. rewrite last_shift in L. subst. auto.
  - intros [<- <-]. exists p, (last ps p), ps. rewrite last_shift. auto.
Qed.
Lemma all_dates_of : forall p ps, all_dates (p :: ps) = Ok (dates_of (p :: ps)).
Proof. intros p ps. rewrite dates_of_eq, last_shift. reflexivity. Qed.

Definition grid (reference changed : list period) : list period :=
  match reference, changed with
  | pr :: r, pc :: c =>
      let lo := Z.max (p_start pc) (p_start pr) in let hi := Z.min (p_end (last c pc)) (p_end (last r pr)) in
      let within := filter (fun d => (lo <=? d) && (d <=? hi)) in
      create_periods (sorted_set (within (dates_of (pr :: r)) ++ within (dates_of (pc :: c)))) false false
  | _, _ => []
  end.

Lemma periods_eqb_refl' : forall l, periods_eqb l l = true.
Proof. exact periods_eqb_refl. Qed.

Section Order.
Variable order : list string -> list string.
Hypothesis order_ok : forall l, Permutation l (order l).

Lemma profile : forall reference changed s e s' e', proper reference -> proper changed ->
  spans (r_periods reference) s e -> spans (r_periods changed) s' e' -> Z.max s s' < Z.min e e' ->
  exists T ids xs ys zs errs,
    delta_profile order reference changed = Ok (mkResults T xs, mkResults T ys, mkResults T zs, errs) /\
    T = grid (r_periods reference) (r_periods changed) /\
    contiguous T /\ spans T (Z.max s s') (Z.min e e') /\
    (forall t, is_boundary T t <-> (is_boundary (r_periods reference) t \/ is_boundary (r_periods changed) t) /\ Z.max s s' <= t <= Z.min e e') /\
    NoDup ids /\ Sorted (fun a b => id_leb a b = true) ids /\ (forall i, In i ids <-> present changed i \/ present reference i) /\
    Forall2 (side_ok changed reference T) ids xs /\ Forall2 (side_ok reference changed T) ids ys /\
    (forall z, In z zs -> delta_ok changed reference T z) /\ NoDup (map id_of zs) /\
    (forall i, In i (map id_of zs) <-> In i ids /\ same_units changed reference i) /\
    (forall i, In i errs <-> In i ids /\ ~ same_units changed reference i).
Proof.
  intros reference changed s e s' e' PR PC SR SC OV.
  destruct (normalize_ok order order_ok changed reference PC PR) as (ids & pairs & EN & ND & ST & IN & FP).
  pose proof PR as (NR & CR & _). pose proof PC as (NC & CC & _).
  unfold delta_profile. rewrite EN. clear EN. cbn [bind fst snd]. unfold fit_results, subtract_results. cbn [r_periods r_components].
  destruct (r_periods reference) as [|pr pss] eqn:ER; [congruence|]. destruct (r_periods changed) as [|pc pcs] eqn:EC; [congruence|].
  apply spans_last in SR as [SR1 SR2]. apply spans_last in SC as [SC1 SC2].
  destruct (grid_ok pr pss pc pcs CR CC (Z.max s s') (Z.min e e')) as (t & T' & G & CT & T1 & T2 & GD); [congruence|congruence|exact OV|].
  assert (forall d, In d (dates_of (pr :: pss)) \/ In d (dates_of (pc :: pcs)) -> Z.max s s' <= d <= Z.min e e' -> In d (dates_of (t :: T'))) as GD' by (intros d H1 H2; apply GD; auto).
  destruct (picks_grid pr pss t T' CR CT) as (isR & ER1 & ER2 & ER3); [lia|lia|intros d Hd Hd'; apply GD'; [now left|lia]|].
  destruct (picks_grid pc pcs t T' CC CT) as (isC & EC1 & EC2 & EC3); [lia|lia|intros d Hd Hd'; apply GD'; [now right|lia]|].
  destruct (assemble changed reference (t :: T') ids pairs PC PR CT) as (xs & ys & zs & errs & A1 & A2 & A3 & A4 & A5 & A6 & A7 & A8 & A9); auto.
  { exists isC. rewrite EC. split; [exact EC1|split; [exact EC2|exact EC3]]. }
  { exists isR. rewrite ER. split; [exact ER1|split; [exact ER2|exact ER3]]. }
  exists (t :: T'), ids, xs, ys, zs, errs. split; [|split].
  - rewrite !all_dates_of. unfold first_date, last_date. cbn [last_opt bind]. rewrite SR1, SC1, SR2, SC2.
    rewrite (Z.max_comm s' s), (Z.min_comm e' e). destruct (Z.leb_spec (Z.min e e') (Z.max s s')) as [L|_]; [lia|]. cbv zeta in G. rewrite G. rewrite A1. cbn [bind]. rewrite A2. cbn [bind r_periods r_components].
    rewrite periods_eqb_refl. cbn [negb]. rewrite A3. reflexivity.
  - unfold grid. rewrite SR1, SC1, SR2, SC2, (Z.max_comm s' s), (Z.min_comm e' e). symmetry. exact G.
  - split; [exact CT|]. split; [apply spans_last; auto|]. split; [|auto 10].
    intros u. rewrite <- !dates_of_In by assumption. exact (GD u).
Qed.
End Order.

Lemma contiguous_within : forall ps s e d, contiguous ps -> spans ps s e -> (covers ps d <-> s <= d < e).
Proof.
  intros [|p ps] s e d C S; [destruct S as (? & ? & ? & E & _); discriminate|]. apply spans_last in S as [<- <-]. split.
  - intros (j & u & E & D). pose proof (contiguous_bounds ps p u d j C E D) as B. now rewrite last_shift in B.
  - intros D. apply (contiguous_cover ps p d C). now rewrite last_shift.
Qed.
Lemma contiguous_nonempty : forall ps k q, contiguous ps -> nth_error ps k = Some q -> p_start q < p_end q.
Proof.
  induction ps as [|p ps IH]; intros [|k] q C E; try discriminate; destruct C as (N & _ & C); cbn in E; [injection E as <-; exact N|]. now apply (IH k).
Qed.
Lemma spans_exists : forall ps, ps <> [] -> exists s e, spans ps s e.
Proof. intros [|p ps] H; [congruence|]. exists (p_start p), (p_end (last ps p)). now apply spans_last. Qed.
Lemma spans_unique : forall ps s e s' e', spans ps s e -> spans ps s' e' -> s = s' /\ e = e'.
Proof. intros [|p ps] s e s' e' S S'; [destruct S as (? & ? & ? & E & _); discriminate|]. apply spans_last in S, S'. intuition congruence. Qed.

(** no common time *)
Lemma no_overlap : forall order reference changed s e s' e', spans (r_periods reference) s e -> spans (r_periods changed) s' e' -> Z.min e e' <= Z.max s s' ->
  delta_profile order reference changed = Err DomainError.
Proof.
  intros order reference changed s e s' e' SR SC H. unfold delta_profile.
  destruct (r_periods reference) as [|pr rs]; [destruct SR as (? & ? & ? & E & _); discriminate|]. destruct (r_periods changed) as [|pc cs]; [destruct SC as (? & ? & ? & E & _); discriminate|].
  apply spans_last in SR as [S1 S2]. apply spans_last in SC as [S3 S4]. unfold first_date, last_date. cbn [last_opt bind]. rewrite S1, S2, S3, S4.
  rewrite (Z.max_comm s' s), (Z.min_comm e' e). destruct (Z.leb_spec (Z.min e e') (Z.max s s')); [reflexivity|lia].
Qed.

Lemma overlap_proof : forall order, (forall l, Permutation l (order l)) -> forall reference changed s e s' e', proper reference -> proper changed ->
  spans (r_periods reference) s e -> spans (r_periods changed) s' e' ->
  (Z.max s s' < Z.min e e' -> exists c r d errs, delta_profile order reference changed = Ok (c, r, d, errs)) /\
  (Z.min e e' <= Z.max s s' -> delta_profile order reference changed = Err DomainError).
Proof.
  intros order O reference changed s e s' e' PR PC SR SC. split.
  - intros H. destruct (profile order O reference changed s e s' e' PR PC SR SC H) as (T & ids & xs & ys & zs & errs & E & _). eauto.
  - now apply no_overlap.
Qed.
Lemma empty_proof : forall order reference changed, r_periods reference = [] \/ r_periods changed = [] -> delta_profile order reference changed = Err IndexError.
Proof.
  intros order reference changed H. unfold delta_profile. destruct (r_periods reference), (r_periods changed); cbn; auto. destruct H; discriminate.
Qed.

Lemma profile_Ok : forall order, (forall l, Permutation l (order l)) -> forall reference changed c r d errs, proper reference -> proper changed ->
  delta_profile order reference changed = Ok (c, r, d, errs) ->
  exists s e s' e' T ids, spans (r_periods reference) s e /\ spans (r_periods changed) s' e' /\ Z.max s s' < Z.min e e' /\
    r_periods c = T /\ r_periods r = T /\ r_periods d = T /\ T = grid (r_periods reference) (r_periods changed) /\
    contiguous T /\ spans T (Z.max s s') (Z.min e e') /\
    (forall t, is_boundary T t <-> (is_boundary (r_periods reference) t \/ is_boundary (r_periods changed) t) /\ Z.max s s' <= t <= Z.min e e') /\
    NoDup ids /\ Sorted (fun a b => id_leb a b = true) ids /\ (forall i, In i ids <-> present changed i \/ present reference i) /\
    Forall2 (side_ok changed reference T) ids (r_components c) /\ Forall2 (side_ok reference changed T) ids (r_components r) /\
    (forall z, In z (r_components d) -> delta_ok changed reference T z) /\ NoDup (map id_of (r_components d)) /\
    (forall i, In i (map id_of (r_components d)) <-> In i ids /\ same_units changed reference i) /\
    (forall i, In i errs <-> In i ids /\ ~ same_units changed reference i).
Proof.
  intros order O reference changed c r d errs PR PC E.
  destruct (spans_exists (r_periods reference)) as (s & e & SR); [apply PR|]. destruct (spans_exists (r_periods changed)) as (s' & e' & SC); [apply PC|].
  destruct (Z.lt_ge_cases (Z.max s s') (Z.min e e')) as [H|H]; [|rewrite (no_overlap order reference changed s e s' e' SR SC H) in E; discriminate].
  destruct (profile order O reference changed s e s' e' PR PC SR SC H) as (T & ids & xs & ys & zs & errs' & E' & R). rewrite E' in E. injection E as <- <- <- <-.
  exists s, e, s', e', T, ids. split; [exact SR|]. split; [exact SC|]. split; [exact H|]. split; [reflexivity|]. split; [reflexivity|]. split; [reflexivity|]. exact R.
Qed.

Lemma periods_proof : forall order, (forall l, Permutation l (order l)) -> forall reference changed c r d errs, proper reference -> proper changed ->
  delta_profile order reference changed = Ok (c, r, d, errs) ->
  r_periods c = r_periods d /\ r_periods r = r_periods d /\ common_periods (r_periods reference) (r_periods changed) (r_periods d) /\
  forall z, In z (r_components c) \/ In z (r_components r) \/ In z (r_components d) -> c_periods z = r_periods d.
Proof.
  intros order O reference changed c r d errs PR PC E. destruct (profile_Ok order O reference changed c r d errs PR PC E) as (s & e & s' & e' & T & ids & SR & SC & H & E1 & E2 & E3 & _ & CT & ST & BT & _ & _ & _ & F1 & F2 & D & _).
  rewrite E1, E2, E3. split; [reflexivity|]. split; [reflexivity|]. split.
  - split; [exact CT|]. intros s0 e0 s1 e1 S0 S1. destruct (spans_unique _ _ _ _ _ SR S0) as [<- <-]. destruct (spans_unique _ _ _ _ _ SC S1) as [<- <-]. split; [exact ST|exact BT].
  - intros z [I|[I|I]]; [destruct (Forall2_in_r _ _ _ _ _ _ F1 I) as (i & _ & S)|destruct (Forall2_in_r _ _ _ _ _ _ F2 I) as (i & _ & S)|now apply D]; now destruct S as (_ & S & _).
Qed.

Lemma side_ids : forall r other T ids xs, Forall2 (side_ok r other T) ids xs -> map id_of xs = ids.
Proof. intros r other T ids xs F. induction F as [|i x ids xs S F IH]; cbn; auto. destruct S as (-> & _). now rewrite IH. Qed.

Lemma components_proof : forall order, (forall l, Permutation l (order l)) -> forall reference changed c r d errs, proper reference -> proper changed ->
  delta_profile order reference changed = Ok (c, r, d, errs) ->
  map id_of (r_components c) = map id_of (r_components r) /\ NoDup (map id_of (r_components r)) /\
  Sorted (fun a b => id_leb a b = true) (map id_of (r_components r)) /\
  (forall i, In i (map id_of (r_components r)) <-> present changed i \/ present reference i) /\
  NoDup (map id_of (r_components d)) /\
  (forall i, In i (map id_of (r_components d)) <-> (present changed i \/ present reference i) /\ same_units changed reference i) /\
  (forall i, In i errs <-> (present changed i \/ present reference i) /\ ~ same_units changed reference i).
Proof.
  intros order O reference changed c r d errs PR PC E. destruct (profile_Ok order O reference changed c r d errs PR PC E) as (s & e & s' & e' & T & ids & _ & _ & _ & _ & _ & _ & _ & _ & _ & _ & N & S & IN & F1 & F2 & _ & ND & ID & IE).
  rewrite (side_ids _ _ _ _ _ F1), (side_ids _ _ _ _ _ F2). split; [reflexivity|]. split; [exact N|]. split; [exact S|]. split; [exact IN|]. split; [exact ND|].
  split; intros i; [rewrite ID|rewrite IE]; now rewrite IN.
Qed.

Lemma covered : forall order, (forall l, Permutation l (order l)) -> forall reference changed c r d errs t, proper reference -> proper changed ->
  delta_profile order reference changed = Ok (c, r, d, errs) -> (covers (r_periods d) t <-> covers (r_periods reference) t /\ covers (r_periods changed) t).
Proof.
  intros order O reference changed c r d errs t PR PC E. destruct (profile_Ok order O reference changed c r d errs PR PC E) as (s & e & s' & e' & T & ids & SR & SC & H & E1 & E2 & E3 & _ & CT & ST & _).
  rewrite E3. pose proof PR as (_ & CR & _). pose proof PC as (_ & CC & _). rewrite (contiguous_within _ _ _ _ CT ST), (contiguous_within _ _ _ _ CR SR), (contiguous_within _ _ _ _ CC SC). lia.
Qed.

Lemma sides_proof : forall order, (forall l, Permutation l (order l)) -> forall reference changed c r d errs, proper reference -> proper changed ->
  delta_profile order reference changed = Ok (c, r, d, errs) ->
  forall t, covers (r_periods reference) t -> covers (r_periods changed) t -> forall z q v,
  (In z (r_components c) -> (has_value (r_periods c) z q t v <-> compared changed reference (id_of z) q /\ amount changed (id_of z) q t v)) /\
  (In z (r_components r) -> (has_value (r_periods r) z q t v <-> compared changed reference (id_of z) q /\ amount reference (id_of z) q t v)).
Proof.
  intros order O reference changed c r d errs PR PC E t CR CC z q v. assert (covers (r_periods d) t) as CD by (apply (covered order O reference changed c r d errs); auto).
  destruct (profile_Ok order O reference changed c r d errs PR PC E) as (s & e & s' & e' & T & ids & _ & _ & _ & E1 & E2 & E3 & _ & _ & _ & _ & _ & _ & _ & F1 & F2 & _).
  rewrite E3 in CD. rewrite E1, E2. split; intros I.
  - destruct (Forall2_in_r _ _ _ _ _ _ F1 I) as (i & _ & (Ei & _ & S & _)). rewrite Ei. now apply S.
  - destruct (Forall2_in_r _ _ _ _ _ _ F2 I) as (i & _ & (Ei & _ & S & _)). rewrite Ei. rewrite (S q t v CD). now rewrite compared_comm.
Qed.

Lemma difference_proof : forall order, (forall l, Permutation l (order l)) -> forall reference changed c r d errs, proper reference -> proper changed ->
  delta_profile order reference changed = Ok (c, r, d, errs) ->
  forall t, covers (r_periods reference) t -> covers (r_periods changed) t -> forall z, In z (r_components d) -> forall q w,
  has_value (r_periods d) z q t w <-> compared changed reference (id_of z) q /\
    exists new old, amount changed (id_of z) q t new /\ amount reference (id_of z) q t old /\ w = nsub new old.
Proof.
  intros order O reference changed c r d errs PR PC E t CR CC z I q w. assert (covers (r_periods d) t) as CD by (apply (covered order O reference changed c r d errs); auto).
  destruct (profile_Ok order O reference changed c r d errs PR PC E) as (s & e & s' & e' & T & ids & _ & _ & _ & E1 & E2 & E3 & _ & _ & _ & _ & _ & _ & _ & _ & _ & D & _).
  rewrite E3 in CD |- *. destruct (D z I) as (_ & V & _). now apply V.
Qed.

Lemma valid_proof : forall order, (forall l, Permutation l (order l)) -> forall reference changed c r d errs, proper reference -> proper changed ->
  delta_profile order reference changed = Ok (c, r, d, errs) ->
  forall t, covers (r_periods reference) t -> covers (r_periods changed) t -> forall z, In z (r_components d) ->
  (value_on (r_periods d) (c_valid z) t 1 <-> valid_in changed (id_of z) t /\ valid_in reference (id_of z) t).
Proof.
  intros order O reference changed c r d errs PR PC E t CR CC z I. assert (covers (r_periods d) t) as CD by (apply (covered order O reference changed c r d errs); auto).
  destruct (profile_Ok order O reference changed c r d errs PR PC E) as (s & e & s' & e' & T & ids & _ & _ & _ & E1 & E2 & E3 & _ & _ & _ & _ & _ & _ & _ & _ & _ & D & _).
  rewrite E3 in CD |- *. destruct (D z I) as (_ & _ & V). now apply V.
Qed.

(** ** One amount per instant *)
Lemma value_unique : forall A ps (vs : list A) t v w, contiguous ps -> value_on ps vs t v -> value_on ps vs t w -> v = w.
Proof.
  intros A ps vs t v w C (i & p & E1 & D1 & V1) (j & q & E2 & D2 & V2). assert (i = j) as -> by (apply (contiguous_unique ps t i j p q); auto). congruence.
Qed.
Lemma value_present : forall A ps (vs : list A) t, List.length vs = List.length ps -> covers ps t -> exists v, value_on ps vs t v.
Proof.
  intros A ps vs t L (j & u & E & D). destruct (nth_error vs j) as [v|] eqn:V; [exists v, j, u; auto|]. apply nth_error_None in V. assert (j < List.length ps)%nat by (apply nth_error_Some; congruence). lia.
Qed.
Lemma amount_unique : forall r i q t v w, proper r -> amount r i q t v -> amount r i q t w -> v = w.
Proof.
  intros r i q t v w P A B. pose proof P as (_ & C & _).
  destruct A as [c q t v I E (vs & S & V)|q t NP|n t PR NR]; inversion B as [c' q' t' v' I' E' (vs' & S' & V')|q' t' NP'|n' t' PR' NR']; subst; auto.
  - assert (c' = c) as -> by (apply (unique_component r); auto). assert (vs' = vs) as -> by congruence. exact (value_unique _ _ _ _ _ _ C V V').
  - exfalso. apply NP'. exists c. auto.
  - exfalso. apply NR'. exists c, vs. auto.
  - exfalso. apply NP. exists c'. auto.
  - exfalso. apply NR. exists c', vs'. auto.
Qed.
Lemma amount_proof : forall r i q t, proper r -> covers (r_periods r) t ->
  (forall v w, amount r i q t v -> amount r i q t w -> v = w) /\
  ((exists v, amount r i q t v) <-> (q = Power -> present r i -> reported r i Power)).
Proof.
  intros r i q t P D. split; [intros v w; now apply amount_unique|]. split.
  - intros (v & A) -> (c & I & E). inversion A as [c' q' t' v' I' E' (vs & S & V)|q' t' NP|n]; subst; [|exfalso; apply NP; exists c; auto]. exists c', vs. auto.
  - intros H. destruct (in_dec id_dec i (map id_of (r_components r))) as [I|NI].
    + apply in_map_iff in I as (c & E & I). pose proof P as (_ & _ & PC & _). destruct (PC c I) as (_ & _ & _ & L1 & L2 & N & L3).
      assert (forall vs, series q c = Some vs -> List.length vs = List.length (r_periods r) -> exists v, amount r i q t v) as G.
      { intros vs S L. destruct (value_present _ _ _ _ L D) as (v & V). exists v. apply (A_value r i c); auto. exists vs. auto. }
      destruct q as [| |n].
      * exact (G _ eq_refl L1).
      * destruct H as (c' & vs & I' & E' & S); [reflexivity|exists c; auto|]. assert (c' = c) as -> by (apply (unique_component r); auto; congruence). apply (G vs S). now apply L2.
      * cbn [series] in G. destruct (find (fun e => String.eqb (fst e) n) (c_emissions c)) as [[m e]|] eqn:F.
        -- apply (G _ eq_refl). apply find_some in F as [F _]. apply (L3 m e F).
        -- exists (Some 0%Qc). apply A_no_emission; [exists c; auto|]. intros (c' & vs & I' & E' & S). assert (c' = c) as -> by (apply (unique_component r); auto; congruence). cbn [series] in S. rewrite F in S. discriminate.
    + exists (Some 0%Qc). apply A_absent. intros (c & I & E). apply NI. rewrite <- E. now apply in_map.
Qed.

(** ** Swapping and comparing with itself *)
Lemma nsub_swap : forall a b, nsub b a = nneg (nsub a b).
Proof. intros [a|] [b|]; cbn; auto. f_equal. ring. Qed.
Lemma same_units_comm : forall a b i, same_units a b i <-> same_units b a i.
Proof. intros a b i. unfold same_units. split; intros H c c' I1 I2 E1 E2; symmetry; auto. Qed.

Lemma dates_inj : forall a b, contiguous a -> contiguous b -> dates_of a = dates_of b -> a = b.
Proof.
  induction a as [|p a IH]; intros [|q b] Ca Cb E; auto.
  - destruct b; discriminate.
  - destruct a; discriminate.
  - destruct a as [|p' a], b as [|q' b].
    + cbn in E. destruct p, q. cbn in E. congruence.
    + exfalso. apply (f_equal (@List.length Z)) in E. rewrite !dates_of_length in E. cbn in E. lia.
    + exfalso. apply (f_equal (@List.length Z)) in E. rewrite !dates_of_length in E. cbn in E. lia.
    + change (p_start p :: dates_of (p' :: a) = p_start q :: dates_of (q' :: b)) in E. injection E as E1 E2.
      destruct Ca as (_ & Ep & Ca). destruct Cb as (_ & Eq & Cb). pose proof (IH _ Ca Cb E2) as EQ. rewrite EQ. f_equal. injection EQ as EQ _. destruct p, q. cbn in *. congruence.
Qed.
Lemma increasing_Sorted : forall l, increasing l -> Sorted (fun a b => a <= b) l.
Proof.
  induction l as [|x [|y l] IH]; intros H; [constructor|constructor; constructor|]. destruct H as [H1 H2]. constructor; [now apply IH|]. constructor. lia.
Qed.
Lemma same_dates : forall a b, increasing a -> increasing b -> (forall x, In x a <-> In x b) -> a = b.
Proof.
  intros a b Ha Hb H. apply (sorted_unique _ (fun a b => a <= b)); [intros; lia|intros; lia|now apply increasing_NoDup|now apply increasing_NoDup|now apply increasing_Sorted|now apply increasing_Sorted|exact H].
Qed.
Lemma sorted_set_same : forall l m, (forall x, In x l <-> In x m) -> sorted_set l = sorted_set m.
Proof. intros l m H. apply same_dates; [apply sorted_set_increasing|apply sorted_set_increasing|]. intros x. rewrite !sorted_set_In. apply H. Qed.
Lemma grid_comm : forall a b, grid a b = grid b a.
Proof.
  intros [|pa a] [|pb b]; cbn [grid]; auto. rewrite (Z.max_comm (p_start pb)), (Z.min_comm (p_end (last b pb))). f_equal. apply sorted_set_same. intros x. rewrite !in_app_iff. tauto.
Qed.

Lemma swap_proof : forall order, (forall l, Permutation l (order l)) -> forall reference changed c r d errs, proper reference -> proper changed ->
  delta_profile order reference changed = Ok (c, r, d, errs) ->
  exists c' r' d' errs', delta_profile order changed reference = Ok (c', r', d', errs') /\ r_periods d' = r_periods d /\
    (forall i, In i errs' <-> In i errs) /\ (forall i, In i (map id_of (r_components d')) <-> In i (map id_of (r_components d))) /\
    forall z z', In z (r_components d) -> In z' (r_components d') -> id_of z' = id_of z -> forall t q w,
      has_value (r_periods d) z q t w -> has_value (r_periods d') z' q t (nneg w).
Proof.
  intros order O reference changed c r d errs PR PC E. pose proof (profile_Ok order O reference changed c r d errs PR PC E) as (s & e & s' & e' & T & ids & SR & SC & H & _ & _ & ET & EG & _ & _ & _ & _ & _ & IN & _ & _ & _ & _ & ID & IE).
  destruct (overlap_proof order O changed reference s' e' s e PC PR SC SR) as [Q _]. destruct Q as (c' & r' & d' & errs' & E'); [lia|]. exists c', r', d', errs'. split; [exact E'|].
  pose proof (profile_Ok order O changed reference c' r' d' errs' PC PR E') as (_ & _ & _ & _ & T' & ids' & _ & _ & _ & _ & _ & ET' & EG' & _ & _ & _ & _ & _ & IN' & _ & _ & _ & _ & ID' & IE').
  assert (T' = T) as -> by (rewrite EG, EG'; apply grid_comm). split; [congruence|].
  split; [intros i; rewrite IE, IE', IN, IN', (same_units_comm changed reference i); tauto|]. split; [intros i; rewrite ID, ID', IN, IN', (same_units_comm changed reference i); tauto|].
  intros z z' I I' EI t q w V. assert (covers (r_periods d) t) as CD by (destruct V as (vs & _ & (i & p & V1 & V2 & _)); exists i, p; auto).
  apply (covered order O reference changed c r d errs t PR PC E) in CD as [CR CC].
  apply (difference_proof order O reference changed c r d errs PR PC E t CR CC z I) in V as (K & v1 & v2 & A1 & A2 & ->).
  apply (difference_proof order O changed reference c' r' d' errs' PC PR E' t CC CR z' I'). rewrite EI. split; [now apply compared_comm|]. exists v2, v1. split; [exact A2|]. split; [exact A1|]. symmetry. apply nsub_swap.
Qed.

Lemma self_proof : forall order, (forall l, Permutation l (order l)) -> forall model, proper model ->
  exists c r d, delta_profile order model model = Ok (c, r, d, []) /\ r_periods d = r_periods model /\
    (forall i, In i (map id_of (r_components d)) <-> present model i) /\
    forall z, In z (r_components d) -> forall t q w, has_value (r_periods d) z q t w -> w = Some 0%Qc \/ (w = None /\ amount model (id_of z) q t None).
Proof.
  intros order O model P. destruct (spans_exists (r_periods model)) as (s & e & S); [apply P|].
  destruct (overlap_proof order O model model s e s e P P S S) as [Q _]. destruct Q as (c & r & d & errs & E).
  { pose proof P as (NE & C & _). destruct (r_periods model) as [|p ps] eqn:EP; [congruence|]. apply spans_last in S as [<- <-]. destruct (dates_of_first _ _ C) as [D1 D2].
    destruct C as (NP & C'). unfold nonempty in NP. pose proof (contiguous_bounds ps p p (p_start p) 0%nat (conj NP C') eq_refl) as B. rewrite last_shift in B. unfold In_period in B. lia. }
  pose proof (components_proof order O model model c r d errs P P E) as (_ & _ & _ & _ & _ & ID & IE).
  assert (forall i, same_units model model i) as SU. { intros i a b I1 I2 E1 E2. assert (a = b) as -> by (apply (unique_component model); auto; congruence). reflexivity. }
  assert (errs = []) as ->. { destruct errs as [|i errs]; auto. destruct (proj1 (IE i)) as [_ N]; [now left|]. now destruct (N (SU i)). }
  exists c, r, d. split; [exact E|]. split; [|split].
  - pose proof (profile_Ok order O model model c r d [] P P E) as (s1 & e1 & s2 & e2 & T & ids & S1 & S2 & _ & _ & _ & ET & _ & CT & _ & BT & _). rewrite ET. pose proof P as (_ & C & _).
    destruct (spans_unique _ _ _ _ _ S1 S2) as [<- <-]. apply dates_inj; auto. apply same_dates; [now apply dates_of_increasing|now apply dates_of_increasing|].
    intros x. rewrite !dates_of_In, BT by assumption. split; [tauto|]. intros B. split; [tauto|]. rewrite Z.max_id, Z.min_id. destruct (r_periods model) as [|p ps]; [destruct B as (? & [] & _)|].
    apply spans_last in S1 as [<- <-]. destruct B as (q & I & B). apply In_nth_error in I as [k Ek]. pose proof (contiguous_nonempty _ _ _ C Ek) as NQ.
    pose proof (contiguous_bounds ps p q (p_start q) k C Ek) as B1. pose proof (contiguous_bounds ps p q (p_end q - 1) k C Ek) as B2. rewrite last_shift in B1, B2. unfold In_period in B1, B2. lia.
  - intros i. rewrite ID. split; [tauto|]. intros H. split; [tauto|apply SU].
  - intros z I t q w V. assert (covers (r_periods d) t) as CD by (destruct V as (vs & _ & (i & p & V1 & V2 & _)); exists i, p; auto).
    apply (covered order O model model c r d [] t P P E) in CD as [CR CC].
    apply (difference_proof order O model model c r d [] P P E t CR CC z I) in V as (_ & v1 & v2 & A1 & A2 & ->).
    rewrite <- (amount_unique _ _ _ _ _ _ P A1 A2) in A2 |- *. destruct v1 as [x|]; [left|right; auto]. cbn. f_equal. ring.
Qed.

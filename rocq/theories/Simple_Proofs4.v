(** Proofs about comparing results: the comparison. *)
From Coq Require Import String PeanoNat.
From Verif Require Import QcTac Base BaseLemmas Num Input_Proofs System_Proofs3 Time_Model Time_Spec Time_Proofs Time_Proofs2 Simple_Model Simple_Spec Simple_Proofs Simple_Proofs2 Simple_Proofs3.
Local Open Scope list_scope.

(** ** Looking components up *)
Lemma dict_set_new_key : forall K V (eqb : K -> K -> bool), (forall a b, eqb a b = true <-> a = b) ->
  forall k (v : V) d, ~ In k (map fst d) -> dict_set eqb k v d = d ++ [(k, v)].
Proof.
  intros K V eqb S k v d. induction d as [|[k' v'] d IH]; intros H; cbn in *; auto.
  destruct (eqb k k') eqn:E; [apply S in E; subst; tauto|]. rewrite IH; auto.
Qed.
Lemma dict_fold_key : forall A K V (eqb : K -> K -> bool), (forall a b, eqb a b = true <-> a = b) -> forall (k : A -> K) (v : A -> V) l acc,
  NoDup (map fst acc ++ map k l) -> fold_left (fun d e => dict_set eqb (k e) (v e) d) l acc = acc ++ map (fun e => (k e, v e)) l.
Proof.
  intros A K V eqb S k v. induction l as [|e l IH]; intros acc N; cbn [fold_left map]; [now rewrite app_nil_r|].
  rewrite dict_set_new_key; [|exact S|]. 2:{ cbn [map] in N. apply NoDup_remove_2 in N. intros H. apply N. apply in_or_app. now left. }
  rewrite IH, <- app_assoc; [reflexivity|]. rewrite map_app, <- app_assoc. exact N.
Qed.
Lemma by_id : forall r, proper r -> components_by_id r = map (fun c => (id_of c, c)) (r_components r).
Proof.
  intros r (_ & _ & _ & N). unfold components_by_id. rewrite (dict_fold_key _ _ _ id_eqb id_eqb_spec id_of (fun c => c)); [reflexivity|exact N].
Qed.
Lemma by_id_keys : forall r i, proper r -> (In i (map fst (components_by_id r)) <-> present r i).
Proof.
  intros r i P. rewrite (by_id r P), map_map. cbn. rewrite in_map_iff. unfold present. split; intros (c & H1 & H2); exists c; auto.
Qed.
Lemma by_id_get : forall r i c, proper r -> (dict_get id_eqb i (components_by_id r) = Some c <-> In c (r_components r) /\ id_of c = i).
Proof.
  intros r i c P. rewrite (by_id r P).
  assert (NoDup (map fst (map (fun c => (id_of c, c)) (r_components r)))) as N by (rewrite map_map; apply P). split.
  - intros H. apply dict_get_In in H; [|exact id_eqb_spec]. apply in_map_iff in H as (c' & [= <- <-] & I). auto.
  - intros [I <-]. apply dict_get_NoDup; [exact id_eqb_spec|exact N|]. apply in_map_iff. exists c. auto.
Qed.
Lemma by_id_none : forall r i, proper r -> (dict_get id_eqb i (components_by_id r) = None <-> ~ present r i).
Proof.
  intros r i P. split.
  - intros H (c & I & E). assert (dict_get id_eqb i (components_by_id r) = Some c) as Q by (apply by_id_get; auto). congruence.
  - intros H. destruct (dict_get id_eqb i (components_by_id r)) as [c|] eqn:E; auto. apply by_id_get in E as [I E]; [|exact P]. exfalso. apply H. exists c. auto.
Qed.

(** ** The pairs of normalised components *)
Definition pair_ok (changed reference : results) (i : component_id) (xy : component * component) : Prop :=
  exists c0 d0 psx psy names, origin changed reference i c0 psx /\ origin reference changed i d0 psy /\ NoDup names /\
    (forall n, In n names <-> reported changed i (Emission n) \/ reported reference i (Emission n)) /\
    fst xy = add_missing names c0 /\ snd xy = add_missing names d0.

Lemma reported_key : forall r c i n, In c (r_components r) -> id_of c = i -> In n (map fst (c_emissions c)) -> reported r i (Emission n).
Proof.
  intros r c i n I E K. destruct (find (fun e => String.eqb (fst e) n) (c_emissions c)) as [e|] eqn:F; [|apply find_no_name in F; contradiction].
  exists c, (em_rate (snd e)). cbn [series]. rewrite F. auto.
Qed.
Lemma key_reported : forall r c i n, proper r -> In c (r_components r) -> id_of c = i -> reported r i (Emission n) -> In n (map fst (c_emissions c)).
Proof.
  intros r c i n P I E (c' & vs & I' & E' & S). assert (c' = c) as -> by (apply (unique_component r); auto; congruence). cbn [series] in S.
  destruct (find _ _) as [e|] eqn:F; [|discriminate]. apply find_some in F as [F1 F2]. apply String.eqb_eq in F2. rewrite <- F2. now apply in_map.
Qed.
Lemma origin_keys : forall r other i c0 ps0 n, proper r -> proper other -> origin r other i c0 ps0 ->
  (In n (map fst (c_emissions c0)) -> reported r i (Emission n) \/ reported other i (Emission n)) /\ (reported r i (Emission n) -> In n (map fst (c_emissions c0))).
Proof.
  intros r other i c0 ps0 n PR PO [(I & E & _)|(NP & o & I & E & -> & _)].
  - split; [left; now apply (reported_key r c0)|]. intros R. now apply (key_reported r c0 i).
  - split.
    + intros K. right. destruct PO as (_ & _ & PO & _). destruct (empty_proper _ _ (PO o I)) as [_ EE]. rewrite EE, !map_map in K. now apply (reported_key other o).
    + intros (c & vs & Ic & Ec & _). exfalso. apply NP. exists c. auto.
Qed.

Section Order.
Variable order : list string -> list string.
Hypothesis order_ok : forall l, Permutation l (order l).

Lemma normalize_pair : forall changed reference i c0 d0 psx psy, proper changed -> proper reference ->
  origin changed reference i c0 psx -> origin reference changed i d0 psy -> pair_ok changed reference i (normalize_emissions order c0 d0).
Proof.
  intros changed reference i c0 d0 psx psy PC PR Ox Oy. unfold normalize_emissions. set (names := order _).
  assert (NoDup names) as N by (unfold names; eapply Permutation_NoDup; [apply order_ok|apply NoDup_nodup]).
  exists c0, d0, psx, psy, names. split; [exact Ox|]. split; [exact Oy|]. split; [exact N|]. split; [|split; reflexivity].
  intros n. destruct (origin_keys _ _ _ _ _ n PC PR Ox) as [X1 X2]. destruct (origin_keys _ _ _ _ _ n PR PC Oy) as [Y1 Y2].
  assert (In n names <-> In n (map fst (c_emissions c0)) \/ In n (map fst (c_emissions d0))) as Q.
  { unfold names. split.
    - intros H. apply (Permutation_in n (Permutation_sym (order_ok _))) in H. apply nodup_In in H. now apply in_app_or.
    - intros H. apply (Permutation_in n (order_ok _)). apply nodup_In. now apply in_or_app. }
  rewrite Q. tauto.
Qed.

Lemma id_total : forall a b, id_leb a b = false -> id_leb b a = true.
Proof.
  intros [a1 a2] [b1 b2]. unfold id_leb. cbn. destruct (String.eqb_spec a1 b1) as [->|N].
  - rewrite String.eqb_refl. apply leb_total.
  - destruct (String.eqb_spec b1 a1) as [E|N']; [congruence|]. apply leb_total.
Qed.

Lemma normalize_ok : forall changed reference, proper changed -> proper reference ->
  exists ids pairs, normalize_components order reference changed [] = Ok (mkResults (r_periods changed) (map fst pairs), mkResults (r_periods reference) (map snd pairs)) /\
    NoDup ids /\ Sorted (fun a b => id_leb a b = true) ids /\ (forall i, In i ids <-> present changed i \/ present reference i) /\ Forall2 (pair_ok changed reference) ids pairs.
Proof.
  intros changed reference PC PR. unfold normalize_components.
  set (ids := sort id_leb (nodup id_dec (map fst (components_by_id changed) ++ map fst (components_by_id reference)))).
  pose proof (sort_perm _ id_leb (nodup id_dec (map fst (components_by_id changed) ++ map fst (components_by_id reference)))) as PM. fold ids in PM.
  assert (forall i, In i ids <-> present changed i \/ present reference i) as IN.
  { intros i. rewrite <- (by_id_keys changed i PC), <- (by_id_keys reference i PR), <- in_app_iff. split; intros H.
    - apply (nodup_In id_dec). apply (Permutation_in i (Permutation_sym PM) H).
    - apply (Permutation_in i PM). now apply nodup_In. }
  assert (filter (fun i => negb (existsb (String.eqb (fst i)) [])) ids = ids) as ->.
  { clear. induction ids as [|i l IH]; [reflexivity|]. cbn in *. now rewrite IH. }
  match goal with |- context [mapM ?f ids] => destruct (mapM_exists _ _ f (pair_ok changed reference) ids) as (pairs & EP & FP) end.
  { intros i Hi. apply IN in Hi.
    destruct (dict_get id_eqb i (components_by_id changed)) as [a|] eqn:Ea; destruct (dict_get id_eqb i (components_by_id reference)) as [b|] eqn:Eb.
    - apply by_id_get in Ea as [Ia Ea]; [|exact PC]. apply by_id_get in Eb as [Ib Eb]; [|exact PR]. eexists. split; [reflexivity|].
      apply (normalize_pair changed reference i a b (r_periods changed) (r_periods reference)); auto; left; auto.
    - apply by_id_get in Ea as [Ia Ea]; [|exact PC]. apply by_id_none in Eb; [|exact PR]. eexists. split; [reflexivity|].
      apply (normalize_pair changed reference i a (create_empty_component a) (r_periods changed) (r_periods changed)); auto; [left; auto|right; split; [exact Eb|exists a; auto]].
    - apply by_id_none in Ea; [|exact PC]. apply by_id_get in Eb as [Ib Eb]; [|exact PR]. eexists. split; [reflexivity|].
      apply (normalize_pair changed reference i (create_empty_component b) b (r_periods reference) (r_periods reference)); auto; [right; split; [exact Ea|exists b; auto]|left; auto].
    - apply by_id_none in Ea; [|exact PC]. apply by_id_none in Eb; [|exact PR]. tauto. }
  exists ids, pairs. rewrite EP. cbn [bind]. split; [reflexivity|]. split; [|split; [|split; [exact IN|exact FP]]].
  - eapply Permutation_NoDup; [exact PM|apply NoDup_nodup].
  - apply sort_Sorted. exact id_total.
Qed.
End Order.

(** ** Fitting and subtracting *)
Definition side_ok (r other : results) (T : list period) (i : component_id) (x : component) : Prop :=
  id_of x = i /\ c_periods x = T /\
  (forall q d v, covers T d -> (has_value T x q d v <-> compared r other i q /\ amount r i q d v)) /\
  (forall d, covers T d -> (exists b, value_on T (c_valid x) d b /\ (b = 0 \/ b = 1)) /\ (value_on T (c_valid x) d 1 <-> valid_in r i d)) /\
  keyed x /\ (exists p, c_power x = Some p) /\
  (forall n, In n (map fst (c_emissions x)) <-> reported r i (Emission n) \/ reported other i (Emission n)) /\
  ((exists c, In c (r_components r) /\ id_of c = i /\ c_unit x = c_unit c /\ c_parent x = c_parent c) \/
   (~ present r i /\ exists o, In o (r_components other) /\ id_of o = i /\ c_unit x = c_unit o /\ c_parent x = c_parent o)).

Lemma inside_covers : forall ps T is d, inside ps T is -> covers T d -> covers ps d.
Proof.
  intros ps T is d [L H] (j & u & Eu & Du). destruct (nth_error is j) as [x|] eqn:Ex.
  - destruct (H j x Ex) as (q & u' & Q1 & Q2 & Q3). exists x, q. split; [exact Q1|]. assert (u' = u) as -> by congruence. unfold In_period in *. lia.
  - apply nth_error_None in Ex. assert (j < List.length T)%nat by (apply nth_error_Some; congruence). lia.
Qed.

Lemma side_fit : forall r other T i c0 ps0 names is, proper r -> proper other -> origin r other i c0 ps0 -> NoDup names ->
  (forall n, In n names <-> reported r i (Emission n) \/ reported other i (Emission n)) -> contiguous T ->
  picks 0 ps0 T = Ok is -> inside ps0 T is ->
  exists x, fit_component (add_missing names c0) T = Ok x /\ side_ok r other T i x.
Proof.
  intros r other T i c0 ps0 names is PR PO O N NM CT EI IN. destruct (origin_proper _ _ _ _ _ PR PO O) as (P0 & C0 & _ & Ei).
  pose proof (add_missing_proper _ _ names P0 N) as P.
  assert (forall k, In k is -> (k < List.length ps0)%nat) as B.
  { intros k Hk. apply In_nth_error in Hk as [j Ej]. destruct IN as [_ H]. destruct (H j k Ej) as (q & _ & Q & _). apply nth_error_Some. congruence. }
  destruct (fit_ok _ T is _ P EI B) as (x & Ex & F). exists x. split; [exact Ex|].
  assert (NoDup (map fst (c_emissions (add_missing names c0)))) as NK by (now destruct P as (_ & _ & _ & _ & _ & ? & _)).
  pose proof (fitted_keyed _ _ _ _ F NK) as KX. pose proof (fitted_names _ _ _ _ F) as EN.
  pose proof F as (F1 & F2 & F3 & F4 & F5 & F6 & F7 & F8 & F9).
  assert (id_of (add_missing names c0) = i /\ c_unit (add_missing names c0) = c_unit c0 /\ c_parent (add_missing names c0) = c_parent c0 /\ c_valid (add_missing names c0) = c_valid c0) as (A1 & A2 & A3 & A4).
  { rewrite add_missing_ok by exact N. repeat split; auto. }
  unfold side_ok. split; [congruence|]. split; [exact F5|]. split; [|split; [|split; [exact KX|split; [|split]]]].
  - intros q d v D. rewrite (fitted_value ps0 T is _ x q d v C0 CT IN F NK D). apply side_value; auto. eapply inside_covers; eauto.
  - intros d D. pose proof (inside_covers _ _ _ _ IN D) as D0. destruct P0 as (Q1 & Q2 & Q3 & _). rewrite A4 in F6.
    assert (exists b, value_on ps0 (c_valid c0) d b /\ (b = 0 \/ b = 1)) as (b & Vb & Hb).
    { destruct D0 as (j & u & Eu & Du). destruct (nth_error (c_valid c0) j) as [b|] eqn:Eb.
      - exists b. split; [exists j, u; auto|]. apply Q3. now apply nth_error_In in Eb.
      - apply nth_error_None in Eb. assert (j < List.length ps0)%nat by (apply nth_error_Some; congruence). lia. }
    assert (value_on T (c_valid x) d b) as Vx. { destruct IN as [L H]. apply (taken_value _ ps0 T is (c_valid c0)); auto. }
    split; [eauto|]. split.
    + intros V1. apply (taken_value_back _ ps0 T is (c_valid c0)) in V1; auto. intros c Ic Ec. destruct O as [(I0 & E0 & ->)|(NP & _)]; [|exfalso; apply NP; exists c; auto].
      assert (c = c0) as -> by (apply (unique_component r); auto; congruence). exact V1.
    + intros V. assert (b = 1) as <-; [|exact Vx]. destruct O as [(I0 & E0 & ->)|(NP & o & Io & Eo & E0 & _)].
      * pose proof (V c0 I0 E0) as (j & u & Eu & Du & E1). destruct Vb as (j' & u' & Eu' & Du' & Eb). assert (j = j') as -> by (apply (contiguous_unique (r_periods r) d j j' u u'); auto). congruence.
      * destruct Vb as (j & u & _ & _ & Eb). rewrite E0 in Eb. cbn in Eb. apply nth_error_In in Eb. now apply repeat_spec in Eb.
  - destruct (c_power (add_missing names c0)) as [p|]; [destruct F8 as (p' & E & _); eauto|eauto].
  - intros n. rewrite EN, names_after by exact N. rewrite NM. destruct (origin_keys _ _ _ _ _ n PR PO O). tauto.
  - destruct O as [(I0 & E0 & _)|(NP & o & Io & Eo & E0 & _)].
    + left. exists c0. repeat split; auto; congruence.
    + right. split; [exact NP|]. exists o. rewrite F4, A2, F3, A3, E0. auto.
Qed.

Lemma units_agree : forall changed reference T i x y, proper changed -> proper reference -> side_ok changed reference T i x -> side_ok reference changed T i y ->
  (c_unit x = c_unit y <-> same_units changed reference i).
Proof.
  intros changed reference T i x y PC PR (_ & _ & _ & _ & _ & _ & _ & X) (_ & _ & _ & _ & _ & _ & _ & Y). unfold same_units.
  destruct X as [(c & Ic & Ec & Ux & _)|(NP & o & Io & Eo & Ux & _)]; destruct Y as [(c2 & Ic2 & Ec2 & Uy & _)|(NP2 & o2 & Io2 & Eo2 & Uy & _)].
  - rewrite Ux, Uy. split.
    + intros E c' c2' I1 I2 E1 E2. assert (c' = c) as -> by (apply (unique_component changed); auto; congruence). assert (c2' = c2) as -> by (apply (unique_component reference); auto; congruence). exact E.
    + intros H. now apply H.
  - split; [intros _ c' c2' _ I2 _ E2; exfalso; apply NP2; exists c2'; auto|]. intros _. assert (o2 = c) as -> by (apply (unique_component changed); auto; congruence). congruence.
  - split; [intros _ c' c2' I1 _ E1 _; exfalso; apply NP; exists c'; auto|]. intros _. assert (o = c2) as -> by (apply (unique_component reference); auto; congruence). congruence.
  - exfalso. apply NP. exists o2. auto.
Qed.

Definition delta_ok (changed reference : results) (T : list period) (z : component) : Prop :=
  c_periods z = T /\
  (forall q d w, covers T d -> (has_value T z q d w <-> compared changed reference (id_of z) q /\
     exists v1 v2, amount changed (id_of z) q d v1 /\ amount reference (id_of z) q d v2 /\ w = nsub v1 v2)) /\
  (forall d, covers T d -> (value_on T (c_valid z) d 1 <-> valid_in changed (id_of z) d /\ valid_in reference (id_of z) d)).

Lemma compared_comm : forall a b i q, compared a b i q <-> compared b a i q.
Proof. intros a b i [| |n]; cbn; tauto. Qed.

Lemma and_valid : forall T a b d, contiguous T -> covers T d -> (exists x, value_on T a d x /\ (x = 0 \/ x = 1)) -> (exists x, value_on T b d x /\ (x = 0 \/ x = 1)) ->
  (value_on T (map2 (fun x y => if x =? 0 then x else y) a b) d 1 <-> value_on T a d 1 /\ value_on T b d 1).
Proof.
  intros T a b d C _ (x & (i & p & Ep & Dp & Ex) & Hx) (y & (j & q & Eq & Dq & Ey) & Hy).
  assert (i = j) as -> by (apply (contiguous_unique T d i j p q); auto). assert (q = p) as -> by congruence.
  assert (forall l v, nth_error l j = Some v -> (value_on T l d 1 <-> v = 1)) as G.
  { intros l v Ev. split; [|intros ->; exists j, p; auto]. intros (k & r & Er & Dr & E1). assert (k = j) as -> by (apply (contiguous_unique T d k j r p); auto). congruence. }
  rewrite (G a x Ex), (G b y Ey), (G _ (if x =? 0 then x else y)) by (rewrite nth_error_map2, Ex, Ey; reflexivity).
  destruct Hx as [->| ->]; cbn; [split; [discriminate|intros [E _]; discriminate]|tauto].
Qed.

Lemma assemble : forall changed reference T ids pairs, proper changed -> proper reference -> contiguous T ->
  (exists is, picks 0 (r_periods changed) T = Ok is /\ inside (r_periods changed) T is) ->
  (exists is, picks 0 (r_periods reference) T = Ok is /\ inside (r_periods reference) T is) ->
  NoDup ids -> Forall2 (pair_ok changed reference) ids pairs ->
  exists xs ys zs errs, mapM (fun c => fit_component c T) (map fst pairs) = Ok xs /\ mapM (fun c => fit_component c T) (map snd pairs) = Ok ys /\
    subtract_components (zip xs ys) = Ok (zs, errs) /\
    Forall2 (side_ok changed reference T) ids xs /\ Forall2 (side_ok reference changed T) ids ys /\
    (forall z, In z zs -> delta_ok changed reference T z) /\ NoDup (map id_of zs) /\
    (forall i, In i (map id_of zs) <-> In i ids /\ same_units changed reference i) /\
    (forall i, In i errs <-> In i ids /\ ~ same_units changed reference i).
Proof.
  intros changed reference T ids pairs PC PR CT (isC & EC & IC) (isR & ER & IR) N F. induction F as [|i [x0 y0] ids pairs P F IH].
  - exists [], [], [], []. cbn. split; [reflexivity|]. split; [reflexivity|]. split; [reflexivity|]. split; [constructor|]. split; [constructor|]. split; [intros z []|]. split; [constructor|]. split; intros j; tauto.
  - inversion N as [|? ? NI N']; subst. destruct (IH N') as (xs & ys & zs & errs & E1 & E2 & E3 & F1 & F2 & D & NZ & IZ & IE).
    destruct P as (c0 & d0 & psx & psy & names & Ox & Oy & NN & NM & Ex0 & Ey0). cbn [fst snd] in Ex0, Ey0. subst x0 y0.
    assert (exists x, fit_component (add_missing names c0) T = Ok x /\ side_ok changed reference T i x) as (x & Fx & Sx).
    { destruct Ox as [(I0 & E0 & ->)|(NP & o & Io & Eo & Ec0 & ->)]; [apply (side_fit _ _ _ _ _ (r_periods changed) _ isC)|apply (side_fit _ _ _ _ _ (r_periods reference) _ isR)]; auto; [left; auto|right; split; [exact NP|exists o; auto]]. }
    assert (exists y, fit_component (add_missing names d0) T = Ok y /\ side_ok reference changed T i y) as (y & Fy & Sy).
    { assert (forall n, In n names <-> reported reference i (Emission n) \/ reported changed i (Emission n)) as NM' by (intros n; rewrite NM; tauto).
      destruct Oy as [(I0 & E0 & ->)|(NP & o & Io & Eo & Ec0 & ->)]; [apply (side_fit _ _ _ _ _ (r_periods reference) _ isR)|apply (side_fit _ _ _ _ _ (r_periods changed) _ isC)]; auto; [left; auto|right; split; [exact NP|exists o; auto]]. }
    pose proof (units_agree _ _ _ _ _ _ PC PR Sx Sy) as UA.
    pose proof Sx as (X1 & X2 & X3 & X4 & X5 & X6 & X7 & _). pose proof Sy as (Y1 & Y2 & Y3 & Y4 & Y5 & Y6 & Y7 & _).
    assert (id_of x = id_of y) as EXY by congruence. assert (forall n, In n (map fst (c_emissions x)) <-> In n (map fst (c_emissions y))) as KXY by (intros n; rewrite X7, Y7; tauto).
    destruct (subtract_ok T x y CT EXY X2 Y2 X5 Y5 KXY X6 Y6) as [S1 S2].
    cbn [map fst snd mapM]. rewrite Fx, Fy. cbn [bind]. rewrite E1, E2. cbn [bind].
    destruct (string_dec (c_unit x) (c_unit y)) as [EU|NU].
    + destruct (S1 EU) as (z & Ez & Z1 & Z2 & Z3 & _ & _ & Z4). exists (x :: xs), (y :: ys), (z :: zs), errs.
      split; [reflexivity|]. split; [reflexivity|]. cbn [zip combine subtract_components]. rewrite Ez. unfold zip in E3. rewrite E3. cbn [bind fst snd]. split; [reflexivity|].
      split; [constructor; auto|]. split; [constructor; auto|]. assert (id_of z = i) as Zi by congruence. split; [|split; [|split]].
      * intros z' [<-|Hz]; [|now apply D]. unfold delta_ok. rewrite Zi. split; [exact Z2|]. split.
        -- intros q d w Dd. rewrite Z4. split.
           ++ intros (v1 & v2 & V1 & V2 & Ew). apply X3 in V1 as [K1 A1]; [|exact Dd]. apply Y3 in V2 as [K2 A2]; [|exact Dd]. split; [exact K1|]. eauto.
           ++ intros (K & v1 & v2 & A1 & A2 & Ew). exists v1, v2. split; [apply X3; auto|]. split; [apply Y3; auto; split; auto; now apply compared_comm|exact Ew].
        -- intros d Dd. rewrite Z3. destruct (X4 d Dd) as [XV1 XV2]. destruct (Y4 d Dd) as [YV1 YV2]. rewrite (and_valid T _ _ d CT Dd XV1 YV1), XV2, YV2. tauto.
      * cbn [map]. constructor; [|exact NZ]. rewrite Zi. intros H. apply IZ in H as [H _]. contradiction.
      * intros j. cbn [map In]. rewrite IZ, Zi. split.
        -- intros [<-|[H1 H2]]; [split; [now left|now apply UA]|split; [now right|exact H2]].
        -- intros [[<-|H1] H2]; auto.
      * intros j. rewrite IE. split; [intros [H1 H2]; split; [now right|exact H2]|]. intros [[<-|H1] H2]; [|auto]. exfalso. apply H2. now apply UA.
    + exists (x :: xs), (y :: ys), zs, (i :: errs). split; [reflexivity|]. split; [reflexivity|]. cbn [zip combine subtract_components]. rewrite (S2 NU). unfold zip in E3. rewrite E3. cbn [bind fst snd].
      split; [now rewrite X1|]. split; [constructor; auto|]. split; [constructor; auto|]. split; [exact D|]. split; [exact NZ|]. split.
      * intros j. rewrite IZ. split; [intros [H1 H2]; split; [now right|exact H2]|]. intros [[<-|H1] H2]; [|auto]. exfalso. apply NU. now apply UA.
      * intros j. cbn [In]. rewrite IE. split.
        -- intros [<-|[H1 H2]]; [split; [now left|]|split; [now right|exact H2]]. intros H. apply NU. now apply UA.
        -- intros [[<-|H1] H2]; auto.
Qed.

(** Proofs about the results of consumers: putting the results of several models together. *)
From Coq Require Import PeanoNat String.
From Verif Require Import QcTac Num Time_Model Time_Spec Time_Proofs Time_Proofs2 Units_Model Rates_Model Rates_Spec Rates_Proofs Rates_Proofs4 Rates_Proofs5
  Base BaseLemmas Export_Proofs2 Emitters_Proofs5 Consumer_Model.
Local Open Scope list_scope.
Local Open Scope Z_scope.

Section Concatenate.
  Context {R V : Type}.
  Variable periods : R -> list period.
  Variable attribute : R -> option (list V).
  Variable unit : R -> unit_.
  Variable allow_none : bool.
  Variable fill : V.

  (** the values of a result, the fill value where it has none *)
  Definition values_of (r : R) : list V := match attribute r with Some vs => vs | None => repeat fill (List.length (periods r)) end.
  Definition series_of (r : R) : series V := mkSeries (periods r) (values_of r) (unit r).

  Lemma attribute_series_all : forall results acc,
    (forall r, In r results -> match attribute r with Some vs => List.length vs = List.length (periods r) | None => allow_none = false end) ->
    attribute_series periods attribute unit allow_none fill results acc = Ok (Some (acc ++ map series_of results)).
  Proof.
    induction results as [|r rs IH]; intros acc H; cbn [attribute_series map]; [now rewrite app_nil_r|].
    pose proof (H r (or_introl eq_refl)) as Hr. assert (forall x, In x rs -> match attribute x with Some vs => List.length vs = List.length (periods x) | None => allow_none = false end) as H' by (intros x I; apply H; now right).
    unfold series_of at 1, values_of. destruct (attribute r) as [vs|].
    - unfold make_series. rewrite Hr, Nat.eqb_refl. cbn [bind]. rewrite (IH _ H'), <- app_assoc. reflexivity.
    - rewrite Hr in *. unfold make_series. rewrite repeat_length, Nat.eqb_refl. cbn [bind]. rewrite (IH _ H'), <- app_assoc. reflexivity.
  Qed.
  Lemma attribute_series_none : forall before r after acc, allow_none = true -> attribute r = None ->
    (forall x, In x before -> match attribute x with Some vs => List.length vs = List.length (periods x) | None => True end) ->
    attribute_series periods attribute unit allow_none fill (before ++ r :: after) acc = Ok None.
  Proof.
    induction before as [|x before IH]; intros r after acc A N H; cbn [attribute_series app].
    - now rewrite N, A.
    - pose proof (H x (or_introl eq_refl)) as Hx. destruct (attribute x) as [vs|]; [|now rewrite A].
      unfold make_series. rewrite Hx, Nat.eqb_refl. cbn [bind]. apply IH; auto. intros y I. apply H. now right.
  Qed.

  Lemma one_unit_all : forall u (l : list unit_), l <> [] -> (forall x, In x l -> x = u) -> one_unit l = true.
  Proof.
    intros u [|a l] N H; [congruence|]. cbn [one_unit]. apply forallb_forall. intros x I. apply unit_eqb_eq.
    rewrite (H a (or_introl eq_refl)), (H x (or_intror I)). reflexivity.
  Qed.

  Lemma spans_of : forall p ps, spans (p :: ps) (p_start p) (p_end (last ps p)).
  Proof. intros p ps. exists p, (last ps p), ps. split; [reflexivity|]. split; [apply last_shift|]. auto. Qed.
  Lemma spans_app : forall p ps q qs, contiguous ((p :: ps) ++ (q :: qs)) -> p_end (last ps p) = p_start q.
  Proof.
    intros p ps q qs. revert p. induction ps as [|x ps IH]; intros p C; cbn [app] in C; apply contiguous_cons2 in C as (_ & E & C).
    - exact E.
    - rewrite last_shift. apply IH. exact C.
  Qed.
  Lemma reduce_all : forall r rs, (forall x, In x (r :: rs) -> periods x <> [] /\ List.length (values_of x) = List.length (periods x) /\ unit x = unit r) ->
    contiguous (flat_map periods (r :: rs)) ->
    reduce_extend (map series_of (r :: rs)) = Ok (mkSeries (flat_map periods (r :: rs)) (flat_map values_of (r :: rs)) (unit r)).
  Proof.
    intros r rs H C. cbn [map reduce_extend].
    assert (forall ps vs, ps <> [] -> List.length vs = List.length ps -> contiguous (ps ++ flat_map periods rs) ->
      fold_left (fun acc t => do a <- acc; series_extend a t) (map series_of rs) (Ok (mkSeries ps vs (unit r))) = Ok (mkSeries (ps ++ flat_map periods rs) (vs ++ flat_map values_of rs) (unit r))) as G.
    { assert (forall x, In x rs -> periods x <> [] /\ List.length (values_of x) = List.length (periods x) /\ unit x = unit r) as H' by (intros x I; apply H; now right).
      clear H C. induction rs as [|x rs IH]; intros ps vs N L C; cbn [map flat_map fold_left] in *; [now rewrite !app_nil_r|].
      destruct (H' x (or_introl eq_refl)) as (Nx & Lx & Ux). cbn [bind].
      pose proof C as C0. rewrite app_assoc in C0. pose proof (contiguous_app_inv _ _ C0) as [C1 _]. pose proof (contiguous_app_inv _ _ C1) as [Ca Cb].
      destruct ps as [|p ps]; [congruence|]. destruct (periods x) as [|q qs] eqn:Ex; [congruence|].
      destruct (series_extend_proof V (mkSeries (p :: ps) vs (unit r)) (series_of x) (p_start p) (p_end (last ps p)) (p_start q) (p_end (last qs q))) as (E & _).
      - unfold well_formed. cbn [s_periods s_values]. split; [exact Ca|]. split; [discriminate|exact L].
      - unfold well_formed, series_of. cbn [s_periods s_values]. rewrite Ex. split; [exact Cb|]. split; [discriminate|exact Lx].
      - cbn [s_unit series_of]. now rewrite Ux.
      - cbn [s_periods]. apply spans_of.
      - cbn [s_periods series_of]. rewrite Ex. apply spans_of.
      - rewrite E by (now apply spans_app with (qs := qs)). unfold series_of. cbn [s_periods s_values s_unit].
        rewrite Ex, IH; [now rewrite <- !app_assoc| |discriminate| |exact C0].
        + intros y I. apply H'. now right.
        + rewrite !app_length. congruence. }
    destruct (H r (or_introl eq_refl)) as (N & L & _). unfold series_of at 2. rewrite G; auto.
  Qed.
End Concatenate.

Lemma flat_map_lengths : forall A B C (f : A -> list B) (g : A -> list C) l, (forall y, In y l -> List.length (g y) = List.length (f y)) ->
  List.length (flat_map g l) = List.length (flat_map f l).
Proof.
  intros A B C f g l. induction l as [|y l IH]; intros L; [reflexivity|]. cbn [flat_map]. rewrite !app_length, IH; [|intros w I; apply L; now right].
  now rewrite (L y (or_introl eq_refl)).
Qed.
(** the positions of a concatenation *)
Lemma flat_map_nth : forall A B C (f : A -> list B) (g : A -> list C) l x i b, (forall y, In y l -> List.length (g y) = List.length (f y)) ->
  In x l -> nth_error (f x) i = Some b -> exists k, nth_error (flat_map f l) k = Some b /\ nth_error (flat_map g l) k = nth_error (g x) i.
Proof.
  intros A B C f g l x i b. induction l as [|y l IH]; intros L I N; [destruct I|]. destruct I as [->|I]; cbn [flat_map].
  - exists i. assert (i < List.length (f x))%nat as Hi by (apply nth_error_Some; congruence). split; rewrite nth_error_app1; auto. rewrite L; [exact Hi|now left].
  - destruct IH as (k & K1 & K2); auto. { intros z Hz. apply L. now right. }
    exists (List.length (f y) + k)%nat. split; (rewrite nth_error_app2; [|rewrite ?(L y (or_introl eq_refl)); lia]);
      rewrite ?(L y (or_introl eq_refl)); replace (List.length (f y) + k - List.length (f y))%nat with k by lia; auto.
Qed.

(** ** C100 *)
Lemma concatenated_proof : forall R V (periods : R -> list period) (attribute : R -> option (list V)) unit allow_none fill r rs all,
  let results := r :: rs in
  (* every result has periods, a value for each, and the same unit; the periods of the results follow each other *)
  (forall x, In x results -> periods x <> [] /\ unit x = unit r) ->
  (forall x vs, In x results -> attribute x = Some vs -> List.length vs = List.length (periods x)) ->
  contiguous (flat_map periods results) -> NoDup all -> (forall x p, In x results -> In p (periods x) -> In p all) ->
  (* the attribute is there, or may be missing *)
  ((forall x, In x results -> attribute x = None -> allow_none = false) ->
   exists s, concatenated periods attribute unit allow_none fill results all = Ok (Some s) /\
     s_periods s = all /\ s_unit s = unit r /\ List.length (s_values s) = List.length all /\
     forall k q, nth_error all k = Some q ->
       (forall x i vs, In x results -> nth_error (periods x) i = Some q -> attribute x = Some vs -> nth_error (s_values s) k = nth_error vs i) /\
       (forall x, In x results -> In q (periods x) -> attribute x = None -> nth_error (s_values s) k = Some fill) /\
       ((forall x, In x results -> ~ In q (periods x)) -> nth_error (s_values s) k = Some fill)) /\
  (* a result without the attribute: nothing is reported for any of them *)
  (forall x, In x results -> attribute x = None -> allow_none = true -> concatenated periods attribute unit allow_none fill results all = Ok None).
Proof.
  intros R V periods attribute unit allow_none fill r rs all results H1 H2 C ND Sub. split.
  - intros An.
    assert (forall x, In x results -> match attribute x with Some vs => List.length vs = List.length (periods x) | None => allow_none = false end) as Ha.
    { intros x I. destruct (attribute x) as [vs|] eqn:E; [now apply (H2 x)|now apply (An x)]. }
    assert (forall x, In x results -> List.length (values_of periods attribute fill x) = List.length (periods x)) as Lv.
    { intros x I. unfold values_of. destruct (attribute x) as [vs|] eqn:E; [now apply (H2 x)|apply repeat_length]. }
    unfold concatenated. rewrite (attribute_series_all periods attribute unit allow_none fill results [] Ha). cbn [bind app].
    rewrite (one_unit_all (unit r)); [|discriminate|].
    2:{ intros u I. rewrite map_map in I. apply in_map_iff in I as (x & <- & I). cbn [s_unit series_of]. now apply H1. }
    cbn [negb]. unfold results. rewrite (reduce_all periods attribute unit fill r rs); [|intros x I; destruct (H1 x I); auto|exact C].
    cbn [bind]. destruct (fill_proof V (mkSeries (flat_map periods (r :: rs)) (flat_map (values_of periods attribute fill) (r :: rs)) (unit r)) all fill) as (vs & E & L & P); cbn [s_periods s_values s_unit] in *.
    + apply flat_map_lengths. exact Lv.
    + now apply periods_NoDup.
    + exact ND.
    + intros p I. apply in_flat_map in I as (x & Ix & I). now apply (Sub x).
    + rewrite E. cbn [bind]. eexists. split; [reflexivity|]. cbn [s_periods s_values s_unit]. split; [reflexivity|]. split; [reflexivity|]. split; [exact L|].
      intros k q Q. destruct (P k q Q) as [P1 P2]. split; [|split].
      * intros x i ws Ix Ni Ax. destruct (flat_map_nth _ _ _ periods (values_of periods attribute fill) results x i q Lv Ix Ni) as (j & J1 & J2).
        rewrite (P1 j J1). unfold results in J2. rewrite J2. unfold values_of. now rewrite Ax.
      * intros x Ix Iq Ax. apply In_nth_error in Iq as (i & Ni). destruct (flat_map_nth _ _ _ periods (values_of periods attribute fill) results x i q Lv Ix Ni) as (j & J1 & J2).
        rewrite (P1 j J1). unfold results in J2. rewrite J2. unfold values_of. rewrite Ax. assert (i < List.length (periods x))%nat as Hi by (apply nth_error_Some; congruence).
        clear - Hi. revert Hi. generalize (List.length (periods x)). induction i as [|i IH]; intros [|m] Hi; cbn; try lia; auto. apply IH. lia.
      * intros Hn. apply P2. intros I. apply in_flat_map in I as (x & Ix & I). now apply (Hn x).
  - intros x Ix Ax At. apply in_split in Ix as (before & after & E). unfold concatenated. rewrite E. rewrite attribute_series_none; auto.
    intros y Iy. destruct (attribute y) eqn:Ey; auto. apply (H2 y); auto. rewrite E. apply in_or_app. now left.
Qed.

Lemma attribute_series_app : forall R V (periods : R -> list period) (attribute : R -> option (list V)) unit allow_none fill before after acc,
  (forall r, In r before -> match attribute r with Some vs => List.length vs = List.length (periods r) | None => allow_none = false end) ->
  attribute_series periods attribute unit allow_none fill (before ++ after) acc =
  attribute_series periods attribute unit allow_none fill after (acc ++ map (series_of periods attribute unit fill) before).
Proof.
  intros R V periods attribute unit allow_none fill. induction before as [|r rs IH]; intros after acc H; cbn [app map]; [now rewrite app_nil_r|].
  pose proof (H r (or_introl eq_refl)) as Hr. assert (forall x, In x rs -> match attribute x with Some vs => List.length vs = List.length (periods x) | None => allow_none = false end) as H' by (intros x I; apply H; now right).
  cbn [attribute_series]. unfold series_of at 1, values_of. destruct (attribute r) as [vs|].
  - unfold make_series. rewrite Hr, Nat.eqb_refl. cbn [bind]. rewrite (IH _ _ H'), <- app_assoc. reflexivity.
  - rewrite Hr in *. unfold make_series. rewrite repeat_length, Nat.eqb_refl. cbn [bind]. rewrite (IH _ _ H'), <- app_assoc. reflexivity.
Qed.

(** C100: what is refused *)
Lemma concatenated_refused_proof : forall R V (periods : R -> list period) (attribute : R -> option (list V)) unit allow_none fill all,
  (* no results *)
  concatenated periods attribute unit allow_none fill [] all = Err AssertionError /\
  forall results, results <> [] -> (forall x, In x results -> periods x <> [] /\ exists vs, attribute x = Some vs /\ List.length vs = List.length (periods x)) ->
    (* different units *)
    ((exists x y, In x results /\ In y results /\ unit x <> unit y) ->
       concatenated periods attribute unit allow_none fill results all = Err AssertionError) /\
    (* a gap or an overlap: a result that neither begins where those before it end nor ends where they begin *)
    (forall before r x after b bs p ps q qs, results = (before ++ [r]) ++ x :: after -> (forall y, In y results -> unit y = unit r) ->
       contiguous (flat_map periods (before ++ [r])) -> flat_map periods (before ++ [r]) = b :: bs ->
       contiguous (periods x) -> periods r = p :: ps -> periods x = q :: qs ->
       p_end (last ps p) <> p_start q -> p_end (last qs q) <> p_start b ->
       concatenated periods attribute unit allow_none fill results all = Err ValueError).
Proof.
  intros R V periods attribute unit allow_none fill all. split; [reflexivity|]. intros results N H.
  assert (forall x, In x results -> match attribute x with Some vs => List.length vs = List.length (periods x) | None => allow_none = false end) as Ha.
  { intros x I. destruct (H x I) as (_ & vs & -> & L). exact L. }
  assert (forall x, In x results -> List.length (values_of periods attribute fill x) = List.length (periods x)) as Lv.
  { intros x I. unfold values_of. destruct (H x I) as (_ & vs & -> & L). exact L. }
  unfold concatenated. rewrite (attribute_series_all periods attribute unit allow_none fill results [] Ha). cbn [bind app]. split.
  - intros (x & y & Ix & Iy & D). replace (one_unit (map s_unit (map (series_of periods attribute unit fill) results))) with false; [reflexivity|]. symmetry.
    rewrite map_map. cbn [s_unit series_of]. destruct results as [|z zs]; [congruence|]. cbn [map one_unit].
    destruct (forallb (unit_eqb (unit z)) (map unit zs)) eqn:F; auto. exfalso. apply D.
    assert (forall w, In w (z :: zs) -> unit w = unit z) as U.
    { intros w [->|I]; auto. rewrite forallb_forall in F. specialize (F (unit w) (in_map unit _ _ I)). apply unit_eqb_eq in F. auto. }
    rewrite (U x Ix), (U y Iy). reflexivity.
  - intros before r x after b bs p ps q qs E U C Eb Cx Er Ex G1 G2.
    rewrite (one_unit_all (unit r)).
    2:{ intros E0. apply map_eq_nil in E0. apply map_eq_nil in E0. congruence. }
    2:{ intros u I. rewrite map_map in I. apply in_map_iff in I as (y & <- & I). cbn [s_unit series_of]. now apply U. }
    cbn [negb]. assert (reduce_extend (map (series_of periods attribute unit fill) results) = Err ValueError) as ->; [|reflexivity].
    assert (forall y, In y (before ++ [r]) -> In y results) as Sub1 by (intros y I; rewrite E; apply in_or_app; now left).
    rewrite E, map_app. destruct (before ++ [r]) as [|z zs] eqn:Ez; [destruct before; discriminate|].
    pose proof (reduce_all periods attribute unit fill z zs) as Rd. cbn [map app reduce_extend] in Rd |- *. rewrite fold_left_app. rewrite Rd; [|intros y I; destruct (H y (Sub1 y I)); split; auto; split; auto; rewrite (U y), (U z); auto; apply Sub1; auto; now left|exact C].
    cbn [fold_left bind]. destruct (series_extend_proof V (mkSeries (flat_map periods (z :: zs)) (flat_map (values_of periods attribute fill) (z :: zs)) (unit z)) (series_of periods attribute unit fill x) (p_start b) (p_end (last ps p)) (p_start q) (p_end (last qs q))) as (_ & _ & S3).
    + unfold well_formed. cbn [s_periods s_values]. split; [exact C|]. split; [rewrite Eb; discriminate|].
      assert (forall y, In y (z :: zs) -> List.length (values_of periods attribute fill y) = List.length (periods y)) as L' by (intros y I; apply Lv; auto).
      now apply flat_map_lengths.
    + unfold well_formed, series_of. cbn [s_periods s_values]. rewrite Ex in *. split; [exact Cx|]. split; [discriminate|]. rewrite <- Ex. apply Lv. rewrite E. apply in_or_app. right. now left.
    + cbn [s_unit series_of]. rewrite (U z), (U x); auto; rewrite E; [apply in_or_app; right; now left|now left].
    + cbn [s_periods]. rewrite <- Ez, flat_map_app. cbn [flat_map]. rewrite app_nil_r, Er.
      rewrite <- Ez, flat_map_app in Eb. cbn [flat_map] in Eb. rewrite app_nil_r, Er in Eb. rewrite Eb. exists b, (last (b :: bs) b), bs. split; [reflexivity|]. split; [reflexivity|]. split; [reflexivity|].
      rewrite <- Eb. f_equal. clear. induction (flat_map periods before) as [|w ws IH].
      * cbn [app]. rewrite last_shift. reflexivity.
      * cbn [app]. rewrite last_shift. destruct (ws ++ p :: ps) eqn:X; [destruct ws; discriminate|]. rewrite <- X. rewrite <- IH. rewrite X. now rewrite !last_shift.
    + cbn [s_periods series_of]. rewrite Ex. apply spans_of.
    + rewrite S3; auto. clear. induction (map (series_of periods attribute unit fill) after) as [|y ys IH]; cbn; auto.
Qed.

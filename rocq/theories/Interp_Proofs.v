From Coq Require Import PeanoNat String.
From Verif Require Import QcTac Base BaseLemmas Num Interp_Model Interp_Spec Time_Proofs.
Local Open Scope list_scope.
Local Open Scope Qc_scope.

(** points with strictly increasing abscissas *)
Fixpoint rising (pts : list (Qc * Qc)) : Prop :=
  match pts with
  | [] => True
  | p :: rest => (forall q, In q rest -> fst p < fst q) /\ rising rest
  end.

Lemma sort_rising : forall l, NoDup (map fst l) -> rising (sort (fun p q : Qc * Qc => Qcleb (fst p) (fst q)) l).
Proof.
  assert (forall l (p : Qc * Qc), ~ In (fst p) (map fst l) -> rising l ->
    rising (insert_sorted (fun p q => Qcleb (fst p) (fst q)) p l)) as Hins.
  { induction l as [|q l IH]; intros p Hn Hr; cbn [insert_sorted].
    - cbn. split; auto. intros q [].
    - cbn in Hn. destruct Hr as [Hq Hr]. destruct (Qcleb (fst p) (fst q)) eqn:E.
      + apply Qcleb_le in E. assert (fst p < fst q) as L.
        { apply Qcle_lt_or_eq in E as [E|E]; auto. elim Hn. left. auto. }
        split; [|split; auto]. intros r [<-|Hrin]; auto. apply Hq in Hrin. qc_lra.
      + apply Qcleb_gt in E. split.
        * intros r Hrin. apply (Permutation_in _ (Permutation_sym (insert_sorted_perm _ _ _ _))) in Hrin as [<-|Hrin]; auto.
        * apply IH; auto. }
  induction l as [|p l IH]; intros H; cbn [sort]; [exact I|]. inversion H; subst.
  apply Hins; [|now apply IH]. intros Hin. apply in_map_iff in Hin as (q & E & Hq).
  apply (Permutation_in _ (Permutation_sym (sort_perm _ _ _))) in Hq. apply H2. rewrite <- E. now apply in_map.
Qed.

Lemma np_interp_point : forall pts x y, rising pts -> In (x, y) pts -> np_interp pts x = Some y.
Proof.
  induction pts as [|[a ya] pts IH]; intros x y Hr Hin; [destruct Hin|].
  destruct Hr as [Ha Hr]. cbn [np_interp]. destruct pts as [|[b yb] pts'].
  - destruct Hin as [E|[]]. congruence.
  - assert (a < b) as Hab by (apply (Ha (b, yb)); now left). destruct Hin as [E|Hin].
    + injection E as <- <-. replace (Qcltb a b) with true by (symmetry; now apply Qcltb_lt).
      f_equal. replace (a - a) with 0 by ring. ring.
    + assert (b <= x) as Hbx.
      { destruct Hin as [E|Hin]; [injection E as -> ->; apply Qcle_refl|]. destruct Hr as [Hb _]. apply Hb in Hin. cbn in Hin. now apply Qclt_le_weak. }
      replace (Qcltb x b) with false by (symmetry; now apply Qcltb_ge). now apply IH.
Qed.

Lemma np_interp_between : forall pts x a ya b yb, rising pts -> In (a, ya) pts -> In (b, yb) pts -> a < x -> x < b ->
  (forall c yc, In (c, yc) pts -> c <= a \/ b <= c) -> np_interp pts x = Some (ya + (yb - ya) * ((x - a) / (b - a))).
Proof.
  induction pts as [|[c yc] pts IH]; intros x a ya b yb Hr Ha Hb L1 L2 Hn; [destruct Ha|].
  destruct Hr as [Hc Hr]. cbn [np_interp]. destruct pts as [|[d yd] pts'].
  - destruct Ha as [Ea|[]], Hb as [Eb|[]]. assert (a = b) by congruence. subst. exfalso. qc_lra.
  - assert (c < d) as Hcd by (apply (Hc (d, yd)); now left).
    assert (forall q, In q ((d, yd) :: pts') -> d <= fst q) as Hd.
    { intros q [<-|Hq]; [apply Qcle_refl|]. destruct Hr as [Hd _]. apply Hd in Hq. cbn in Hq. now apply Qclt_le_weak. }
    destruct Ha as [Ea|Ha].
    + injection Ea as -> ->. destruct Hb as [Eb|Hb]; [assert (a = b) by congruence; subst; exfalso; qc_lra|].
      assert (d = b) as ->.
      { pose proof (Hd _ Hb) as H1. cbn [fst] in H1. destruct (Hn d yd) as [H|H]; [right; now left|exfalso; qc_lra|]. now apply Qcle_antisym. }
      destruct Hb as [Eb|Hb].
      2:{ destruct Hr as [Hr _]. apply Hr in Hb. cbn in Hb. exfalso; qc_lra. }
      injection Eb as ->. replace (Qcltb x b) with true by (symmetry; now apply Qcltb_lt). f_equal. field. intros E. qc_lra.
    + assert (d <= a) as Hda by (pose proof (Hd _ Ha) as H1; exact H1).
      destruct Hb as [Eb|Hb]; [injection Eb as -> ->; exfalso; qc_lra|].
      replace (Qcltb x d) with false by (symmetry; apply Qcltb_ge; qc_lra).
      apply (IH x a ya b yb Hr Ha Hb L1 L2). intros e ye He. apply (Hn e ye). now right.
Qed.

(** two neighbours around any abscissa inside the range *)
Lemma interpolates_exists : forall pts x x0 y0 rest, pts = (x0, y0) :: rest -> rising pts -> x0 <= x ->
  x <= fst (last rest (x0, y0)) -> exists y, interpolates pts x y.
Proof.
  induction pts as [|p pts IH]; intros x x0 y0 rest E Hr L1 L2; [discriminate|]. injection E as -> ->.
  destruct rest as [|[x1 y1] rest].
  - cbn in L2. assert (x = x0) as -> by (apply Qcle_antisym; assumption). exists y0. left. now left.
  - destruct (Qclt_le_dec x x1) as [L|L].
    + destruct (Qc_eq_dec x x0) as [->|N]; [exists y0; left; now left|].
      assert (x0 < x) as L3 by (apply Qcle_lt_or_eq in L1 as [?|?]; auto; congruence).
      eexists. right. exists x0, y0, x1, y1. split; [now left|]. split; [right; now left|]. split; [exact L3|]. split; [exact L|].
      split; [|reflexivity]. intros c yc [Ec|[Ec|Hc]].
      * injection Ec as -> ->. left. apply Qcle_refl.
      * injection Ec as -> ->. right. apply Qcle_refl.
      * destruct Hr as [_ [Hr _]]. apply Hr in Hc. cbn in Hc. right. now apply Qclt_le_weak.
    + destruct Hr as [Ha Hr].
      rewrite last_shift in L2.
      destruct (IH x x1 y1 rest eq_refl Hr L) as (y & Hy); [exact L2|]. exists y.
      destruct Hy as [Hy|(a & ya & b & yb & I1 & I2 & M1 & M2 & Hn & ->)]; [left; now right|].
      right. exists a, ya, b, yb. split; [now right|]. split; [now right|]. split; [exact M1|]. split; [exact M2|]. split; [|reflexivity].
      intros c yc [Ec|Hc]; [|now apply (Hn c yc)]. injection Ec as -> ->. left.
      pose proof (Ha _ I1) as H. cbn in H. now apply Qclt_le_weak.
Qed.

Lemma rising_last : forall pts x0 y0, rising ((x0, y0) :: pts) -> forall c yc, In (c, yc) ((x0, y0) :: pts) ->
  x0 <= c /\ c <= fst (last pts (x0, y0)).
Proof.
  induction pts as [|[x1 y1] pts IH]; intros x0 y0 Hr c yc Hin.
  - destruct Hin as [E|[]]. injection E as -> ->. split; apply Qcle_refl.
  - rewrite last_shift. destruct Hr as [H0 Hr]. assert (x0 < x1) as L by (apply (H0 (x1, y1)); now left).
    destruct Hin as [E|Hin].
    + injection E as -> ->. split; [apply Qcle_refl|]. destruct (IH x1 y1 Hr x1 y1) as [_ H]; [now left|]. qc_lra.
    + destruct (IH x1 y1 Hr c yc Hin) as [H1 H2]. split; [qc_lra|exact H2].
Qed.

Theorem interpolation_proof : forall xs ys below above f, NoDup xs -> make_interpolator xs ys below above = Ok f ->
  let data := combine xs ys in
  (forall x y, interpolates data x y -> interpolate_1d f (Some x) = Some y) /\
  (forall x, in_range data x -> exists y, interpolates data x y /\ interpolate_1d f (Some x) = Some y) /\
  (forall x, (forall a ya, In (a, ya) data -> x < a) -> interpolate_1d f (Some x) = below) /\
  (forall x, (forall a ya, In (a, ya) data -> a < x) -> interpolate_1d f (Some x) = above) /\
  interpolate_1d f None = None.
Proof.
  intros xs ys below above f Hnd E data. unfold make_interpolator in E.
  destruct (Nat.eqb (List.length xs) (List.length ys)) eqn:El; cbn [negb] in E; [|discriminate]. apply Nat.eqb_eq in El.
  assert (f = mkInterpolator (sort (fun p q => Qcleb (fst p) (fst q)) data) below above /\ data <> []) as [-> Hne].
  { destruct xs as [|x xs]; [discriminate|]. split; [injection E as <-; reflexivity|]. unfold data. destruct ys; [discriminate|]. discriminate. }
  assert (map fst data = xs) as Ef.
  { unfold data. clear - El. revert ys El. induction xs as [|x xs IH]; intros [|y ys] El; cbn in *; try discriminate; auto. f_equal. apply IH. lia. }
  pose proof (sort_perm _ (fun p q : Qc * Qc => Qcleb (fst p) (fst q)) data) as Hp.
  pose proof (sort_rising data) as Hr. rewrite Ef in Hr. specialize (Hr Hnd).
  set (pts := sort _ data) in *.
  assert (forall p, In p data <-> In p pts) as HI.
  { intros p. split; apply Permutation_in; [exact Hp|now apply Permutation_sym]. }
  assert (forall x y, interpolates data x y <-> interpolates pts x y) as HT.
  { intros x y. unfold interpolates. split; (intros [H|(a & ya & b & yb & I1 & I2 & L1 & L2 & Hn & Ey)];
      [left; now apply HI|right; exists a, ya, b, yb; rewrite ?HI in *; repeat split; auto; intros c yc Hc; apply (Hn c yc); now apply HI]). }
  assert (exists x0 y0 rest, pts = (x0, y0) :: rest) as (x0 & y0 & rest & Epts).
  { destruct data as [|d data']; [congruence|]. assert (In d pts) as Hd by (apply HI; now left). destruct pts as [|[a b] r]; [destruct Hd|]. now exists a, b, r. }
  assert (forall x y, interpolates pts x y -> x0 <= x /\ x <= fst (last rest (x0, y0)) /\ np_interp pts x = Some y) as Hval.
  { intros x y [H|(a & ya & b & yb & I1 & I2 & L1 & L2 & Hn & ->)].
    - rewrite Epts in Hr, H |- *. destruct (rising_last rest x0 y0 Hr x y H). repeat split; auto. now apply np_interp_point.
    - rewrite Epts in Hr, I1, I2, Hn |- *. pose proof (rising_last rest x0 y0 Hr a ya I1). pose proof (rising_last rest x0 y0 Hr b yb I2).
      split; [qc_lra|]. split; [qc_lra|]. now apply np_interp_between. }
  assert (forall x y, interpolates pts x y -> interpolate_1d (mkInterpolator pts below above) (Some x) = Some y) as Hfun.
  { intros x y H. destruct (Hval x y H) as (L1 & L2 & Ev). unfold interpolate_1d. cbn [ip_points]. rewrite Epts in Ev |- *.
    replace (Qcltb x x0) with false by (symmetry; now apply Qcltb_ge).
    replace (Qcltb _ x) with false by (symmetry; now apply Qcltb_ge). exact Ev. }
  split; [intros x y H; apply Hfun; now apply HT|]. split; [|split; [|split; [|reflexivity]]].
  - intros x [(a & ya & Ia & La) (b & yb & Ib & Lb)]. apply HI in Ia, Ib.
    rewrite Epts in Ia, Ib. rewrite Epts in Hr.
    pose proof (rising_last rest x0 y0 Hr a ya Ia). pose proof (rising_last rest x0 y0 Hr b yb Ib).
    destruct (interpolates_exists pts x x0 y0 rest Epts) as (y & Hy); [now rewrite Epts|qc_lra|qc_lra|].
    exists y. split; [now apply HT|now apply Hfun].
  - intros x Hx. unfold interpolate_1d. cbn [ip_points ip_below]. rewrite Epts.
    replace (Qcltb x x0) with true; auto. symmetry. apply Qcltb_lt. apply (Hx x0 y0). apply HI. rewrite Epts. now left.
  - intros x Hx. unfold interpolate_1d. cbn [ip_points ip_above]. rewrite Epts.
    assert (fst (last rest (x0, y0)) < x) as L.
    { destruct (last rest (x0, y0)) as [a ya] eqn:El'. apply (Hx a ya). apply HI. rewrite Epts, <- El'. clear.
      revert x0 y0. induction rest as [|r rest IH]; intros; [now left|]. rewrite last_shift. destruct r as [a b]. right. apply IH. }
    assert (x0 < x) as L0 by (apply (Hx x0 y0), HI; rewrite Epts; now left).
    replace (Qcltb x x0) with false by (symmetry; apply Qcltb_ge; now apply Qclt_le_weak).
    replace (Qcltb _ x) with true; auto. symmetry. now apply Qcltb_lt.
Qed.

Theorem between_proof : forall x a ya b yb, a < x -> x < b ->
  let y := ya + (yb - ya) * ((x - a) / (b - a)) in
  Qcmin ya yb <= y /\ y <= Qcmax ya yb.
Proof.
  intros x a ya b yb L1 L2 y.
  assert (b - a <> 0) as N by (intros E; qc_lra).
  assert (exists t, t * (b - a) = x - a /\ y = ya + (yb - ya) * t) as (t & Et & Ey).
  { exists ((x - a) / (b - a)). split; [field; exact N|reflexivity]. }
  assert (0 <= t) as T0. { destruct (Qclt_le_dec t 0) as [L|L]; auto. exfalso. clear Ey. qc_nra. }
  assert (t <= 1) as T1. { destruct (Qclt_le_dec 1 t) as [L|L]; auto. exfalso. clear Ey. qc_nra. }
  rewrite Ey. clear Ey Et. qc_cases; split; qc_nra.
Qed.

Theorem monotone_proof : forall xs ys below above f, NoDup xs -> make_interpolator xs ys below above = Ok f ->
  monotone_table (combine xs ys) ->
  forall x x' y y', in_range (combine xs ys) x -> in_range (combine xs ys) x' -> x <= x' ->
    interpolate_1d f (Some x) = Some y -> interpolate_1d f (Some x') = Some y' -> y <= y'.
Proof.
  intros xs ys below above f Hnd E Hm x x' y y' Rx Rx' L Ey Ey'.
  destruct (interpolation_proof xs ys below above f Hnd E) as (_ & HR & _). set (data := combine xs ys) in *.
  destruct (HR x Rx) as (z & Hz & Ez). destruct (HR x' Rx') as (z' & Hz' & Ez').
  assert (y = z) as -> by congruence. assert (y' = z') as -> by congruence. clear Ey Ey' Ez Ez' HR.
  (* values at a point lie between its neighbours' values *)
  assert (forall u w, interpolates data u w ->
    (forall c yc, In (c, yc) data -> c <= u -> yc <= w) /\ (forall c yc, In (c, yc) data -> u <= c -> w <= yc)) as Hb.
  { intros u w [H|(a & ya & b & yb & I1 & I2 & L1 & L2 & Hn & ->)].
    - split; intros c yc Hc Lc; [apply (Hm c yc u w)|apply (Hm u w c yc)]; auto.
    - assert (ya <= yb) as Lab by (apply (Hm a ya b yb); auto; qc_lra).
      destruct (between_proof u a ya b yb L1 L2) as [B1 B2].
      unfold Qcmin, Qcmax in *. replace (Qcleb ya yb) with true in * by (symmetry; now apply Qcleb_le).
      split; intros c yc Hc Lc.
      + destruct (Hn c yc Hc) as [Hca|Hbc]; [|exfalso; qc_lra]. assert (yc <= ya) by (apply (Hm c yc a ya); auto). qc_lra.
      + destruct (Hn c yc Hc) as [Hca|Hbc]; [exfalso; qc_lra|]. assert (yb <= yc) by (apply (Hm b yb c yc); auto). qc_lra. }
  destruct (Hb _ _ Hz) as [B1 B2]. destruct (Hb _ _ Hz') as [B1' B2'].
  destruct Hz as [H|(a & ya & b & yb & I1 & I2 & L1 & L2 & Hn & Ez)].
  - now apply (B1' x z).
  - destruct Hz' as [H'|(a' & ya' & b' & yb' & I1' & I2' & L1' & L2' & Hn' & Ez')].
    + now apply (B2 x' z').
    + destruct (Qclt_le_dec x' b) as [Lb|Lb].
      * (* same pair of neighbours *)
        assert (a = a') as <-.
        { destruct (Hn' a ya I1) as [Q1|Q1]; [|exfalso; qc_lra]. destruct (Hn a' ya' I1') as [Q2|Q2]; [|exfalso; qc_lra]. now apply Qcle_antisym. }
        assert (b = b') as <-.
        { destruct (Hn' b yb I2) as [Q1|Q1]; [exfalso; qc_lra|]. destruct (Hn b' yb' I2') as [Q2|Q2]; [exfalso; qc_lra|]. now apply Qcle_antisym. }
        assert (ya = ya') as <- by (apply Qcle_antisym; apply (Hm a _ a _); auto; apply Qcle_refl).
        assert (yb = yb') as <- by (apply Qcle_antisym; apply (Hm b _ b _); auto; apply Qcle_refl).
        assert (ya <= yb) as Lab by (apply (Hm a ya b yb); auto; qc_lra).
        rewrite Ez, Ez'. assert (b - a <> 0) as N by (intros Q; qc_lra).
        assert (0 <= (x' - a) / (b - a) - (x - a) / (b - a)) as T.
        { replace ((x' - a) / (b - a) - (x - a) / (b - a)) with ((x' - x) / (b - a)) by (field; exact N).
          remember ((x' - x) / (b - a)) as t eqn:Et. assert (t * (b - a) = x' - x) as Em by (rewrite Et; field; exact N).
          destruct (Qclt_le_dec t 0) as [Lt|Lt]; auto. exfalso. clear Et. qc_nra. }
        remember ((x' - a) / (b - a)) as t'. remember ((x - a) / (b - a)) as t. clear - T Lab. qc_nra.
      * assert (z <= yb) by (apply (B2 b yb); auto; qc_lra). assert (yb <= z') by (apply (B1' b yb); auto). qc_lra.
Qed.

(** the order of the rows of the table does not matter *)
Theorem row_order_proof : forall xs ys xs' ys' below above f f', NoDup xs ->
  Permutation (combine xs ys) (combine xs' ys') ->
  make_interpolator xs ys below above = Ok f -> make_interpolator xs' ys' below above = Ok f' ->
  forall x, interpolate_1d f x = interpolate_1d f' x.
Proof.
  intros xs ys xs' ys' below above f f' Hnd Hp E E'.
  assert (List.length xs = List.length ys /\ List.length xs' = List.length ys') as [L L'].
  { unfold make_interpolator in E, E'. destruct (Nat.eqb (List.length xs) (List.length ys)) eqn:E1; [|discriminate].
    destruct (Nat.eqb (List.length xs') (List.length ys')) eqn:E2; [|discriminate]. apply Nat.eqb_eq in E1, E2. auto. }
  assert (forall (l m : list Qc), List.length l = List.length m -> map fst (combine l m) = l) as Hfst.
  { induction l as [|a l IH]; intros [|b m] H; cbn in *; try discriminate; auto. f_equal. apply IH. lia. }
  assert (NoDup xs') as Hnd'.
  { rewrite <- (Hfst xs' ys' L'). eapply Permutation_NoDup; [apply Permutation_map; exact Hp|]. now rewrite Hfst. }
  destruct (interpolation_proof xs ys below above f Hnd E) as (_ & HR & HB & HA & _).
  destruct (interpolation_proof xs' ys' below above f' Hnd' E') as (HF' & _ & HB' & HA' & _).
  assert (forall p, In p (combine xs ys) <-> In p (combine xs' ys')) as HI.
  { intros p. split; apply Permutation_in; [exact Hp|now apply Permutation_sym]. }
  intros [x|]; [|reflexivity].
  destruct (Forall_Exists_dec (fun p : Qc * Qc => x < fst p)
     (fun p => match Qclt_le_dec x (fst p) with left H => left H | right H => right (Qcle_not_lt _ _ H) end) (combine xs ys)) as [Hall|Hex].
  { rewrite Forall_forall in Hall. rewrite HB, HB'; auto.
    - intros a ya Ha. apply HI in Ha. now apply (Hall (a, ya)). - intros a ya Ha. now apply (Hall (a, ya)). }
  destruct (Forall_Exists_dec (fun p : Qc * Qc => fst p < x)
     (fun p => match Qclt_le_dec (fst p) x with left H => left H | right H => right (Qcle_not_lt _ _ H) end) (combine xs ys)) as [Hall|Hex'].
  { rewrite Forall_forall in Hall. rewrite HA, HA'; auto.
    - intros a ya Ha. apply HI in Ha. now apply (Hall (a, ya)). - intros a ya Ha. now apply (Hall (a, ya)). }
  apply Exists_exists in Hex as ([a ya] & Ia & Na). apply Exists_exists in Hex' as ([b yb] & Ib & Nb). cbn [fst] in Na, Nb.
  destruct (HR x) as (y & Hy & Ey).
  { split; [exists a, ya|exists b, yb]; split; auto; now apply Qcnot_lt_le. }
  rewrite Ey. symmetry. apply HF'. destruct Hy as [H|(c & yc & d & yd & I1 & I2 & L1 & L2 & Hn & ->)]; [left; now apply HI|].
  right. exists c, yc, d, yd. rewrite <- !HI. repeat split; auto. intros e ye He. apply (Hn e ye). now apply HI.
Qed.

(** column [values] of the table is the one under [header] *)
Definition column_of (t : tabular_data) (header : string) (values : list Qc) : Prop :=
  exists i, nth_error (tb_headers t) i = Some header /\ nth_error (tb_data t) i = Some values /\
    (forall j, (j < i)%nat -> nth_error (tb_headers t) j <> Some header).

Lemma tabular_column_of : forall t h vs, tabular_column t h = Ok vs -> column_of t h vs.
Proof.
  intros t h vs H. unfold tabular_column in H. destruct (index_of String.eqb h (tb_headers t)) as [i|] eqn:E; [|discriminate].
  exists i. assert (forall l i, index_of String.eqb h l = Some i -> nth_error l i = Some h /\ forall j, (j < i)%nat -> nth_error l j <> Some h) as HI.
  { clear. induction l as [|a l IH]; intros i E; cbn in E; [discriminate|]. destruct (String.eqb h a) eqn:Ea.
    - injection E as <-. apply String.eqb_eq in Ea. subst. split; [reflexivity|]. intros j Hj. lia.
    - destruct (index_of String.eqb h l) as [k|] eqn:Ek; [|discriminate]. injection E as <-. destruct (IH k eq_refl) as [H1 H2].
      split; [exact H1|]. intros [|j] Hj; cbn; [|apply H2; lia]. intros Q. injection Q as ->. rewrite String.eqb_refl in Ea. discriminate. }
  destruct (HI _ _ E) as [H1 H2]. split; [exact H1|]. split; [|exact H2].
  destruct (nth_error (tb_data t) i) as [d|]; cbn in H; [congruence|discriminate].
Qed.

Theorem tabular_proof : forall t name values usage valid,
  tabular_evaluate_1d t name values = Ok (usage, valid) ->
  exists xs es, column_of t name xs /\
    column_of t (if existsb (String.eqb "POWER") (tb_headers t) then "POWER" else "FUEL")%string es /\
    List.length xs = List.length es /\
    List.length usage = List.length values /\ List.length valid = List.length values /\
    (NoDup xs -> forall k v, nth_error values k = Some v ->
       (* inside the table: the interpolated value, valid unless negative *)
       (forall x, v = Some x -> in_range (combine xs es) x -> exists u, interpolates (combine xs es) x u /\
          nth_error usage k = Some (Some u) /\ (nth_error valid k = Some true <-> 0 <= u) /\ (nth_error valid k = Some false <-> u < 0)) /\
       (* outside: no value and not valid *)
       (forall x, v = Some x -> ~ in_range (combine xs es) x -> nth_error usage k = Some None /\ nth_error valid k = Some false) /\
       (v = None -> nth_error usage k = Some None /\ nth_error valid k = Some false)).
Proof.
  intros t name values usage valid H. unfold tabular_evaluate_1d in H.
  destruct (tabular_function_1d t) as [f|] eqn:Ef; [|discriminate]. cbn [bind] in H.
  unfold tabular_function_1d in Ef. destruct (tabular_validate t) as [u|] eqn:Ev; [|discriminate]. cbn [bind] in Ef.
  destruct (tabular_column t (usage_header (tabular_usage_type t))) as [es|] eqn:Ee; [|discriminate]. cbn [bind] in Ef.
  destruct (tabular_variables t) as [|x0 [|? ?]] eqn:Evars; try discriminate.
  destruct (tabular_column t x0) as [xs|] eqn:Ex; [|discriminate]. cbn [bind] in Ef.
  destruct (String.eqb x0 name) eqn:En; [|discriminate]. apply String.eqb_eq in En. subst x0. injection H as <- <-.
  exists xs, es. split; [now apply tabular_column_of|]. split.
  { apply tabular_column_of in Ee. unfold tabular_usage_type, has_header in Ee. destruct (existsb _ _); exact Ee. }
  split. { unfold make_interpolator in Ef. destruct (Nat.eqb (List.length xs) (List.length es)) eqn:El; [now apply Nat.eqb_eq|discriminate]. }
  rewrite !map_length. split; [reflexivity|]. split; [reflexivity|].
  intros Hnd k v Hk. destruct (interpolation_proof xs es None None f Hnd Ef) as (_ & HR & HB & HA & HN).
  rewrite map_map, !nth_error_map, Hk. cbn [option_map].
  split; [|split].
  - intros x -> Rx. destruct (HR x Rx) as (y & Hy & Ey). exists y. rewrite Ey. cbn [generic_is_valid orb].
    split; [exact Hy|]. split; [reflexivity|]. destruct (Qcleb 0 y) eqn:L.
    + apply Qcleb_le in L. split; [tauto|]. split; [discriminate|]. intros Q. exfalso. qc_lra.
    + apply Qcleb_gt in L. split; [|tauto]. split; [discriminate|]. intros Q. exfalso. qc_lra.
  - intros x -> Rx. assert (interpolate_1d f (Some x) = None) as Ei.
    { destruct (Forall_Exists_dec (fun p : Qc * Qc => x < fst p)
        (fun p => match Qclt_le_dec x (fst p) with left H => left H | right H => right (Qcle_not_lt _ _ H) end) (combine xs es)) as [Hall|Hex].
      { rewrite Forall_forall in Hall. apply HB. intros a ya Ha. now apply (Hall (a, ya)). }
      destruct (Forall_Exists_dec (fun p : Qc * Qc => fst p < x)
        (fun p => match Qclt_le_dec (fst p) x with left H => left H | right H => right (Qcle_not_lt _ _ H) end) (combine xs es)) as [Hall|Hex'].
      { rewrite Forall_forall in Hall. apply HA. intros a ya Ha. now apply (Hall (a, ya)). }
      exfalso. apply Rx. apply Exists_exists in Hex as ([a ya] & Ia & Na). apply Exists_exists in Hex' as ([b yb] & Ib & Nb). cbn [fst] in Na, Nb.
      split; [exists a, ya|exists b, yb]; split; auto; now apply Qcnot_lt_le. }
    rewrite Ei. split; reflexivity.
  - intros ->. split; reflexivity.
Qed.

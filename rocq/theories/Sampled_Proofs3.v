(** The functions along the sides of the hull give the boundary of the hull. *)
From Coq Require Import PeanoNat.
From Verif Require Import QcTac Base BaseLemmas Num Interp_Model Interp_Spec Interp_Proofs Sampled_Model Sampled_Spec Sampled_Proofs Sampled_Proofs2.
Local Open Scope list_scope.
Local Open Scope Qc_scope.

Lemma forall2_nth_map : forall (pts : list (Qc * Qc)) idx ps,
  Forall2 (fun i p => of_option IndexError (nth_error pts i) = Ok p) idx ps -> ps = map (pt pts) idx.
Proof.
  induction 1 as [|i p idx ps H _ IH]; [reflexivity|]. cbn [map]. rewrite <- IH. f_equal.
  destruct (nth_error pts i) as [q|] eqn:E; cbn in H; [|discriminate]. injection H as ->. symmetry. now apply pt_nth.
Qed.

Lemma edge_points_ok : forall h es ps, edge_points h es = Ok ps ->
  exists idx, NoDup idx /\ ps = map (pt (h_points h)) idx /\
    forall i, In i idx <-> exists e, In e es /\ (i = e_from e \/ i = e_to e).
Proof.
  intros h es ps H. unfold edge_points in H. apply mapM_Ok in H. apply forall2_nth_map in H.
  set (l := nodup Nat.eq_dec (flat_map (fun e => [e_from e; e_to e]) es)) in *.
  pose proof (sort_perm nat Nat.leb l) as P. exists (sort Nat.leb l). split; [|split; [exact H|]].
  - eapply Permutation_NoDup; [exact P|]. apply NoDup_nodup.
  - intros i. split.
    + intros Hi. apply (Permutation_in _ (Permutation_sym P)) in Hi. apply nodup_In in Hi. apply in_flat_map in Hi as (e & He & Hi).
      exists e. split; [exact He|]. cbn in Hi. destruct Hi as [<-|[<-|[]]]; auto.
    + intros (e & He & Hi). apply (Permutation_in _ P). apply nodup_In. apply in_flat_map. exists e. split; [exact He|]. cbn. destruct Hi as [->| ->]; auto.
Qed.

(** the table of a side: (height, position) *)
Definition side_table (sd : side) (ax : axis) (ps : list (Qc * Qc)) : list (Qc * Qc) :=
  map (fun p => (coordinate (other ax) p, sign sd * coordinate ax p)) ps.

Lemma side_table_chain : forall pts h sd ax ps, is_hull pts h -> centred pts -> side_points sd ax h = Ok ps ->
  chain_points (segs_of sd ax h) (side_table sd ax ps) /\ NoDup (map (coordinate (other ax)) ps).
Proof.
  intros pts h sd ax ps H C E. unfold side_points in E. rewrite (side_edges_sign pts h sd ax H C) in E. cbn [bind] in E.
  apply edge_points_ok in E as (idx & Hnd & -> & Hidx).
  assert (chain_points (segs_of sd ax h) (side_table sd ax (map (pt (h_points h)) idx))) as HC.
  { intros y x. unfold side_table. rewrite map_map, in_map_iff. split.
    - intros (i & Ei & Hi). injection Ei as <- <-. apply Hidx in Hi as (e & He & Hi). apply filter_In in He as [He Hs].
      exists (seg_of sd ax (h_points h) e). split.
      + apply lower_segs_in. split; [now apply in_map|]. cbn [s_a seg_of]. now apply Qcltb_lt.
      + unfold seg_of. cbn [s_px s_py s_qx s_qy]. destruct Hi as [->| ->]; auto.
    - intros (s & Hs & Hv). apply lower_segs_in in Hs as [Hs Ha]. apply in_map_iff in Hs as (e & <- & He).
      assert (In e (filter (of_side sd ax) (h_edges h))) as Hf by (apply filter_In; split; [exact He|]; unfold of_side; apply Qcltb_lt; exact Ha).
      unfold seg_of in Hv. cbn [s_px s_py s_qx s_qy] in Hv. destruct Hv as [[-> ->]|[-> ->]].
      + exists (e_from e). split; [reflexivity|]. apply Hidx. exists e. auto.
      + exists (e_to e). split; [reflexivity|]. apply Hidx. exists e. auto. }
  split; [exact HC|]. rewrite map_map.
  assert (forall i j, In i idx -> In j idx -> coordinate (other ax) (pt (h_points h) i) = coordinate (other ax) (pt (h_points h) j) -> i = j) as Inj.
  { intros i j Hi Hj Eo.
    assert (coordinate ax (pt (h_points h) i) = coordinate ax (pt (h_points h) j)) as Ea.
    { assert (sign sd * coordinate ax (pt (h_points h) i) = sign sd * coordinate ax (pt (h_points h) j)) as Es.
      { apply (chain_functional (segs_of sd ax h) _ (coordinate (other ax) (pt (h_points h) i)) _ _ (segs_proper pts h sd ax H) HC).
        - unfold side_table. rewrite map_map. apply in_map_iff. now exists i.
        - unfold side_table. rewrite map_map. apply in_map_iff. exists j. now rewrite Eo. }
      replace (coordinate ax (pt (h_points h) i)) with (sign sd * (sign sd * coordinate ax (pt (h_points h) i))) by (rewrite Qcmult_assoc, sign_sq; ring).
      rewrite Es, Qcmult_assoc, sign_sq. ring. }
    apply Hidx in Hi as (e & He & Hi). apply Hidx in Hj as (f & Hf & Hj). apply filter_In in He as [He _]. apply filter_In in Hf as [Hf _].
    apply (ih_corner pts h H e f i j He Hf); [cbn; destruct Hi; auto|cbn; destruct Hj; auto|].
    rewrite (ih_points pts h H) in *.
    assert (forall i e, In e (h_edges h) -> i = e_from e \/ i = e_to e -> nth_error pts i = Some (pt pts i)) as Hn.
    { intros k e' He' Hk. destruct (ih_edge pts h H e' He') as (px & py & qx & qy & N1 & N2 & _).
      destruct Hk as [->| ->]; [rewrite (pt_nth _ _ _ N1)|rewrite (pt_nth _ _ _ N2)]; assumption. }
    rewrite (Hn i e He Hi), (Hn j f Hf Hj). f_equal. destruct (pt pts i) as [a b], (pt pts j) as [c d]. destruct ax; cbn in *; congruence. }
  clear - Hnd Inj. induction idx as [|i idx IH]; cbn; constructor.
  - intros Hin. apply in_map_iff in Hin as (j & Ej & Hj). inversion Hnd; subst.
    assert (j = i) as -> by (apply Inj; [now right|now left|exact Ej]). contradiction.
  - apply IH; [now inversion Hnd|]. intros; apply Inj; auto; now right.
Qed.

Lemma combine_map : forall A B C (f : A -> B) (g : A -> C) l, combine (map f l) (map g l) = map (fun x => (f x, g x)) l.
Proof. induction l as [|a l IH]; cbn; [reflexivity|]. now rewrite IH. Qed.

Lemma interpolates_scaled : forall s data x y, s * s = 1 -> interpolates data x y -> interpolates (map (fun p => (fst p, s * snd p)) data) x (s * y).
Proof.
  intros s data x y Hs [H|(a & ya & b & yb & I1 & I2 & L1 & L2 & Hn & ->)].
  - left. apply in_map_iff. now exists (x, y).
  - right. exists a, (s * ya), b, (s * yb). split; [apply in_map_iff; now exists (a, ya)|]. split; [apply in_map_iff; now exists (b, yb)|].
    split; [exact L1|]. split; [exact L2|]. split; [|ring]. intros c yc Hc. apply in_map_iff in Hc as ([c' yc'] & E & Hc). cbn in E. injection E as <- <-. now apply (Hn c' yc').
Qed.

Lemma Sorted_first : forall (f : Qc * Qc -> Qc) l p q, Sorted (fun a b => Qcleb (f a) (f b) = true) (p :: l) -> In q (p :: l) -> f p <= f q.
Proof.
  intros f l p q H. apply Sorted_StronglySorted in H.
  - inversion H as [|? ? _ HF]; subst. rewrite Forall_forall in HF. intros [<-|Hq]; [apply Qcle_refl|]. apply Qcleb_le. now apply HF.
  - intros x y z A B. apply Qcleb_le in A, B. apply Qcleb_le. qc_lra.
Qed.
Lemma Sorted_last : forall (f : Qc * Qc -> Qc) l p q, Sorted (fun a b => Qcleb (f a) (f b) = true) (p :: l) -> In q (p :: l) -> f q <= f (last l p).
Proof.
  intros f l. induction l as [|r l IH]; intros p q H Hq.
  - destruct Hq as [<-|[]]. apply Qcle_refl.
  - assert (last (r :: l) p = last l r) as -> by apply (Time_Proofs.last_shift).
    inversion H as [|? ? HS HH]; subst. inversion HH as [|? ? L]; subst. apply Qcleb_le in L.
    destruct Hq as [<-|Hq]; [|now apply IH]. specialize (IH r r HS (or_introl eq_refl)). qc_lra.
Qed.
Lemma last_in : forall A (l : list A) p, In (last l p) (p :: l).
Proof. induction l as [|a l IH]; intros p; [now left|]. rewrite Time_Proofs.last_shift. right. apply IH. Qed.

Lemma range_dec : forall (data : list (Qc * Qc)) x, in_range data x \/ (forall a ya, In (a, ya) data -> x < a) \/ (forall a ya, In (a, ya) data -> a < x).
Proof.
  intros data x.
  destruct (Forall_Exists_dec (fun p : Qc * Qc => x < fst p)
     (fun p => match Qclt_le_dec x (fst p) with left H => left H | right H => right (Qcle_not_lt _ _ H) end) data) as [Hall|Hex].
  { right. left. rewrite Forall_forall in Hall. intros a ya Ha. now apply (Hall (a, ya)). }
  destruct (Forall_Exists_dec (fun p : Qc * Qc => fst p < x)
     (fun p => match Qclt_le_dec (fst p) x with left H => left H | right H => right (Qcle_not_lt _ _ H) end) data) as [Hall|Hex'].
  { right. right. rewrite Forall_forall in Hall. intros a ya Ha. now apply (Hall (a, ya)). }
  left. apply Exists_exists in Hex as ([a ya] & Ia & Na). apply Exists_exists in Hex' as ([b yb] & Ib & Nb). cbn [fst] in Na, Nb.
  split; [exists a, ya|exists b, yb]; split; auto; now apply Qcnot_lt_le.
Qed.

(** the function along a side: at every height the outermost position of the hull at the nearest height *)
Theorem side_function : forall pts h sd ax ps f lo hi xlo xhi, is_hull pts h -> centred pts ->
  extremes (map (coordinate (other ax)) pts) lo hi -> extremes (map (coordinate ax) pts) xlo xhi ->
  side_points sd ax h = Ok ps -> boundary_function ax ps = Ok f ->
  exists F, (forall y, interpolate_1d f (Some y) = Some (sign sd * F y)) /\
    least_at (fun x y => hull_at pts ax (sign sd * x) y) lo hi F.
Proof.
  intros pts h sd ax ps f lo hi xlo xhi H C Elo Ex Eps Ef.
  destruct (side_table_chain pts h sd ax ps H C Eps) as [HC Hnd]. pose proof (segs_proper pts h sd ax H) as HP.
  set (segs := segs_of sd ax h) in *. set (V := side_table sd ax ps) in *.
  assert (forall x y, region segs x y -> lo <= y /\ y <= hi /\ Qcmin (sign sd * xlo) (sign sd * xhi) <= x) as Hbound.
  { intros x y R. apply (region_hull pts h sd ax x y H) in R.
    assert (lo <= y /\ y <= hi /\ xlo <= sign sd * x /\ sign sd * x <= xhi) as (B1 & B2 & B3 & B4).
    { destruct ax; cbn in R, Elo, Ex; [destruct (in_hull_bounds pts _ _ _ _ _ _ R Ex Elo) as (? & ? & ? & ?)|destruct (in_hull_bounds pts _ _ _ _ _ _ R Elo Ex) as (? & ? & ? & ?)]; auto. }
    split; [exact B1|]. split; [exact B2|]. destruct sd; cbn [sign] in *; unfold Qcmin; destruct (Qcleb _ _) eqn:Q.
    - qc_lra. - apply Qcleb_gt in Q. qc_lra. - apply Qcleb_le in Q. qc_lra. - qc_lra. }
  assert (forall y, lo <= y -> y <= hi -> exists x, region segs x y) as Hinside.
  { destruct Elo as (Ilo & Ihi & _). apply in_map_iff in Ilo as (p & Ep & Hp). apply in_map_iff in Ihi as (q & Eq & Hq).
    assert (forall p, In p pts -> region segs (sign sd * coordinate ax p) (coordinate (other ax) p)) as Hpt.
    { intros [a b] Hin. apply (region_hull pts h sd ax _ _ H). rewrite Qcmult_assoc, sign_sq, Qcmult_1_l. destruct ax; cbn; now apply in_hull_point. }
    intros y L1 L2. pose proof (Hpt p Hp) as Rp. pose proof (Hpt q Hq) as Rq. rewrite Ep in Rp. rewrite Eq in Rq.
    destruct (Qc_eq_dec lo hi) as [E|N].
    - assert (y = lo) as -> by (apply Qcle_antisym; [now rewrite E|exact L1]). eexists. exact Rp.
    - set (t := (y - lo) / (hi - lo)). assert (hi - lo <> 0) as N' by (intros Q; apply N; qc_lra).
      assert (y = lo + t * (hi - lo)) as Et by (unfold t; field; exact N'). clearbody t.
      assert (lo < hi) as L3 by (destruct (Qclt_le_dec lo hi); auto; exfalso; apply N; qc_lra).
      assert (0 <= t) as T0 by (destruct (Qclt_le_dec t 0) as [Q|Q]; auto; exfalso; clear - Q Et L1 L3; qc_nra).
      assert (t <= 1) as T1 by (destruct (Qclt_le_dec 1 t) as [Q|Q]; auto; exfalso; clear - Q Et L2 L3; qc_nra).
      eexists. rewrite Et. exact (region_convex segs _ _ _ _ t Rp Rq T0 T1). }
  assert (forall y v, lo <= y -> y <= hi -> interpolates V y v -> region segs v y /\ forall x', region segs x' y -> v <= x') as Hint.
  { intros y v L1 L2 HI. destruct (Hinside y L1 L2) as (x & Hx).
    apply (chain_interpolates segs V y x v (Qcmin (sign sd * xlo) (sign sd * xhi)) HP HC); auto. intros x' Hx'. now apply (Hbound x' y). }
  assert (forall y, lo <= y -> y <= hi -> in_range V y) as Hrange.
  { intros y L1 L2. destruct (Hinside y L1 L2) as (x & Hx). apply (chain_range segs V y x (Qcmin (sign sd * xlo) (sign sd * xhi)) HP HC); auto.
    intros x' Hx'. now apply (Hbound x' y). }
  assert (forall y x, In (y, x) V -> lo <= y /\ y <= hi) as HV.
  { intros y x Hin. destruct (chain_vertex segs V y x HP HC Hin) as [R _]. destruct (Hbound x y R) as (? & ? & _). auto. }
  (* the interpolator *)
  unfold boundary_function in Ef. set (s := sort (by_coordinate (other ax)) ps) in *.
  pose proof (sort_perm _ (by_coordinate (other ax)) ps) as Perm. fold s in Perm.
  assert (Sorted (fun a b => by_coordinate (other ax) a b = true) s) as Hsort.
  { apply sort_Sorted. intros x y Q. unfold by_coordinate in *. apply Qcleb_gt in Q. apply Qcleb_le. qc_lra. }
  destruct s as [|p0 rest] eqn:Es; [discriminate|]. cbn [first_of last_of last_opt nth_error of_option bind] in Ef.
  set (data := combine (map (coordinate (other ax)) (p0 :: rest)) (map (coordinate ax) (p0 :: rest))).
  assert (NoDup (map (coordinate (other ax)) (p0 :: rest))) as Hnd' by (eapply Permutation_NoDup; [apply Permutation_map; exact Perm|exact Hnd]).
  destruct (interpolation_proof _ _ _ _ _ Hnd' Ef) as (_ & IR & IB & IA & _). fold data in IR, IB, IA.
  assert (data = map (fun p => (coordinate (other ax) p, coordinate ax p)) (p0 :: rest)) as Edata by apply combine_map.
  assert (forall y x, In (y, x) data <-> In (y, sign sd * x) V) as HdV.
  { intros y x. rewrite Edata. unfold V, side_table. rewrite !in_map_iff. split; intros (p & E & Hp).
    - injection E as <- <-. exists p. split; [reflexivity|]. apply (Permutation_in _ (Permutation_sym Perm) Hp).
    - pose proof (f_equal fst E) as E1. pose proof (f_equal snd E) as E2. cbn [fst snd] in E1, E2. subst y. exists p. split; [f_equal|apply (Permutation_in _ Perm Hp)].
      replace (coordinate ax p) with (sign sd * (sign sd * coordinate ax p)) by (rewrite Qcmult_assoc, sign_sq; ring).
      rewrite E2, Qcmult_assoc, sign_sq. ring. }
  assert (forall y v, interpolates data y v -> interpolates V y (sign sd * v)) as HintV.
  { intros y v [Hi|(a & ya & b & yb & I1 & I2 & L1 & L2 & Hn & ->)].
    - left. now apply HdV.
    - right. exists a, (sign sd * ya), b, (sign sd * yb). split; [now apply HdV|]. split; [now apply HdV|]. split; [exact L1|]. split; [exact L2|].
      split; [|ring]. intros c yc Hc. apply (Hn c (sign sd * yc)). apply HdV. rewrite Qcmult_assoc, sign_sq, Qcmult_1_l. exact Hc. }
  assert (forall y, in_range V y -> in_range data y) as HrV.
  { intros y [(a & xa & Ia & La) (b & xb & Ib & Lb)].
    split; [exists a, (sign sd * xa)|exists b, (sign sd * xb)]; (split; [|assumption]); apply HdV; rewrite Qcmult_assoc, sign_sq, Qcmult_1_l; assumption. }
  assert (forall p, In p (p0 :: rest) -> In (coordinate (other ax) p, sign sd * coordinate ax p) V) as HpV.
  { intros p Hp. unfold V, side_table. apply in_map_iff. exists p. split; [reflexivity|]. apply (Permutation_in _ (Permutation_sym Perm) Hp). }
  assert (coordinate (other ax) p0 = lo) as E0.
  { apply Qcle_antisym; [|now apply (HV _ _ (HpV p0 (or_introl eq_refl)))].
    destruct Elo as (Ilo & _ & Hlo). destruct (Hrange lo) as [(a & xa & Ia & La) _]; [apply Qcle_refl|now apply Hlo|].
    unfold V, side_table in Ia. apply in_map_iff in Ia as (p & Ep & Hp). apply (f_equal fst) in Ep; cbn [fst] in Ep. apply (Permutation_in _ Perm) in Hp.
    pose proof (Sorted_first (coordinate (other ax)) rest p0 p Hsort Hp). rewrite Ep in H0. qc_lra. }
  assert (coordinate (other ax) (last rest p0) = hi) as E1.
  { apply Qcle_antisym; [now apply (HV _ _ (HpV _ (last_in _ rest p0)))|].
    destruct Elo as (_ & Ihi & Hlo). destruct (Hrange hi) as [_ (a & xa & Ia & La)]; [exact (proj1 (Hlo hi Ihi))|apply Qcle_refl|].
    unfold V, side_table in Ia. apply in_map_iff in Ia as (p & Ep & Hp). apply (f_equal fst) in Ep; cbn [fst] in Ep. apply (Permutation_in _ Perm) in Hp.
    pose proof (Sorted_last (coordinate (other ax)) rest p0 p Hsort Hp). rewrite Ep in H0. qc_lra. }
  assert (lo <= hi) as Llh by (destruct Elo as (I1 & _ & Hlo); now apply Hlo).
  exists (fun y => match interpolate_1d f (Some y) with Some v => sign sd * v | None => 0 end).
  assert (forall y, exists v, interpolate_1d f (Some y) = Some v /\
    (region segs (sign sd * v) (clamp lo hi y) /\ forall x', region segs x' (clamp lo hi y) -> sign sd * v <= x')) as HF.
  { intros y. destruct (Qclt_le_dec y lo) as [L|L].
    - exists (coordinate ax p0). split.
      + apply IB. intros a ya Ha. apply HdV in Ha. apply HV in Ha. qc_lra.
      + assert (clamp lo hi y = lo) as -> by (unfold clamp; qc_cases; try reflexivity; try (apply Qcle_antisym; qc_lra); exfalso; qc_lra).
        rewrite <- E0. apply (chain_vertex segs V _ _ HP HC). apply HpV. now left.
    - destruct (Qclt_le_dec hi y) as [L'|L'].
      + exists (coordinate ax (last rest p0)). split.
        * apply IA. intros a ya Ha. apply HdV in Ha. apply HV in Ha. qc_lra.
        * assert (clamp lo hi y = hi) as -> by (unfold clamp; qc_cases; try reflexivity; try (apply Qcle_antisym; qc_lra); exfalso; qc_lra).
          rewrite <- E1. apply (chain_vertex segs V _ _ HP HC). apply HpV. apply last_in.
      + destruct (IR y (HrV y (Hrange y L L'))) as (v & Hv & Ev). exists v. split; [exact Ev|].
        assert (clamp lo hi y = y) as -> by (unfold clamp; qc_cases; try reflexivity; apply Qcle_antisym; qc_lra).
        apply Hint; auto. }
  split.
  - intros y. destruct (HF y) as (v & -> & _). rewrite Qcmult_assoc, sign_sq, Qcmult_1_l. reflexivity.
  - intros y. destruct (HF y) as (v & -> & R & L). split.
    + now apply (region_hull pts h sd ax _ _ H).
    + intros x Hx. apply L. now apply (region_hull pts h sd ax _ _ H).
Qed.

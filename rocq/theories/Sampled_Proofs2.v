(** The hull of the points of a table and the functions along its sides. *)
From Coq Require Import PeanoNat.
From Verif Require Import QcTac Base BaseLemmas Num Interp_Model Interp_Spec Interp_Proofs Sampled_Model Sampled_Spec Sampled_Proofs.
Local Open Scope list_scope.
Local Open Scope Qc_scope.

(** ** Weighted means *)
Lemma weighted_ge : forall ws vs lo, List.length ws = List.length vs -> (forall w, In w ws -> 0 <= w) -> (forall v, In v vs -> lo <= v) ->
  lo * fold_right Qcplus 0 ws <= weighted ws vs.
Proof.
  induction ws as [|w ws IH]; intros [|v vs] lo L Hw Hv; try discriminate; cbn [fold_right weighted]; [qc_lra|].
  assert (lo * fold_right Qcplus 0 ws <= weighted ws vs) as H.
  { apply IH; [now injection L| |]; intros; [apply Hw|apply Hv]; now right. }
  assert (0 <= w) as W by (apply Hw; now left). assert (lo <= v) as V by (apply Hv; now left).
  remember (fold_right Qcplus 0 ws) as a. remember (weighted ws vs) as b. clear - H W V. qc_nra.
Qed.
Lemma weighted_le : forall ws vs hi, List.length ws = List.length vs -> (forall w, In w ws -> 0 <= w) -> (forall v, In v vs -> v <= hi) ->
  weighted ws vs <= hi * fold_right Qcplus 0 ws.
Proof.
  induction ws as [|w ws IH]; intros [|v vs] hi L Hw Hv; try discriminate; cbn [fold_right weighted]; [qc_lra|].
  assert (weighted ws vs <= hi * fold_right Qcplus 0 ws) as H.
  { apply IH; [now injection L| |]; intros; [apply Hw|apply Hv]; now right. }
  assert (0 <= w) as W by (apply Hw; now left). assert (v <= hi) as V by (apply Hv; now left).
  remember (fold_right Qcplus 0 ws) as a. remember (weighted ws vs) as b. clear - H W V. qc_nra.
Qed.
Lemma in_hull_bounds : forall pts x y x0 x1 y0 y1, in_hull pts x y -> extremes (map fst pts) x0 x1 -> extremes (map snd pts) y0 y1 ->
  x0 <= x /\ x <= x1 /\ y0 <= y /\ y <= y1.
Proof.
  intros pts x y x0 x1 y0 y1 (ws & L & Hw & S & -> & ->) (_ & _ & Hx) (_ & _ & Hy).
  assert (forall A (f : A -> Qc) l, List.length (map f l) = List.length l) as ML by (intros; apply map_length).
  repeat split.
  - assert (x0 = x0 * fold_right Qcplus 0 ws) as -> by (rewrite S; ring). apply weighted_ge; [now rewrite map_length|exact Hw|apply Hx].
  - assert (x1 = x1 * fold_right Qcplus 0 ws) as -> by (rewrite S; ring). apply weighted_le; [now rewrite map_length|exact Hw|apply Hx].
  - assert (y0 = y0 * fold_right Qcplus 0 ws) as -> by (rewrite S; ring). apply weighted_ge; [now rewrite map_length|exact Hw|apply Hy].
  - assert (y1 = y1 * fold_right Qcplus 0 ws) as -> by (rewrite S; ring). apply weighted_le; [now rewrite map_length|exact Hw|apply Hy].
Qed.
Lemma weighted_zero : forall vs, weighted (map (fun _ => 0) vs) vs = 0.
Proof. induction vs as [|v vs IH]; cbn; [reflexivity|]. rewrite IH. ring. Qed.
Lemma in_hull_point : forall pts x y, In (x, y) pts -> in_hull pts x y.
Proof.
  induction pts as [|[a b] pts IH]; intros x y H; [destruct H|].
  destruct H as [E|H].
  - injection E as -> ->. exists (1 :: map (fun _ => 0) pts). cbn [List.length map fold_right weighted fst snd].
    split; [now rewrite map_length|]. split.
    { intros w [<-|Hw]; [vm_compute; discriminate|]. apply in_map_iff in Hw as (p & <- & _). apply Qcle_refl. }
    assert (fold_right Qcplus 0 (map (fun _ : Qc * Qc => 0) pts) = 0) as ->.
    { clear. induction pts as [|p pts IH]; cbn; [reflexivity|]. rewrite IH. ring. }
    assert (forall f, weighted (map (fun _ : Qc * Qc => 0) pts) (map f pts) = 0) as E.
    { intros f. clear. induction pts as [|p pts IH]; cbn; [reflexivity|]. rewrite IH. ring. }
    rewrite !E. repeat split; ring.
  - destruct (IH x y H) as (ws & L & Hw & S & -> & ->). exists (0 :: ws). cbn [List.length map fold_right weighted fst snd].
    split; [now rewrite L|]. split; [intros w [<-|Hw']; [apply Qcle_refl|auto]|]. rewrite S. repeat split; ring.
Qed.

(** the environment's bounds are the extremes *)
Lemma fold_min : forall l x, let m := fold_left Qcmin l x in In m (x :: l) /\ forall y, In y (x :: l) -> m <= y.
Proof.
  induction l as [|a l IH]; intros x; cbn [fold_left].
  - split; [now left|]. intros y [<-|[]]. apply Qcle_refl.
  - destruct (IH (Qcmin x a)) as [H1 H2]. set (m := fold_left Qcmin l (Qcmin x a)) in *. split.
    + destruct H1 as [E|H1]; [|right; now right]. rewrite <- E. unfold Qcmin. destruct (Qcleb x a); [now left|right; now left].
    + intros y [<-|[<-|Hy]]; [| |apply H2; now right]; assert (m <= Qcmin x a) by (apply H2; now left);
        assert (Qcmin x a <= x) by (qc_cases; qc_lra); assert (Qcmin x a <= a) by (qc_cases; qc_lra); qc_lra.
Qed.
Lemma fold_max : forall l x, let m := fold_left Qcmax l x in In m (x :: l) /\ forall y, In y (x :: l) -> y <= m.
Proof.
  induction l as [|a l IH]; intros x; cbn [fold_left].
  - split; [now left|]. intros y [<-|[]]. apply Qcle_refl.
  - destruct (IH (Qcmax x a)) as [H1 H2]. set (m := fold_left Qcmax l (Qcmax x a)) in *. split.
    + destruct H1 as [E|H1]; [|right; now right]. rewrite <- E. unfold Qcmax. destruct (Qcleb x a); [right; now left|now left].
    + intros y [<-|[<-|Hy]]; [| |apply H2; now right]; assert (Qcmax x a <= m) by (apply H2; now left);
        assert (x <= Qcmax x a) by (qc_cases; qc_lra); assert (a <= Qcmax x a) by (qc_cases; qc_lra); qc_lra.
Qed.
Lemma extremes_unique : forall l a b c d, extremes l a b -> extremes l c d -> a = c /\ b = d.
Proof.
  intros l a b c d (A1 & A2 & A3) (B1 & B2 & B3). split; apply Qcle_antisym.
  - now apply A3. - now apply B3. - now apply B3. - now apply A3.
Qed.
Lemma middle_extremes : forall ax h lo hi, extremes (map (coordinate ax) (h_points h)) lo hi -> middle ax h = Ok ((lo + hi) / qz 2).
Proof.
  intros ax h lo hi H. unfold middle. destruct (map (coordinate ax) (h_points h)) as [|x l] eqn:E.
  - destruct H as [[] _].
  - cbn [smallest largest bind]. destruct (fold_min l x) as [m1 m2]. destruct (fold_max l x) as [M1 M2].
    destruct (extremes_unique (x :: l) (fold_left Qcmin l x) (fold_left Qcmax l x) lo hi) as [-> ->]; [|exact H|].
    + split; [exact m1|]. split; [exact M1|]. intros y Hy. split; [now apply m2|now apply M2].
    + f_equal. f_equal. ring.
Qed.

(** ** Positions seen from an axis *)
Definition place (ax : axis) (x y : Qc) : Qc * Qc := match ax with FIRST => (x, y) | SECOND => (y, x) end.
Definition hull_at (pts : list (Qc * Qc)) (ax : axis) (x y : Qc) : Prop :=
  match ax with FIRST => in_hull pts x y | SECOND => in_hull pts y x end.
(** the sign of a side: along the upper side positions are measured downwards *)
Definition sign (sd : side) : Qc := match sd with LOWER => 1 | UPPER => - (1) end.
Lemma sign_sq : forall sd, sign sd * sign sd = 1.
Proof. intros []; cbn; ring. Qed.

Definition pt (pts : list (Qc * Qc)) (i : nat) : Qc * Qc := nth i pts (0, 0).
Definition seg_of (sd : side) (ax : axis) (pts : list (Qc * Qc)) (e : edge) : seg :=
  let p := pt pts (e_from e) in let q := pt pts (e_to e) in
  mkSeg (sign sd * coordinate ax p) (coordinate (other ax) p) (sign sd * coordinate ax q) (coordinate (other ax) q)
    (sign sd * coefficient ax e) (coefficient (other ax) e) (e_d e).
Definition segs_of (sd : side) (ax : axis) (h : hull) : list seg := map (seg_of sd ax (h_points h)) (h_edges h).

Lemma region_hull : forall pts h sd ax x y, is_hull pts h ->
  (region (segs_of sd ax h) x y <-> hull_at pts ax (sign sd * x) y).
Proof.
  intros pts h sd ax x y H. unfold region, segs_of, hull_at. destruct ax; rewrite (ih_exact pts h H); split; intros R e He.
  - specialize (R (seg_of sd FIRST (h_points h) e) (in_map _ _ _ He)). unfold level, seg_of in R. cbn in R.
    replace (e_a e * (sign sd * x)) with (sign sd * e_a e * x) by ring. exact R.
  - apply in_map_iff in He as (f & <- & Hf). specialize (R f Hf). unfold level, seg_of. cbn.
    replace (sign sd * e_a f * x) with (e_a f * (sign sd * x)) by ring. exact R.
  - specialize (R (seg_of sd SECOND (h_points h) e) (in_map _ _ _ He)). unfold level, seg_of in R. cbn in R.
    replace (e_a e * y + e_b e * (sign sd * x) + e_d e) with (sign sd * e_b e * x + e_a e * y + e_d e) by ring. exact R.
  - apply in_map_iff in He as (f & <- & Hf). specialize (R f Hf). unfold level, seg_of. cbn.
    replace (sign sd * e_b f * x + e_a f * y + e_d f) with (e_a f * y + e_b f * (sign sd * x) + e_d f) by ring. exact R.
Qed.

Lemma pt_nth : forall pts i p, nth_error pts i = Some p -> pt pts i = p.
Proof. intros. unfold pt. now apply nth_error_nth. Qed.

Lemma segs_proper : forall pts h sd ax, is_hull pts h -> proper (segs_of sd ax h).
Proof.
  intros pts h sd ax H.
  assert (forall e, In e (h_edges h) -> exists px py qx qy, pt (h_points h) (e_from e) = (px, py) /\ pt (h_points h) (e_to e) = (qx, qy) /\
    e_a e * px + e_b e * py + e_d e = 0 /\ e_a e * qx + e_b e * qy + e_d e = 0 /\ In (px, py) pts /\ In (qx, qy) pts /\
    forall x y, in_hull pts x y -> e_a e * x + e_b e * y + e_d e = 0 ->
      exists t, 0 <= t /\ t <= 1 /\ x = px + t * (qx - px) /\ y = py + t * (qy - py)) as HE.
  { intros e He. destruct (ih_edge pts h H e He) as (px & py & qx & qy & N1 & N2 & E1 & E2 & HS). rewrite (ih_points pts h H).
    exists px, py, qx, qy. rewrite (pt_nth _ _ _ N1), (pt_nth _ _ _ N2). apply nth_error_In in N1, N2. repeat split; auto. }
  assert (forall x, sign sd * (sign sd * x) = x) as SS by (intros x; rewrite Qcmult_assoc, sign_sq; ring).
  split.
  - intros s Hs. pose proof Hs as Hs'. apply in_map_iff in Hs as (e & <- & He). destruct (HE e He) as (px & py & qx & qy & P & Q & E1 & E2 & I1 & I2 & HS).
    split.
    + apply (region_hull pts h sd ax _ _ H). unfold seg_of. rewrite P. cbn [s_px s_py]. rewrite SS. destruct ax; cbn; now apply in_hull_point.
    + unfold level, seg_of. rewrite P. destruct ax; cbn.
      * replace (sign sd * e_a e * (sign sd * px)) with (sign sd * sign sd * (e_a e * px)) by ring. rewrite sign_sq, <- E1. ring.
      * replace (sign sd * e_b e * (sign sd * py)) with (sign sd * sign sd * (e_b e * py)) by ring. rewrite sign_sq, <- E1. ring.
  - intros s Hs. apply in_map_iff in Hs as (e & <- & He). destruct (HE e He) as (px & py & qx & qy & P & Q & E1 & E2 & I1 & I2 & HS).
    split.
    + apply (region_hull pts h sd ax _ _ H). unfold seg_of. rewrite Q. cbn [s_qx s_qy]. rewrite SS. destruct ax; cbn; now apply in_hull_point.
    + unfold level, seg_of. rewrite Q. destruct ax; cbn.
      * replace (sign sd * e_a e * (sign sd * qx)) with (sign sd * sign sd * (e_a e * qx)) by ring. rewrite sign_sq, <- E2. ring.
      * replace (sign sd * e_b e * (sign sd * qy)) with (sign sd * sign sd * (e_b e * qy)) by ring. rewrite sign_sq, <- E2. ring.
  - intros s x y Hs R L. apply in_map_iff in Hs as (e & <- & He). destruct (HE e He) as (px & py & qx & qy & P & Q & E1 & E2 & I1 & I2 & HS).
    apply (region_hull pts h sd ax _ _ H) in R. unfold level, seg_of in L. unfold seg_of. rewrite P, Q in *. destruct ax; cbn in *.
    + destruct (HS _ _ R) as (t & T0 & T1 & Ex & Ey); [rewrite <- L; ring|]. exists t. split; [exact T0|]. split; [exact T1|]. split; [|exact Ey].
      rewrite <- (SS x), Ex. ring.
    + destruct (HS _ _ R) as (t & T0 & T1 & Ex & Ey); [rewrite <- L; ring|]. exists t. split; [exact T0|]. split; [exact T1|]. split; [|exact Ex].
      rewrite <- (SS x), Ey. ring.
Qed.

(** ** The sides are told apart by the signs of the coefficients *)
Definition of_side (sd : side) (ax : axis) (e : edge) : bool := Qcltb (sign sd * coefficient ax e) 0.
Lemma centre_strict : forall pts h e, is_hull pts h -> In e (h_edges h) ->
  forall x0 x1 y0 y1 r, 0 < r ->
  let cx := (x0 + x1) / qz 2 in let cy := (y0 + y1) / qz 2 in
  in_hull pts (cx - r) cy -> in_hull pts (cx + r) cy -> in_hull pts cx (cy - r) -> in_hull pts cx (cy + r) ->
  e_a e <> 0 \/ e_b e <> 0 -> e_a e * cx + e_b e * cy + e_d e < 0.
Proof.
  intros pts h e H He x0 x1 y0 y1 r Hr cx cy A B C D N.
  pose proof (proj1 (ih_exact pts h H _ _) A e He) as A'. pose proof (proj1 (ih_exact pts h H _ _) B e He) as B'.
  pose proof (proj1 (ih_exact pts h H _ _) C e He) as C'. pose proof (proj1 (ih_exact pts h H _ _) D e He) as D'.
  clearbody cx cy. clear A B C D H He. remember (e_a e) as a. remember (e_b e) as b. remember (e_d e) as d. clear Heqa Heqb Heqd e.
  destruct (Qclt_le_dec (a * cx + b * cy + d) 0) as [L|L]; auto. exfalso.
  destruct N as [N|N]; apply N; apply Qcle_antisym.
  - destruct (Qclt_le_dec 0 a) as [Q|Q]; auto. exfalso. clear - B' L Q Hr. qc_nra.
  - destruct (Qclt_le_dec a 0) as [Q|Q]; auto. exfalso. clear - A' L Q Hr. qc_nra.
  - destruct (Qclt_le_dec 0 b) as [Q|Q]; auto. exfalso. clear - D' L Q Hr. qc_nra.
  - destruct (Qclt_le_dec b 0) as [Q|Q]; auto. exfalso. clear - C' L Q Hr. qc_nra.
Qed.

Lemma test_value_side : forall a b d c o, a <> 0 -> a * c + b * o + d < 0 ->
  let t := - (d / a) - (b / a) * o in
  (Qcleb t c = Qcltb a 0) /\ (Qcleb c t = Qcltb 0 a).
Proof.
  intros a b d c o N L t.
  assert (a * t = - d - b * o) as E by (unfold t; field; exact N). clearbody t.
  assert (a * c < a * t) as L' by (rewrite E; qc_lra). clear L E.
  destruct (Qclt_le_dec a 0) as [Q|Q].
  - replace (Qcltb a 0) with true by (symmetry; now apply Qcltb_lt). replace (Qcltb 0 a) with false by (symmetry; apply Qcltb_ge; qc_lra).
    split; [apply Qcleb_le|apply Qcleb_gt]; [|destruct (Qclt_le_dec t c) as [R|R]; auto; exfalso; qc_nra].
    destruct (Qclt_le_dec c t) as [R|R]; auto. exfalso. qc_nra.
  - assert (0 < a) as Q' by (apply Qcle_lt_or_eq in Q as [Q|Q]; [exact Q|congruence]).
    replace (Qcltb a 0) with false by (symmetry; now apply Qcltb_ge). replace (Qcltb 0 a) with true by (symmetry; now apply Qcltb_lt).
    split; [apply Qcleb_gt|apply Qcleb_le]; [destruct (Qclt_le_dec c t) as [R|R]; auto; exfalso; qc_nra|].
    destruct (Qclt_le_dec t c) as [R|R]; auto. exfalso. qc_nra.
Qed.

Lemma filter_filter : forall A (f g : A -> bool) l, filter f (filter g l) = filter (fun x => g x && f x) l.
Proof. induction l as [|a l IH]; cbn; [reflexivity|]. destruct (g a); cbn; rewrite IH; reflexivity. Qed.
Lemma filter_ext_in' : forall A (f g : A -> bool) l, (forall x, In x l -> f x = g x) -> filter f l = filter g l.
Proof. induction l as [|a l IH]; intros H; cbn; [reflexivity|]. rewrite (H a) by now left. rewrite IH; [reflexivity|]. intros; apply H; now right. Qed.

Lemma side_edges_sign : forall pts h sd ax, is_hull pts h -> centred pts ->
  side_edges sd ax h = Ok (filter (of_side sd ax) (h_edges h)).
Proof.
  intros pts h sd ax H (x0 & x1 & y0 & y1 & r & Ex & Ey & Hr & A & B & C & D).
  pose proof (ih_points pts h H) as Hp. rewrite <- Hp in Ex, Ey.
  pose proof (middle_extremes FIRST h x0 x1 Ex) as Mx. pose proof (middle_extremes SECOND h y0 y1 Ey) as My.
  unfold side_edges, non_boundary. destruct ax; cbn [other]; rewrite Mx, My; cbn [bind]; f_equal; rewrite filter_filter;
    apply filter_ext_in'; intros e He; pose proof (centre_strict pts h e H He x0 x1 y0 y1 r Hr A B C D) as S; cbn zeta in S; clear A B C D.
  - unfold of_side, coefficient. destruct (Qceqb (e_a e) 0) eqn:Q; cbn [negb andb].
    + apply Qceqb_eq in Q. rewrite Q. replace (sign sd * 0) with 0 by ring. reflexivity.
    + apply Qceqb_neq in Q. specialize (S (or_introl Q)).
      destruct (test_value_side (e_a e) (e_b e) (e_d e) ((x0 + x1) / qz 2) ((y0 + y1) / qz 2) Q S) as [T1 T2]. cbn zeta in T1, T2.
      unfold test_value, coefficient. cbn [other]. destruct sd; cbn [on_side sign].
      * rewrite T1. f_equal. ring.
      * rewrite T2. destruct (Qcltb 0 (e_a e)) eqn:G; symmetry; [apply Qcltb_lt; apply Qcltb_lt in G|apply Qcltb_ge; apply Qcltb_ge in G]; qc_lra.
  - unfold of_side, coefficient. destruct (Qceqb (e_b e) 0) eqn:Q; cbn [negb andb].
    + apply Qceqb_eq in Q. rewrite Q. replace (sign sd * 0) with 0 by ring. reflexivity.
    + apply Qceqb_neq in Q. specialize (S (or_intror Q)).
      assert (e_b e * ((y0 + y1) / qz 2) + e_a e * ((x0 + x1) / qz 2) + e_d e < 0) as S'.
      { eapply Qcle_lt_trans; [|exact S]. apply Qcle_refl || (match goal with |- ?a <= ?b => replace a with b by ring end; apply Qcle_refl). }
      destruct (test_value_side (e_b e) (e_a e) (e_d e) ((y0 + y1) / qz 2) ((x0 + x1) / qz 2) Q S') as [T1 T2]. cbn zeta in T1, T2.
      unfold test_value, coefficient. cbn [other]. destruct sd; cbn [on_side sign].
      * rewrite T1. f_equal. ring.
      * rewrite T2. destruct (Qcltb 0 (e_b e)) eqn:G; symmetry; [apply Qcltb_lt; apply Qcltb_lt in G|apply Qcltb_ge; apply Qcltb_ge in G]; qc_lra.
Qed.

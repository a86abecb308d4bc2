(** The lower boundary of a convex region given by half planes and its edges. *)
From Verif Require Import QcTac Base BaseLemmas Num Interp_Model Interp_Spec Interp_Proofs.
Local Open Scope list_scope.
Local Open Scope Qc_scope.

(** an edge: two end points and the half plane [a x + b y + d <= 0] it bounds *)
Record seg : Type := mkSeg { s_px : Qc; s_py : Qc; s_qx : Qc; s_qy : Qc; s_a : Qc; s_b : Qc; s_d : Qc }.
Definition level (e : seg) (x y : Qc) : Qc := s_a e * x + s_b e * y + s_d e.
Definition region (segs : list seg) (x y : Qc) : Prop := forall e, In e segs -> level e x y <= 0.

(** what is required of the edges *)
Record proper (segs : list seg) : Prop := {
  pr_p : forall e, In e segs -> region segs (s_px e) (s_py e) /\ level e (s_px e) (s_py e) = 0;
  pr_q : forall e, In e segs -> region segs (s_qx e) (s_qy e) /\ level e (s_qx e) (s_qy e) = 0;
  pr_seg : forall e x y, In e segs -> region segs x y -> level e x y = 0 ->
    exists t, 0 <= t /\ t <= 1 /\ x = s_px e + t * (s_qx e - s_px e) /\ y = s_py e + t * (s_qy e - s_py e) }.

Lemma region_convex : forall segs x y x' y' t, region segs x y -> region segs x' y' -> 0 <= t -> t <= 1 ->
  region segs (x + t * (x' - x)) (y + t * (y' - y)).
Proof.
  intros segs x y x' y' t H H' T0 T1 e He. specialize (H e He). specialize (H' e He). unfold level in *.
  replace (s_a e * (x + t * (x' - x)) + s_b e * (y + t * (y' - y)) + s_d e)
    with ((1 - t) * (s_a e * x + s_b e * y + s_d e) + t * (s_a e * x' + s_b e * y' + s_d e)) by ring.
  remember (s_a e * x + s_b e * y + s_d e) as u. remember (s_a e * x' + s_b e * y' + s_d e) as v.
  clear - H H' T0 T1. qc_nra.
Qed.

(** position on the line of an edge that is not parallel to the first axis *)
Definition line_x (e : seg) (y : Qc) : Qc := - (s_b e * y + s_d e) / s_a e.
Lemma line_x_level : forall e y, s_a e <> 0 -> level e (line_x e y) y = 0.
Proof. intros e y N. unfold level, line_x. field. exact N. Qed.
Lemma level_line : forall e x y, s_a e < 0 -> (level e x y <= 0 <-> line_x e y <= x).
Proof.
  intros e x y N. assert (s_a e <> 0) as N' by (intros E; rewrite E in N; revert N; apply Qcle_not_lt, Qcle_refl).
  pose proof (line_x_level e y N') as L. unfold level in *. remember (line_x e y) as l. clear Heql.
  remember (s_b e * y + s_d e) as c. assert (s_a e * l + c = 0) as L' by (subst c; rewrite <- L; ring).
  replace (s_a e * x + s_b e * y + s_d e) with (s_a e * x + c) by (subst c; ring). clear - N L'.
  split; intros H.
  - destruct (Qclt_le_dec x l) as [Q|Q]; auto. exfalso. qc_nra.
  - qc_nra.
Qed.
Lemma level_line0 : forall e x y, s_a e < 0 -> level e x y = 0 -> x = line_x e y.
Proof.
  intros e x y N E. assert (s_a e <> 0) as N' by (intros E'; rewrite E' in N; revert N; apply Qcle_not_lt, Qcle_refl).
  unfold level, line_x in *. assert (s_b e * y + s_d e = - (s_a e * x)) as Q.
  { replace (s_b e * y + s_d e) with (s_a e * x + s_b e * y + s_d e - s_a e * x) by ring. rewrite E. ring. }
  rewrite Q. field. exact N'.
Qed.

Lemma largest_of : forall A (f : A -> Qc) l, l <> [] -> exists m, In m l /\ forall x, In x l -> f x <= f m.
Proof.
  induction l as [|a l IH]; intros N; [congruence|]. destruct l as [|b l].
  - exists a. split; [now left|]. intros x [<-|[]]. apply Qcle_refl.
  - destruct IH as (m & Hm & H); [discriminate|]. destruct (Qclt_le_dec (f m) (f a)) as [L|L].
    + exists a. split; [now left|]. intros x [<-|Hx]; [apply Qcle_refl|]. specialize (H x Hx). qc_lra.
    + exists m. split; [now right|]. intros x [<-|Hx]; auto.
Qed.

Definition lower_segs (segs : list seg) : list seg := filter (fun e => Qcltb (s_a e) 0) segs.
Lemma lower_segs_in : forall segs e, In e (lower_segs segs) <-> In e segs /\ s_a e < 0.
Proof. intros. unfold lower_segs. rewrite filter_In, Qcltb_lt. reflexivity. Qed.

(** at every height where the region has a position, the leftmost one lies on an edge of the lower side *)
Lemma leftmost : forall segs x0 y lo, region segs x0 y -> (forall x, region segs x y -> lo <= x) ->
  exists x e, In e (lower_segs segs) /\ region segs x y /\ level e x y = 0.
Proof.
  intros segs x0 y lo H0 Hlo.
  assert (lower_segs segs <> []) as Hne.
  { intros E. assert (region segs (Qcmin x0 (lo - 1)) y) as Hr.
    { intros e He. specialize (H0 e He). unfold level in *.
      assert (0 <= s_a e) as P.
      { destruct (Qclt_le_dec (s_a e) 0) as [L|L]; auto. assert (In e (lower_segs segs)) as Q by now apply lower_segs_in.
        rewrite E in Q. destruct Q. }
      assert (Qcmin x0 (lo - 1) <= x0) as L by (qc_cases; qc_lra).
      remember (Qcmin x0 (lo - 1)) as m. clear Heqm. remember (s_b e * y) as by'. clear - H0 P L. qc_nra. }
    apply Hlo in Hr. assert (Qcmin x0 (lo - 1) <= lo - 1) by (qc_cases; qc_lra). qc_lra. }
  destruct (largest_of seg (fun e => line_x e y) _ Hne) as (e & He & Hmax).
  exists (line_x e y), e. pose proof (proj1 (lower_segs_in _ _) He) as [HeS Ha].
  assert (s_a e <> 0) as N by (intros E'; rewrite E' in Ha; revert Ha; apply Qcle_not_lt, Qcle_refl).
  split; [exact He|]. split; [|now apply line_x_level].
  assert (line_x e y <= x0) as L0 by (apply (level_line e x0 y Ha); now apply H0).
  intros f Hf. destruct (Qclt_le_dec (s_a f) 0) as [L|L].
  - apply (level_line f _ y L). apply Hmax. now apply lower_segs_in.
  - specialize (H0 f Hf). unfold level in *. remember (s_b f * y) as by'. remember (line_x e y) as l. clear - H0 L L0. qc_nra.
Qed.

(** on the lower side the region is nowhere further left *)
Lemma lower_least : forall segs e x y, In e (lower_segs segs) -> level e x y = 0 ->
  forall x', region segs x' y -> x <= x'.
Proof.
  intros segs e x y He E x' H. apply lower_segs_in in He as [He Ha]. rewrite (level_line0 e x y Ha E).
  apply (level_line e x' y Ha). now apply H.
Qed.

(** the points of the lower side, as (height, position) *)
Definition chain_points (segs : list seg) (V : list (Qc * Qc)) : Prop :=
  forall y x, In (y, x) V <-> exists e, In e (lower_segs segs) /\ ((x = s_px e /\ y = s_py e) \/ (x = s_qx e /\ y = s_qy e)).

Lemma chain_vertex : forall segs V y x, proper segs -> chain_points segs V -> In (y, x) V ->
  region segs x y /\ forall x', region segs x' y -> x <= x'.
Proof.
  intros segs V y x Hp Hc Hin. apply Hc in Hin as (e & He & Hv). pose proof (proj1 (lower_segs_in _ _) He) as [HeS _].
  destruct Hv as [[-> ->]|[-> ->]].
  - destruct (pr_p segs Hp e HeS) as [R E]. split; [exact R|]. apply (lower_least segs e _ _ He E).
  - destruct (pr_q segs Hp e HeS) as [R E]. split; [exact R|]. apply (lower_least segs e _ _ He E).
Qed.

(** a position on a segment lies on its line between the heights of its end points *)
Lemma edge_between : forall segs e y, proper segs -> In e (lower_segs segs) ->
  Qcmin (s_py e) (s_qy e) <= y -> y <= Qcmax (s_py e) (s_qy e) -> region segs (line_x e y) y.
Proof.
  intros segs e y Hp He L1 L2. pose proof (proj1 (lower_segs_in _ _) He) as [HeS Ha].
  destruct (pr_p segs Hp e HeS) as [Rp Ep]. destruct (pr_q segs Hp e HeS) as [Rq Eq].
  apply (level_line0 _ _ _ Ha) in Ep, Eq.
  destruct (Qc_eq_dec (s_py e) (s_qy e)) as [E|N].
  - assert (y = s_py e) as ->. { rewrite E in *. revert L1 L2. qc_cases; intros; apply Qcle_antisym; assumption. }
    now rewrite <- Ep.
  - assert (s_qy e - s_py e <> 0) as N' by (intros Q; apply N; qc_lra).
    set (t := (y - s_py e) / (s_qy e - s_py e)).
    assert (y = s_py e + t * (s_qy e - s_py e)) as Et by (unfold t; field; exact N').
    assert (line_x e y = s_px e + t * (s_qx e - s_px e)) as El.
    { rewrite Ep, Eq. rewrite Et at 1. unfold line_x. field.
      intros Q. rewrite Q in Ha. revert Ha. apply Qcle_not_lt, Qcle_refl. }
    assert (0 <= t /\ t <= 1) as [T0 T1].
    { clearbody t. clear El. revert L1 L2. unfold Qcmin, Qcmax. destruct (Qcleb (s_py e) (s_qy e)) eqn:Q; intros L1 L2.
      - apply Qcleb_le in Q. assert (s_py e < s_qy e) by (apply Qcle_lt_or_eq in Q as [Q|Q]; auto; congruence).
        split; [destruct (Qclt_le_dec t 0) as [L|L]|destruct (Qclt_le_dec 1 t) as [L|L]]; auto; exfalso; clear Ep Eq; qc_nra.
      - apply Qcleb_gt in Q.
        split; [destruct (Qclt_le_dec t 0) as [L|L]|destruct (Qclt_le_dec 1 t) as [L|L]]; auto; exfalso; clear Ep Eq; qc_nra. }
    rewrite El. rewrite Et. now apply region_convex.
Qed.

(** the points of the lower side have different heights unless they are the same *)
Lemma chain_functional : forall segs V y x x', proper segs -> chain_points segs V -> In (y, x) V -> In (y, x') V -> x = x'.
Proof.
  intros segs V y x x' Hp Hc H H'. destruct (chain_vertex segs V y x Hp Hc H) as [R L]. destruct (chain_vertex segs V y x' Hp Hc H') as [R' L'].
  apply Qcle_antisym; auto.
Qed.

(** interpolation between the points of the lower side gives the leftmost position *)
Lemma chain_interpolates : forall segs V y x v lo, proper segs -> chain_points segs V ->
  (forall x, region segs x y -> lo <= x) -> region segs x y -> interpolates V y v ->
  region segs v y /\ forall x', region segs x' y -> v <= x'.
Proof.
  intros segs V y x v lo Hp Hc Hlo Hx [H|(a & xa & b & xb & Ia & Ib & La & Lb & Hn & ->)]; [now apply (chain_vertex segs V)|].
  destruct (leftmost segs x y lo Hx Hlo) as (z & e & He & Rz & Ez).
  pose proof (proj1 (lower_segs_in _ _) He) as [HeS Ha].
  assert (s_a e <> 0) as N by (intros Q; rewrite Q in Ha; revert Ha; apply Qcle_not_lt, Qcle_refl).
  destruct (pr_seg segs Hp e z y HeS Rz Ez) as (t & T0 & T1 & Exz & Eyz).
  assert (In (s_py e, s_px e) V) as Ip by (apply Hc; exists e; split; auto).
  assert (In (s_qy e, s_qx e) V) as Iq by (apply Hc; exists e; split; auto).
  assert (Qcmin (s_py e) (s_qy e) <= a /\ b <= Qcmax (s_py e) (s_qy e)) as [M1 M2].
  { pose proof (Hn _ _ Ip) as Np. pose proof (Hn _ _ Iq) as Nq. clear - T0 T1 Eyz La Lb Np Nq.
    unfold Qcmin, Qcmax. destruct (Qcleb (s_py e) (s_qy e)) eqn:Q.
    - apply Qcleb_le in Q. assert (s_py e <= y /\ y <= s_qy e) as [? ?] by (split; qc_nra).
      destruct Np, Nq; split; qc_lra.
    - apply Qcleb_gt in Q. assert (s_qy e <= y /\ y <= s_py e) as [? ?] by (split; qc_nra).
      destruct Np, Nq; split; qc_lra. }
  assert (forall c xc, In (c, xc) V -> Qcmin (s_py e) (s_qy e) <= c -> c <= Qcmax (s_py e) (s_qy e) -> xc = line_x e c) as Hv.
  { intros c xc Ic L1 L2. destruct (chain_vertex segs V c xc Hp Hc Ic) as [Rc Lc]. apply Qcle_antisym.
    - apply Lc. now apply edge_between.
    - apply (lower_least segs e _ c He); [now apply line_x_level|exact Rc]. }
  assert (xa = line_x e a) as -> by (apply Hv; auto; qc_lra). assert (xb = line_x e b) as -> by (apply Hv; auto; qc_lra).
  assert (b - a <> 0) as Nab by (intros Q; qc_lra).
  replace (line_x e a + (line_x e b - line_x e a) * ((y - a) / (b - a))) with (line_x e y) by (unfold line_x; field; split; assumption).
  rewrite <- (level_line0 e z y Ha Ez). split; [exact Rz|]. apply (lower_least segs e z y He Ez).
Qed.

(** the heights of the lower side reach from the lowest to the highest position of the region *)
Lemma chain_range : forall segs V y x lo, proper segs -> chain_points segs V ->
  (forall x, region segs x y -> lo <= x) -> region segs x y ->
  in_range V y.
Proof.
  intros segs V y x lo Hp Hc Hlo Hx.
  destruct (leftmost segs x y lo Hx Hlo) as (z & e & He & Rz & Ez).
  pose proof (proj1 (lower_segs_in _ _) He) as [HeS Ha].
  destruct (pr_seg segs Hp e z y HeS Rz Ez) as (t & T0 & T1 & Exz & Eyz).
  assert (In (s_py e, s_px e) V) as Ip by (apply Hc; exists e; split; auto).
  assert (In (s_qy e, s_qx e) V) as Iq by (apply Hc; exists e; split; auto).
  destruct (Qclt_le_dec (s_qy e) (s_py e)) as [L|L].
  - split; [exists (s_qy e), (s_qx e)|exists (s_py e), (s_px e)]; split; auto; clear - T0 T1 Eyz L; qc_nra.
  - split; [exists (s_py e), (s_px e)|exists (s_qy e), (s_qx e)]; split; auto; clear - T0 T1 Eyz L; qc_nra.
Qed.

(** ** Moving into the region by raising the coordinates: first [x] to the boundary at height [y], then [y] *)
Definition clamp (lo hi y : Qc) : Qc := Qcmin (Qcmax y lo) hi.
(** [f y] is the least position at the height nearest to [y] *)
Definition least_at (R : Qc -> Qc -> Prop) (ymin ymax : Qc) (f : Qc -> Qc) : Prop :=
  forall y, R (f y) (clamp ymin ymax y) /\ forall x, R x (clamp ymin ymax y) -> f y <= x.

Definition filled (R : Qc -> Qc -> Prop) : Prop :=
  forall l m u v x y, R l y -> l < x -> R x m -> m < y -> R u v -> x <= u -> y <= v -> R x y.
Lemma half_planes_filled : forall A (L : list A) (a b d : A -> Qc) (R : Qc -> Qc -> Prop),
  (forall x y, R x y <-> forall e, In e L -> a e * x + b e * y + d e <= 0) -> filled R.
Proof.
  intros T L fa fb fd R HR l m u v x y A La B Lb C Lu Lv. apply HR. intros e He.
  pose proof (proj1 (HR _ _) A e He) as A'. pose proof (proj1 (HR _ _) B e He) as B'. pose proof (proj1 (HR _ _) C e He) as C'.
  clear A B C HR. destruct (Qclt_le_dec 0 (fa e * x + fb e * y + fd e)) as [L'|L']; auto. exfalso.
  remember (fa e) as a. remember (fb e) as b. remember (fd e) as d. clear - A' La B' Lb C' Lu Lv L'.
  assert (0 < a) by qc_nra. assert (0 < b) by qc_nra. qc_nra.
Qed.

Theorem project_into : forall (R0 : Qc -> Qc -> Prop) xmin xmax ymin ymax f g x y, filled R0 ->
  (forall u v, R0 u v -> xmin <= u /\ u <= xmax /\ ymin <= v /\ v <= ymax) ->
  least_at R0 ymin ymax f -> least_at (fun v u => R0 u v) xmin xmax g ->
  let x' := Qcmax x (f y) in let y' := Qcmax y (g x') in
  (R0 x y -> x' = x /\ y' = y) /\
  ((exists u v, R0 u v /\ x <= u /\ y <= v) <-> R0 x' y') /\
  (R0 x' y' -> (x' = x \/ forall u, R0 u y' -> x' <= u) /\ (y' = y \/ forall v, R0 x' v -> y' <= v)).
Proof.
  intros R0 xmin xmax ymin ymax f g x y HF HB Hf Hg x' y'. destruct (Hf y) as [Rf Lf]. destruct (Hg x') as [Rg Lg].
  assert (forall u v, R0 u v -> clamp xmin xmax u = u /\ clamp ymin ymax v = v) as Hin.
  { intros u v R. destruct (HB u v R) as (A1 & A2 & A3 & A4). unfold clamp. split; qc_cases; try reflexivity; apply Qcle_antisym; qc_lra. }
  assert (x <= x') as Lx by (unfold x'; qc_cases; qc_lra). assert (y <= y') as Ly by (unfold y'; qc_cases; qc_lra).
  split; [|split].
  - intros R. destruct (Hin x y R) as [Cx Cy]. rewrite Cy in *.
    assert (x' = x) as E. { unfold x'. specialize (Lf x R). qc_cases; [apply Qcle_antisym; assumption|reflexivity]. }
    split; [exact E|]. rewrite E, Cx in Lg. unfold y'. rewrite E. specialize (Lg y R). qc_cases; [apply Qcle_antisym; assumption|reflexivity].
  - split; [|intros R; exists x', y'; auto].
    intros (u & v & R & Lu & Lv). destruct (HB u v R) as (A1 & A2 & A3 & A4).
    destruct (HB _ _ Rf) as (B1 & B2 & B3 & B4).
    destruct (Qclt_le_dec (f y) x) as [L|L].
    + (* the rate is kept *)
      assert (x' = x) as E by (unfold x'; qc_cases; [exfalso; qc_lra|reflexivity]).
      assert (clamp xmin xmax x = x) as Cx by (unfold clamp; qc_cases; try reflexivity; apply Qcle_antisym; qc_lra).
      rewrite E in *. rewrite Cx in *. unfold y'. rewrite E. destruct (Qclt_le_dec (g x) y) as [M|M].
      * assert (Qcmax y (g x) = y) as -> by (qc_cases; [exfalso; qc_lra|reflexivity]).
        destruct (HB _ _ Rg) as (D1 & D2 & D3 & D4).
        assert (clamp ymin ymax y = y) as Cy by (unfold clamp; qc_cases; try reflexivity; apply Qcle_antisym; qc_lra).
        rewrite Cy in Rf. exact (HF (f y) (g x) u v x y Rf L Rg M R Lu Lv).
      * assert (Qcmax y (g x) = g x) as -> by (qc_cases; [reflexivity|apply Qcle_antisym; qc_lra]). exact Rg.
    + assert (x' = f y) as E by (unfold x'; qc_cases; [reflexivity|apply Qcle_antisym; qc_lra]).
      destruct (Hin _ _ Rf) as [Cx _]. rewrite E, Cx in Rg, Lg. rewrite <- E in Rg, Lg.
      rewrite E in Rg. rewrite <- E in Rg.
      assert (R0 x' (clamp ymin ymax y)) as Rf' by (rewrite E; exact Rf).
      rewrite <- E in Cx.
      assert (g x' <= clamp ymin ymax y) as Lg' by (apply Lg; exact Rf').
      destruct (HB _ _ Rg) as (_ & _ & D3 & D4).
      destruct (Qclt_le_dec y ymin) as [M|M].
      * assert (clamp ymin ymax y = ymin) as Cy by (unfold clamp; qc_cases; try reflexivity; try (apply Qcle_antisym; qc_lra); exfalso; qc_lra).
        rewrite Cy in *. assert (g x' = ymin) as Eg by (apply Qcle_antisym; assumption).
        unfold y'. rewrite Eg. assert (Qcmax y ymin = ymin) as -> by (qc_cases; [reflexivity|exfalso; qc_lra]). exact Rf'.
      * assert (clamp ymin ymax y = y) as Cy by (unfold clamp; qc_cases; try reflexivity; apply Qcle_antisym; qc_lra).
        rewrite Cy in *. unfold y'. assert (Qcmax y (g x') = y) as -> by (qc_cases; [apply Qcle_antisym; assumption|reflexivity]). exact Rf'.
  - intros R. destruct (Hin _ _ R) as [Cx' Cy']. rewrite Cx' in *. split.
    + destruct (Qclt_le_dec (f y) x) as [L|L]; [left; unfold x'; qc_cases; [exfalso; qc_lra|reflexivity]|]. right.
      assert (x' = f y) as E by (unfold x'; qc_cases; [reflexivity|apply Qcle_antisym; qc_lra]).
      assert (y' = clamp ymin ymax y) as Ey.
      { assert (g x' <= clamp ymin ymax y) as Lg' by (apply Lg; rewrite E; exact Rf).
        destruct (HB _ _ R) as (_ & _ & D3 & D4). destruct (HB _ _ Rg) as (_ & _ & F3 & F4).
        unfold y' in *. revert D3 D4 Lg'. unfold clamp. remember (g x') as gx. clear - F3 F4.
        qc_cases; intros; try reflexivity; try (apply Qcle_antisym; qc_lra); exfalso; qc_lra. }
      intros u Ru. rewrite E. apply Lf. now rewrite <- Ey.
    + destruct (Qclt_le_dec (g x') y) as [L|L]; [left; unfold y'; qc_cases; [exfalso; qc_lra|reflexivity]|]. right.
      assert (y' = g x') as E by (unfold y'; qc_cases; [reflexivity|apply Qcle_antisym; qc_lra]). rewrite E. exact Lg.
Qed.

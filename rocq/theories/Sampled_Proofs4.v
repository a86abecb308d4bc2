(** The two-dimensional models: requests are moved into the table by recirculation and choking. *)
From Coq Require Import PeanoNat.
From Verif Require Import QcTac Base BaseLemmas Num Interp_Model Interp_Spec Interp_Proofs Sampled_Model Sampled_Spec Sampled_Proofs Sampled_Proofs2 Sampled_Proofs3.
Local Open Scope list_scope.
Local Open Scope Qc_scope.

Lemma answer_from : forall (R : Qc -> Qc -> Prop) (f : Qc -> Qc -> num) xmin xmax ymin ymax F G x y,
  (forall x y, (exists e, f x y = Some e) <-> R x y) -> filled R ->
  (forall u v, R u v -> xmin <= u /\ u <= xmax /\ ymin <= v /\ v <= ymax) ->
  least_at R ymin ymax F -> least_at (fun v u => R u v) xmin xmax G ->
  let x' := Qcmax x (F y) in let y' := Qcmax y (G x') in answer_2d R f x y (f x' y').
Proof.
  intros R f xmin xmax ymin ymax F G x y Hs Hfill HB HF HG x' y'.
  destruct (project_into R xmin xmax ymin ymax F G x y Hfill HB HF HG) as (P1 & P2 & P3). fold x' in P1, P2, P3. fold y' in P1, P2, P3.
  split.
  - rewrite Hs. symmetry. exact P2.
  - intros e He. assert (R x' y') as Rxy by (apply Hs; now exists e). exists x', y'. split; [|exact He].
    split; [exact Rxy|]. split; [unfold x'; qc_cases; qc_lra|]. split; [unfold y'; qc_cases; qc_lra|]. split; [exact P1|]. now apply P3.
Qed.

Lemma clamp_flip : forall lo hi y, lo <= hi -> clamp (- hi) (- lo) (- y) = - clamp lo hi y.
Proof. intros lo hi y L. unfold clamp. qc_cases; try reflexivity; try qc_lra; apply Qcle_antisym; qc_lra. Qed.
Lemma least_at_flip : forall R lo hi F, lo <= hi -> least_at R lo hi F -> least_at (fun x y => R x (- y)) (- hi) (- lo) (fun y => F (- y)).
Proof.
  intros R lo hi F L H y. specialize (H (- y)). pose proof (clamp_flip lo hi (- y) L) as E. replace (- - y) with y in E by ring. cbn beta. rewrite E.
  replace (- - clamp lo hi (- y)) with (clamp lo hi (- y)) by ring. exact H.
Qed.
Lemma least_at_ext : forall (R R' : Qc -> Qc -> Prop) lo hi F, (forall x y, R x y <-> R' x y) -> least_at R lo hi F -> least_at R' lo hi F.
Proof. intros R R' lo hi F E H y. destruct (H y) as [H1 H2]. split; [now apply E|]. intros x Hx. apply H2. now apply E. Qed.

Lemma extremes_exist : forall pts, centred pts -> exists x0 x1 y0 y1, extremes (map fst pts) x0 x1 /\ extremes (map snd pts) y0 y1.
Proof. intros pts (x0 & x1 & y0 & y1 & r & Ex & Ey & _). now exists x0, x1, y0, y1. Qed.
Lemma extremes_le : forall l a b, extremes l a b -> a <= b.
Proof. intros l a b (A & B & C). exact (proj1 (C b B)). Qed.

(** ** Rate and discharge pressure *)
Theorem rate_pd_answer : forall g pts ys m, sound_geometry g -> centred pts -> make_rate_pd g pts ys = Ok m ->
  exists f, g_surface g pts ys = Ok f /\ forall rate pd, answer_2d (in_hull pts) f rate pd (evaluate_rate_pd m rate pd).
Proof.
  intros g pts ys m [Hh Hsf] C E. unfold make_rate_pd in E.
  destruct (g_surface g pts ys) as [f|] eqn:Ef; [|discriminate]. cbn [bind] in E.
  destruct (g_hull g pts) as [h|] eqn:Eh; [|discriminate]. cbn [bind] in E.
  destruct (side_points LOWER FIRST h) as [lr|] eqn:E1; [|discriminate]. cbn [bind] in E.
  destruct (monotonic_points RATE_PD h) as [um|] eqn:E2; [|discriminate]. cbn [bind] in E.
  destruct (side_points LOWER SECOND h) as [lp|] eqn:E3; [|discriminate]. cbn [bind] in E.
  destruct (boundary_function FIRST lr) as [fr|] eqn:E4; [|discriminate]. cbn [bind] in E.
  destruct (boundary_function SECOND lp) as [fp|] eqn:E5; [|discriminate]. cbn [bind] in E.
  destruct (maximum_functions_pd um) as [mx|] eqn:E6; [|discriminate]. cbn [bind] in E. injection E as <-.
  pose proof (Hh _ _ Eh) as H. exists f. split; [reflexivity|]. intros rate pd.
  destruct (extremes_exist pts C) as (x0 & x1 & y0 & y1 & Ex & Ey).
  destruct (side_function pts h LOWER FIRST lr fr y0 y1 x0 x1 H C Ey Ex E1 E4) as (F & HF & LF).
  destruct (side_function pts h LOWER SECOND lp fp x0 x1 y0 y1 H C Ex Ey E3 E5) as (G & HG & LG).
  cbn [sign hull_at] in *.
  unfold evaluate_rate_pd, project_rate_pd. cbn [rp_min_rate rp_min_pd rp_surface]. rewrite HF. cbn [fmax]. rewrite HG. cbn [fmax].
  rewrite !Qcmult_1_l.
  apply (answer_from (in_hull pts) f x0 x1 y0 y1 F G rate pd).
  - exact (Hsf _ _ _ Ef).
  - apply (half_planes_filled _ (h_edges h) e_a e_b e_d). exact (ih_exact pts h H).
  - intros u v R. exact (in_hull_bounds pts u v x0 x1 y0 y1 R Ex Ey).
  - eapply least_at_ext; [|exact LF]. intros x y. cbn beta. rewrite Qcmult_1_l. reflexivity.
  - eapply least_at_ext; [|exact LG]. intros x y. cbn beta. rewrite Qcmult_1_l. reflexivity.
Qed.

(** ** Rate and suction pressure: the suction pressure is measured downwards *)
Lemma fmin_neg : forall x y, fmin x (Some (- (1) * y)) = - Qcmax (- x) y.
Proof. intros. unfold fmin. qc_cases; try reflexivity; try qc_lra; apply Qcle_antisym; qc_lra. Qed.

Theorem rate_ps_answer : forall g pts ys m, sound_geometry g -> centred pts -> make_rate_ps g pts ys = Ok m ->
  exists f, g_surface g pts ys = Ok f /\ forall rate ps,
    answer_2d (fun r p => in_hull pts r (- p)) (fun r p => f r (- p)) rate (- ps) (evaluate_rate_ps m rate ps).
Proof.
  intros g pts ys m [Hh Hsf] C E. unfold make_rate_ps in E.
  destruct (g_surface g pts ys) as [f|] eqn:Ef; [|discriminate]. cbn [bind] in E.
  destruct (g_hull g pts) as [h|] eqn:Eh; [|discriminate]. cbn [bind] in E.
  destruct (side_points LOWER FIRST h) as [lr|] eqn:E1; [|discriminate]. cbn [bind] in E.
  destruct (monotonic_points RATE_PS h) as [um|] eqn:E2; [|discriminate]. cbn [bind] in E.
  destruct (side_points UPPER SECOND h) as [lp|] eqn:E3; [|discriminate]. cbn [bind] in E.
  destruct (boundary_function FIRST lr) as [fr|] eqn:E4; [|discriminate]. cbn [bind] in E.
  destruct (boundary_function SECOND lp) as [fp|] eqn:E5; [|discriminate]. cbn [bind] in E.
  destruct (maximum_function_ps um) as [mx|] eqn:E6; [|discriminate]. cbn [bind] in E. injection E as <-.
  pose proof (Hh _ _ Eh) as H. exists f. split; [reflexivity|]. intros rate ps.
  destruct (extremes_exist pts C) as (x0 & x1 & y0 & y1 & Ex & Ey).
  destruct (side_function pts h LOWER FIRST lr fr y0 y1 x0 x1 H C Ey Ex E1 E4) as (F & HF & LF).
  destruct (side_function pts h UPPER SECOND lp fp x0 x1 y0 y1 H C Ex Ey E3 E5) as (G & HG & LG).
  cbn [sign hull_at] in *.
  unfold evaluate_rate_ps, project_rate_ps. cbn [rs_min_rate rs_max_ps rs_surface]. rewrite HF. cbn [fmax]. rewrite HG, fmin_neg.
  rewrite !Qcmult_1_l.
  pose proof (answer_from (fun r p => in_hull pts r (- p)) (fun r p => f r (- p)) x0 x1 (- y1) (- y0) (fun y => F (- y)) G rate (- ps)) as A.
  cbn beta zeta in A. replace (- - ps) with ps in A by ring. apply A.
  - intros x y. apply (Hsf _ _ _ Ef).
  - apply (half_planes_filled _ (h_edges h) e_a (fun e => - e_b e) e_d). intros x y. rewrite (ih_exact pts h H).
    split; intros Q e He; specialize (Q e He); [replace (- e_b e * y) with (e_b e * - y) by ring|replace (e_b e * - y) with (- e_b e * y) by ring]; exact Q.
  - intros u v R. destruct (in_hull_bounds pts u (- v) x0 x1 y0 y1 R Ex Ey) as (B1 & B2 & B3 & B4). repeat split; auto; qc_lra.
  - apply (least_at_flip (in_hull pts) y0 y1 F); [exact (extremes_le _ _ _ Ey)|]. eapply least_at_ext; [|exact LF]. intros x y. cbn beta. rewrite Qcmult_1_l. reflexivity.
  - eapply least_at_ext; [|exact LG]. intros x y. cbn beta. replace (- (1) * x) with (- x) by ring. reflexivity.
Qed.

(** ** Suction and discharge pressure: the discharge pressure is raised first, then the suction pressure lowered *)
Theorem ps_pd_answer : forall g pts ys m, sound_geometry g -> centred pts -> make_ps_pd g pts ys = Ok m ->
  exists f, g_surface g pts ys = Ok f /\ forall ps pd,
    answer_2d (fun d s => in_hull pts (- s) d) (fun d s => f (- s) d) pd (- ps) (evaluate_ps_pd m ps pd).
Proof.
  intros g pts ys m [Hh Hsf] C E. unfold make_ps_pd in E.
  destruct (g_surface g pts ys) as [f|] eqn:Ef; [|discriminate]. cbn [bind] in E.
  destruct (g_hull g pts) as [h|] eqn:Eh; [|discriminate]. cbn [bind] in E.
  destruct (side_points LOWER SECOND h) as [lr|] eqn:E1; [|discriminate]. cbn [bind] in E.
  destruct (side_points UPPER FIRST h) as [lp|] eqn:E3; [|discriminate]. cbn [bind] in E.
  destruct (boundary_function SECOND lr) as [fr|] eqn:E4; [|discriminate]. cbn [bind] in E.
  destruct (boundary_function FIRST lp) as [fp|] eqn:E5; [|discriminate]. cbn [bind] in E. injection E as <-.
  pose proof (Hh _ _ Eh) as H. exists f. split; [reflexivity|]. intros ps pd.
  destruct (extremes_exist pts C) as (x0 & x1 & y0 & y1 & Ex & Ey).
  destruct (side_function pts h LOWER SECOND lr fr x0 x1 y0 y1 H C Ex Ey E1 E4) as (F & HF & LF).
  destruct (side_function pts h UPPER FIRST lp fp y0 y1 x0 x1 H C Ey Ex E3 E5) as (G & HG & LG).
  cbn [sign hull_at] in *.
  unfold evaluate_ps_pd, project_ps_pd. cbn [pp_min_pd pp_max_ps pp_surface]. rewrite HF. cbn [fmax]. rewrite HG, fmin_neg.
  rewrite !Qcmult_1_l.
  pose proof (answer_from (fun d s => in_hull pts (- s) d) (fun d s => f (- s) d) y0 y1 (- x1) (- x0) (fun y => F (- y)) G pd (- ps)) as A.
  cbn beta zeta in A. replace (- - ps) with ps in A by ring. apply A.
  - intros x y. apply (Hsf _ _ _ Ef).
  - apply (half_planes_filled _ (h_edges h) e_b (fun e => - e_a e) e_d). intros x y. rewrite (ih_exact pts h H).
    split; intros Q e He; specialize (Q e He); [replace (e_b e * x + - e_a e * y) with (e_a e * - y + e_b e * x) by ring|replace (e_a e * - y + e_b e * x) with (e_b e * x + - e_a e * y) by ring]; exact Q.
  - intros u v R. destruct (in_hull_bounds pts (- v) u x0 x1 y0 y1 R Ex Ey) as (B1 & B2 & B3 & B4). repeat split; auto; qc_lra.
  - apply (least_at_flip (fun d s => in_hull pts s d) x0 x1 F); [exact (extremes_le _ _ _ Ex)|]. eapply least_at_ext; [|exact LF]. intros x y. cbn beta. rewrite Qcmult_1_l. reflexivity.
  - eapply least_at_ext; [|exact LG]. intros x y. cbn beta. replace (- (1) * x) with (- x) by ring. reflexivity.
Qed.

(** Tables over two variables: concrete cases, with the hulls and surfaces of three triangles. *)
From Coq Require Import PeanoNat.
From Verif Require Import QcTac Base BaseLemmas Num Interp_Model Interp_Spec Interp_Proofs Sampled_Model Sampled_Spec Sampled_Proofs Sampled_Proofs5 Sampled_Proofs6 Sampled_Proofs7.
Local Open Scope list_scope.
Local Open Scope Qc_scope.

(** The hull of a triangle whose corners are listed anticlockwise *)
Definition side_of (i j : nat) (p q : Qc * Qc) : edge :=
  let a := snd q - snd p in let b := fst p - fst q in
  mkEdge i j a b (- (a * fst p + b * snd p)).
Definition triangle_hull (p q r : Qc * Qc) : hull :=
  mkHull [p; q; r] [side_of 0 1 p q; side_of 1 2 q r; side_of 2 0 r p].
Definition beyond (e : edge) (x y : Qc) : Qc := e_a e * x + e_b e * y + e_d e.
(** twice its area *)
Definition doubled (p q r : Qc * Qc) : Qc :=
  (fst q - fst p) * (snd r - snd p) - (fst r - fst p) * (snd q - snd p).

Lemma in_hull_three : forall p q r x y, in_hull [p; q; r] x y <->
  exists a b c, 0 <= a /\ 0 <= b /\ 0 <= c /\ a + b + c = 1 /\
    x = a * fst p + b * fst q + c * fst r /\ y = a * snd p + b * snd q + c * snd r.
Proof.
  intros p q r x y. split.
  - intros (ws & L & N & S & Ex & Ey). destruct ws as [|a [|b [|c [|]]]]; try discriminate. cbn in *. exists a, b, c.
    repeat split; auto; [rewrite <- S; ring|rewrite Ex; ring|rewrite Ey; ring].
  - intros (a & b & c & Ha & Hb & Hc & S & Ex & Ey). exists [a; b; c]. cbn. split; [reflexivity|]. split; [intros w [<-|[<-|[<-|[]]]]; assumption|].
    split; [rewrite <- S; ring|]. split; [rewrite Ex; ring|rewrite Ey; ring].
Qed.

Lemma qc_div_nonneg : forall a d : Qc, 0 <= a -> 0 < d -> 0 <= a / d.
Proof.
  intros a d Ha Hd. apply Qcmult_lt_0_le_reg_r with d; [exact Hd|]. unfold Qcdiv. rewrite Qcmult_0_l, <- Qcmult_assoc, (Qcmult_comm (/ d)), Qcmult_inv_r, Qcmult_1_r; [exact Ha|].
  intros ->. discriminate Hd.
Qed.

Lemma triangle_is_hull : forall p q r, 0 < doubled p q r -> is_hull [p; q; r] (triangle_hull p q r).
Proof.
  intros [px py] [qx qy] [rx ry] D. unfold doubled in D. cbn [fst snd] in D.
  set (d := (qx - px) * (ry - py) - (rx - px) * (qy - py)) in *.
  assert (d <> 0) as Dn by (intros Z; rewrite Z in D; discriminate D).
  assert (forall x y, in_hull [(px, py); (qx, qy); (rx, ry)] x y -> exists a b c, 0 <= a /\ 0 <= b /\ 0 <= c /\ a + b + c = 1 /\
    x = a * px + b * qx + c * rx /\ y = a * py + b * qy + c * ry /\
    beyond (side_of 0 1 (px, py) (qx, qy)) x y = - (c * d) /\ beyond (side_of 1 2 (qx, qy) (rx, ry)) x y = - (a * d) /\
    beyond (side_of 2 0 (rx, ry) (px, py)) x y = - (b * d)) as HW.
  { intros x y H. apply in_hull_three in H as (a & b & c & Ha & Hb & Hc & S & Ex & Ey). cbn [fst snd] in *. exists a, b, c.
    assert (a = 1 - b - c) as Ea by (rewrite <- S; ring). repeat split; auto; unfold beyond, side_of; cbn [e_a e_b e_d fst snd]; unfold d; rewrite Ex, Ey, Ea; ring. }
  split.
  - reflexivity.
  - intros x y. split.
    + intros H. destruct (HW x y H) as (a & b & c & Ha & Hb & Hc & S & Ex & Ey & E1 & E2 & E3).
      intros e [<-|[<-|[<-|[]]]]; [unfold beyond in E1; rewrite E1|unfold beyond in E2; rewrite E2|unfold beyond in E3; rewrite E3];
        apply Qcopp_le_compat with (p := 0); rewrite <- (Qcmult_0_l d); (apply Qcmult_le_compat_r; [assumption|apply Qclt_le_weak; exact D]).
    + intros H. assert (forall e, In e (h_edges (triangle_hull (px, py) (qx, qy) (rx, ry))) -> 0 <= - beyond e x y) as N.
      { intros e He. specialize (H e He). unfold beyond. qc_lra. }
      apply in_hull_three. cbn [fst snd].
      exists (- beyond (side_of 1 2 (qx, qy) (rx, ry)) x y / d), (- beyond (side_of 2 0 (rx, ry) (px, py)) x y / d), (- beyond (side_of 0 1 (px, py) (qx, qy)) x y / d).
      split; [apply qc_div_nonneg; [apply N; cbn; auto|exact D]|]. split; [apply qc_div_nonneg; [apply N; cbn; auto|exact D]|]. split; [apply qc_div_nonneg; [apply N; cbn; auto|exact D]|].
      unfold beyond, side_of. cbn [e_a e_b e_d fst snd]. unfold d in *. repeat split; field; exact Dn.
  - intros e [<-|[<-|[<-|[]]]]; cbn [side_of e_from e_to e_a e_b e_d fst snd].
    + exists px, py, qx, qy. split; [reflexivity|]. split; [reflexivity|]. split; [ring|]. split; [ring|]. intros x y H Z.
      destruct (HW x y H) as (a & b & c & Ha & Hb & Hc & S & Ex & Ey & E1 & _). unfold beyond, side_of in E1. cbn [e_a e_b e_d fst snd] in E1. rewrite Z in E1.
      assert (c = 0) as Ec by (apply (Qcmult_integral_l d); [exact Dn|]; rewrite Qcmult_comm; qc_lra).
      exists b. assert (a = 1 - b - c) as Ea by (rewrite <- S; ring). split; [exact Hb|]. split; [rewrite Ec in Ea; qc_lra|]. rewrite Ex, Ey, Ea, Ec. split; ring.
    + exists qx, qy, rx, ry. split; [reflexivity|]. split; [reflexivity|]. split; [ring|]. split; [ring|]. intros x y H Z.
      destruct (HW x y H) as (a & b & c & Ha & Hb & Hc & S & Ex & Ey & _ & E1 & _). unfold beyond, side_of in E1. cbn [e_a e_b e_d fst snd] in E1. rewrite Z in E1.
      assert (a = 0) as Ec by (apply (Qcmult_integral_l d); [exact Dn|]; rewrite Qcmult_comm; qc_lra).
      exists c. assert (b = 1 - a - c) as Ea by (rewrite <- S; ring). split; [exact Hc|]. split; [rewrite Ec in Ea; qc_lra|]. rewrite Ex, Ey, Ea, Ec. split; ring.
    + exists rx, ry, px, py. split; [reflexivity|]. split; [reflexivity|]. split; [ring|]. split; [ring|]. intros x y H Z.
      destruct (HW x y H) as (a & b & c & Ha & Hb & Hc & S & Ex & Ey & _ & _ & E1). unfold beyond, side_of in E1. cbn [e_a e_b e_d fst snd] in E1. rewrite Z in E1.
      assert (b = 0) as Ec by (apply (Qcmult_integral_l d); [exact Dn|]; rewrite Qcmult_comm; qc_lra).
      exists a. assert (c = 1 - a - b) as Ea by (rewrite <- S; ring). split; [exact Ha|]. split; [rewrite Ec in Ea; qc_lra|]. rewrite Ex, Ey, Ea, Ec. split; ring.
  - assert (forall i j, In i [0%nat; 1%nat; 2%nat] -> In j [0%nat; 1%nat; 2%nat] ->
      nth_error [(px, py); (qx, qy); (rx, ry)] i = nth_error [(px, py); (qx, qy); (rx, ry)] j -> i = j) as K.
    { intros i j [<-|[<-|[<-|[]]]] [<-|[<-|[<-|[]]]] E; try reflexivity; exfalso; cbn [nth_error] in E;
        pose proof (f_equal (fun o => match o with Some p => fst p | None => 0 end) E) as E1; pose proof (f_equal (fun o => match o with Some p => snd p | None => 0 end) E) as E2;
        cbn [fst snd] in E1, E2; apply Dn; unfold d; rewrite ?E1, ?E2; ring. }
    intros e f i j He Hf Hi Hj E. apply K; [| |exact E].
    + destruct He as [<-|[<-|[<-|[]]]]; cbn [side_of e_from e_to] in Hi; destruct Hi as [<-|[<-|[]]]; cbn; auto.
    + destruct Hf as [<-|[<-|[<-|[]]]]; cbn [side_of e_from e_to] in Hj; destruct Hj as [<-|[<-|[]]]; cbn; auto.
Qed.

(** The plane through the values [1 + x + y], over the triangle *)
Definition triangle_surface (p q r : Qc * Qc) (x y : Qc) : num :=
  if forallb (fun e => Qcleb (beyond e x y) 0) (h_edges (triangle_hull p q r)) then Some (1 + x + y) else None.
Lemma triangle_is_surface : forall p q r, 0 < doubled p q r -> is_surface [p; q; r] (triangle_surface p q r).
Proof.
  intros p q r D x y. rewrite (ih_exact _ _ (triangle_is_hull p q r D) x y). unfold triangle_surface.
  destruct (forallb _ _) eqn:E.
  - rewrite forallb_forall in E. split; [|eauto]. intros _ e He. apply Qcleb_le. exact (E e He).
  - split; [intros (e & Q); discriminate|]. intros H. exfalso. assert (forallb (fun e => Qcleb (beyond e x y) 0) (h_edges (triangle_hull p q r)) = true) as T; [|congruence].
    apply forallb_forall. intros e He. apply Qcleb_le. exact (H e He).
Qed.

(** A geometry that knows triangles whose corners are listed anticlockwise *)
Definition triangles : geometry := {|
  g_hull := fun pts => match pts with
    | [p; q; r] => if Qcltb 0 (doubled p q r) then Ok (triangle_hull p q r) else Err OtherError
    | _ => Err OtherError end;
  g_surface := fun pts _ => match pts with
    | [p; q; r] => if Qcltb 0 (doubled p q r) then Ok (triangle_surface p q r) else Err OtherError
    | _ => Err OtherError end;
  g_solid := fun _ _ => Err OtherError |}.
Lemma triangles_sound : sound_geometry triangles.
Proof.
  split.
  - intros pts h. cbn. destruct pts as [|p [|q [|r [|]]]]; try discriminate. destruct (Qcltb 0 (doubled p q r)) eqn:E; [|discriminate].
    intros Q. injection Q as <-. apply triangle_is_hull. now apply Qcltb_lt.
  - intros pts ys f. cbn. destruct pts as [|p [|q [|r [|]]]]; try discriminate. destruct (Qcltb 0 (doubled p q r)) eqn:E; [|discriminate].
    intros Q. injection Q as <-. apply triangle_is_surface. now apply Qcltb_lt.
Qed.

(** ** A table whose points surround the centre *)
Definition around : list (Qc * Qc) := [(qz 0, qz 0); (qz 10, qz 2); (qz 2, qz 10)].
Lemma around_centred : centred around.
Proof.
  exists (qz 0), (qz 10), (qz 0), (qz 10), (qz 1). split; [|split; [|split; [reflexivity|]]].
  - split; [cbn; auto|]. split; [cbn; auto|]. intros x [<-|[<-|[<-|[]]]]; split; vm_compute; discriminate.
  - split; [cbn; auto|]. split; [cbn; auto|]. intros x [<-|[<-|[<-|[]]]]; split; vm_compute; discriminate.
  - assert (forall x y, forallb (fun e => Qcleb (beyond e x y) 0) (h_edges (triangle_hull (qz 0, qz 0) (qz 10, qz 2) (qz 2, qz 10))) = true -> in_hull around x y) as K.
    { intros x y H. apply (ih_exact _ _ (triangle_is_hull (qz 0, qz 0) (qz 10, qz 2) (qz 2, qz 10) eq_refl)). rewrite forallb_forall in H.
      intros e He. apply Qcleb_le. exact (H e He). }
    cbv zeta. split; [|split; [|split]]; apply K; vm_compute; reflexivity.
Qed.

(** ** A right triangle: its long side passes through the centre, and counts both as the lower and as the upper side *)
Definition right_samples : samples :=
  mkSamples [qz 1; qz 11; qz 11] POWER (Some [qz 0; qz 10; qz 0]) None (Some [qz 0; qz 0; qz 10]) None.
Definition right_points : list (Qc * Qc) := [(qz 0, qz 0); (qz 10, qz 0); (qz 0, qz 10)].
Definition usage_of {A} (f : A -> list num) (r : result A) : option (list num) := match r with Ok a => Some (f a) | Err _ => None end.

Theorem right_triangle_refuted : exists g s m xs ys f r p e,
  sound_geometry g /\ make_sampled g s = Ok m /\ only_vary s [RATE; PD] /\ column s RATE xs /\ column s PD ys /\
  g_surface g (combine xs ys) (sm_usage s) = Ok f /\ tiny < r /\ in_hull (combine xs ys) (r - tiny) p /\
  (exists res, evaluate_sampled m (Some [r]) None (Some [p]) = Ok res /\ sr_usage res = [Some e]) /\
  f (r - tiny) p <> Some e /\ f (qz 9) (qz 1) = Some e.
Proof.
  destruct (make_sampled triangles right_samples) as [m|] eqn:Em.
  2:{ exfalso. assert (match make_sampled triangles right_samples with Ok _ => true | Err _ => false end = true) as T by (vm_compute; reflexivity). rewrite Em in T. discriminate. }
  exists triangles, right_samples, m, [qz 0; qz 10; qz 0], [qz 0; qz 0; qz 10], (triangle_surface (qz 0, qz 0) (qz 10, qz 0) (qz 0, qz 10)), (qz 1 + tiny), (qz 1), (qz 11).
  split; [exact triangles_sound|]. split; [exact Em|]. split; [|split; [reflexivity|]]. 2:split; [reflexivity|].
  - intros v. cbn [In]. destruct v; cbn [right_samples sm_column sm_rate sm_ps sm_pd].
    + split; [|auto]. intros _. exists [qz 0; qz 10; qz 0], (qz 0), (qz 10). repeat split; cbn; auto. discriminate.
    + split; [intros [?|[?|[]]]; discriminate|]. intros (l & x & y & Q & _). discriminate.
    + split; [|auto]. intros _. exists [qz 0; qz 0; qz 10], (qz 0), (qz 10). repeat split; cbn; auto. discriminate.
  - split; [cbn; reflexivity|]. split; [reflexivity|]. split.
    + apply (ih_exact _ _ (triangle_is_hull (qz 0, qz 0) (qz 10, qz 0) (qz 0, qz 10) eq_refl)).
      assert (forallb (fun e => Qcleb (beyond e (qz 1 + tiny - tiny) (qz 1)) 0) (h_edges (triangle_hull (qz 0, qz 0) (qz 10, qz 0) (qz 0, qz 10))) = true) as T by (vm_compute; reflexivity).
      rewrite forallb_forall in T. intros e He. apply Qcleb_le. exact (T e He).
    + split; [|split].
      * assert (usage_of sr_usage (bind (make_sampled triangles right_samples) (fun m => evaluate_sampled m (Some [qz 1 + tiny]) None (Some [qz 1]))) = Some [Some (qz 11)]) as T by (vm_compute; reflexivity).
        rewrite Em in T. cbn [bind] in T. destruct (evaluate_sampled m (Some [qz 1 + tiny]) None (Some [qz 1])) as [res|]; [|discriminate]. exists res. split; [reflexivity|]. cbn [usage_of] in T. congruence.
      * vm_compute. discriminate.
      * vm_compute. reflexivity.
Qed.

(** ** A triangle that leans to the right: the constructor raises IndexError *)
Definition leaning_samples : samples :=
  mkSamples [qz 1; qz 21; qz 16] POWER (Some [qz 0; qz 10; qz 5]) None (Some [qz 0; qz 10; qz 10]) None.
Theorem leaning_triangle_refuted : exists g s xs ys, sound_geometry g /\ acceptable s /\ only_vary s [RATE; PD] /\
  column s RATE xs /\ column s PD ys /\
  (exists h, g_hull g (combine xs ys) = Ok h) /\ (exists f, g_surface g (combine xs ys) (sm_usage s) = Ok f) /\
  make_sampled g s = Err IndexError.
Proof.
  exists triangles, leaning_samples, [qz 0; qz 10; qz 5], [qz 0; qz 10; qz 10]. split; [exact triangles_sound|].
  split; [apply acceptable_ok; vm_compute; reflexivity|]. split; [|split; [reflexivity|split; [reflexivity|]]].
  - intros v. cbn [In]. destruct v; cbn [leaning_samples sm_column sm_rate sm_ps sm_pd].
    + split; [|auto]. intros _. exists [qz 0; qz 10; qz 5], (qz 0), (qz 10). repeat split; cbn; auto. discriminate.
    + split; [intros [?|[?|[]]]; discriminate|]. intros (l & x & y & Q & _). discriminate.
    + split; [|auto]. intros _. exists [qz 0; qz 10; qz 10], (qz 0), (qz 10). repeat split; cbn; auto. discriminate.
  - split; [eexists; cbn; reflexivity|]. split; [eexists; cbn; reflexivity|]. vm_compute. reflexivity.
Qed.

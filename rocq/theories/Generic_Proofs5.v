(** The capacity check and the generic charts do not depend on the units of rate and head. *)
From Coq Require Import PeanoNat.
From Verif Require Import QcTac BaseLemmas Num Interp_Model Time_Proofs Chart_Model Pump_Proofs Compressor_Model Search_Model
  Generic_Model Generic_Spec Base Generic_Proofs.
Local Open Scope list_scope.
Local Open Scope Qc_scope.

Definition rmap {A B : Type} (f : A -> B) (r : result A) : result B := match r with Ok x => Ok (f x) | Err e => Err e end.
Lemma bind_rmap : forall (A B C D : Type) (f : A -> C) (g : B -> D) (r : result A) (r' : result C) (k : A -> result B) (k' : C -> result D),
  r' = rmap f r -> (forall x, k' (f x) = rmap g (k x)) -> bind r' k' = rmap g (bind r k).
Proof. intros A B C D f g r r' k k' -> H. destruct r; cbn; auto. Qed.

Lemma ltb_scale : forall a x y, 0 < a -> Qcltb (a * x) (a * y) = Qcltb x y.
Proof.
  intros a x y A. destruct (Qcltb x y) eqn:E.
  - apply Qcltb_lt in E. apply Qcltb_lt. now apply scale_lt.
  - apply Qcltb_ge in E. apply Qcltb_ge. now apply scale_le.
Qed.
Lemma leb_scale : forall a x y, 0 < a -> Qcleb (a * x) (a * y) = Qcleb x y.
Proof.
  intros a x y A. destruct (Qcleb x y) eqn:E.
  - apply Qcleb_le in E. apply Qcleb_le. now apply scale_le.
  - apply Qcleb_gt in E. apply Qcleb_gt. now apply scale_lt.
Qed.
Lemma max_scale : forall a x y, 0 < a -> Qcmax (a * x) (a * y) = a * Qcmax x y.
Proof. intros a x y A. unfold Qcmax. rewrite leb_scale by auto || rewrite ltb_scale by auto. destruct (Qcleb x y) || destruct (Qcltb x y); reflexivity. Qed.
Lemma mul_inj : forall a x y, 0 < a -> a * x = a * y -> x = y.
Proof. intros a x y A E. apply (f_equal (fun z => z / a)) in E. revert E. replace (a * x / a) with x by (field; now apply lt_neq). replace (a * y / a) with y by (field; now apply lt_neq). auto. Qed.

Lemma insert_map : forall (A B : Type) (f : A -> B) (le : A -> A -> bool) (le' : B -> B -> bool) x l, (forall a b, le' (f a) (f b) = le a b) ->
  insert_sorted le' (f x) (map f l) = map f (insert_sorted le x l).
Proof. intros A B f le le' x l H. induction l as [|y l IH]; [reflexivity|]. cbn. rewrite H. destruct (le x y); [reflexivity|]. cbn. now rewrite IH. Qed.
Lemma sort_map : forall (A B : Type) (f : A -> B) (le : A -> A -> bool) (le' : B -> B -> bool) l, (forall a b, le' (f a) (f b) = le a b) ->
  sort le' (map f l) = map f (sort le l).
Proof. intros A B f le le' l H. induction l as [|y l IH]; [reflexivity|]. cbn. rewrite IH. now apply insert_map. Qed.

Section Scale.
Variables a b : Qc.
Hypothesis A : 0 < a.
Hypothesis B : 0 < b.

Definition both (x y : Qc) (p : Qc * Qc) : Qc * Qc := (x * fst p, y * snd p).
Lemma combine_both : forall x y xs ys, combine (map (Qcmult x) xs) (map (Qcmult y) ys) = map (both x y) (combine xs ys).
Proof. intros x y. induction xs as [|u xs IH]; intros [|v ys]; try reflexivity. cbn. now rewrite IH. Qed.
Lemma last_both : forall x y l d, fst (last (map (both x y) l) (both x y d)) = x * fst (last l d).
Proof. intros x y. induction l as [|p l IH]; intros d; [reflexivity|]. cbn [map]. rewrite !last_shift. apply IH. Qed.

Lemma np_interp_scale : forall x y, 0 < x -> 0 < y -> forall pts z, np_interp (map (both x y) pts) (x * z) = option_map (Qcmult y) (np_interp pts z).
Proof.
  intros x y X Y. induction pts as [|[u v] pts IH]; intros z; [reflexivity|]. cbn [map]. destruct pts as [|[u' v'] pts]; [reflexivity|].
  cbn [map np_interp both fst snd] in *. rewrite ltb_scale by auto. destruct (Qcltb z u'); [|apply IH]. cbn [option_map]. f_equal.
  destruct (Qc_eq_dec (u' - u) 0) as [Z|Z].
  - replace (x * u' - x * u) with (x * (u' - u)) by ring. rewrite Z. replace (x * 0) with (0 : Qc) by ring. unfold Qcdiv.
    replace (/ 0) with (0 : Qc) by reflexivity. ring.
  - assert (x <> 0) as X' by now apply lt_neq. field. split; auto. intros E. apply Z. apply (mul_inj x); auto. 
    replace (x * (u' - u)) with (x * u' - x * u) by ring. rewrite E. ring.
Qed.
Lemma interp1d_at_scale : forall x y, 0 < x -> 0 < y -> forall xs ys lo hi z,
  interp1d_at (map (Qcmult x) xs) (map (Qcmult y) ys) (y * lo) (y * hi) (x * z) = rmap (Qcmult y) (interp1d_at xs ys lo hi z).
Proof.
  intros x y X Y xs ys lo hi z. unfold interp1d_at, make_interpolator. rewrite !map_length.
  destruct (negb _); [reflexivity|]. destruct xs as [|x0 xs]; [reflexivity|]. change (map (Qcmult x) (x0 :: xs)) with (x * x0 :: map (Qcmult x) xs). cbv iota beta.
  change (x * x0 :: map (Qcmult x) xs) with (map (Qcmult x) (x0 :: xs)). rewrite combine_both. cbn [bind].
  rewrite (sort_map _ _ (both x y) (fun p q => Qcleb (fst p) (fst q))) by (intros; cbn; now apply leb_scale).
  unfold interpolate_1d. cbn [ip_points ip_below ip_above]. destruct (sort _ (combine (x0 :: xs) ys)) as [|[u v] l]; [reflexivity|].
  change (map (both x y) ((u, v) :: l)) with ((x * u, y * v) :: map (both x y) l). cbv iota beta.
  change (x * u, y * v) with (both x y (u, v)). rewrite last_both. unfold both at 1. cbn [fst]. rewrite !ltb_scale by auto.
  destruct (Qcltb z u); [reflexivity|]. destruct (Qcltb _ z); [reflexivity|].
  transitivity (of_option OtherError (np_interp (map (both x y) ((u, v) :: l)) (x * z))); [reflexivity|]. rewrite np_interp_scale by auto. now destruct (np_interp _ z).
Qed.
Lemma hd_scale : forall y l e, of_option e (hd_error (map (Qcmult y) l)) = rmap (Qcmult y) (of_option e (hd_error l)).
Proof. intros y [|v l] e; reflexivity. Qed.
Lemma last_opt_scale : forall y l e, of_option e (last_opt (map (Qcmult y) l)) = rmap (Qcmult y) (of_option e (last_opt l)).
Proof.
  intros y [|v l] e; [reflexivity|]. cbn [map last_opt of_option rmap]. f_equal. revert v. induction l as [|w l IH]; intros v; [reflexivity|].
  cbn [map]. rewrite !last_shift. apply IH.
Qed.
Lemma interp1d_ends_scale : forall x y, 0 < x -> 0 < y -> forall xs ys z,
  interp1d_ends (map (Qcmult x) xs) (map (Qcmult y) ys) (x * z) = rmap (Qcmult y) (interp1d_ends xs ys z).
Proof.
  intros x y X Y xs ys z. unfold interp1d_ends. eapply bind_rmap; [apply hd_scale|]. intros lo.
  eapply bind_rmap; [apply last_opt_scale|]. intros hi. now apply interp1d_at_scale.
Qed.

(** a chart in other units *)
Definition scale_point (p : Qc * Qc * Qc) : Qc * Qc * Qc := (a * p_rate p, b * p_head p, p_eff p).
Local Notation scale_curve := (curve_in_units a b).
Local Notation scale_capacity := (capacity_in_units a b).

Lemma rate_scale : forall c, cv_rate (scale_curve c) = map (Qcmult a) (cv_rate c).
Proof. intros c. unfold cv_rate, curve_in_units. cbn [cv_points]. rewrite !map_map. reflexivity. Qed.
Lemma head_scale : forall c, cv_head (scale_curve c) = map (Qcmult b) (cv_head c).
Proof. intros c. unfold cv_head, curve_in_units. cbn [cv_points]. rewrite !map_map. reflexivity. Qed.
Lemma slow_scale : forall cs, slow_curve (map scale_curve cs) = rmap scale_curve (slow_curve cs).
Proof. intros [|c cs]; reflexivity. Qed.
Lemma fast_scale : forall cs, fast_curve (map scale_curve cs) = rmap scale_curve (fast_curve cs).
Proof.
  intros [|c cs]; [reflexivity|]. unfold fast_curve. cbn [map last_opt of_option rmap]. f_equal. revert c. induction cs as [|d cs IH]; intros c; [reflexivity|].
  cbn [map]. rewrite !last_shift. apply IH.
Qed.
Lemma min_rate_scale : forall c, curve_min_rate (scale_curve c) = rmap (Qcmult a) (curve_min_rate c).
Proof. intros c. unfold curve_min_rate. rewrite rate_scale. apply hd_scale. Qed.
Lemma max_rate_scale : forall c, curve_max_rate (scale_curve c) = rmap (Qcmult a) (curve_max_rate c).
Proof. intros c. unfold curve_max_rate. rewrite rate_scale. apply last_opt_scale. Qed.
Lemma by_head_scale : forall c, by_head (scale_curve c) = map (both b a) (by_head c).
Proof.
  intros c. unfold by_head. rewrite rate_scale, head_scale, combine_both. apply sort_map. intros p q. cbn. now apply leb_scale.
Qed.
Lemma fst_both : forall l, map fst (map (both b a) l) = map (Qcmult b) (map fst l). Proof. intros l. now rewrite !map_map. Qed.
Lemma snd_both : forall l, map snd (map (both b a) l) = map (Qcmult a) (map snd l). Proof. intros l. now rewrite !map_map. Qed.

Lemma minimum_head_scale : forall cs q, minimum_head_at (map scale_curve cs) (a * q) = rmap (Qcmult b) (minimum_head_at cs q).
Proof.
  intros cs q. unfold minimum_head_at. eapply bind_rmap; [apply slow_scale|]. intros slow. eapply bind_rmap; [apply fast_scale|]. intros fast.
  eapply bind_rmap; [apply max_rate_scale|]. intros r. eapply bind_rmap; [apply max_rate_scale|]. intros r0. rewrite ltb_scale by auto.
  destruct (Qcltb r0 r).
  - eapply bind_rmap; [rewrite head_scale; apply last_opt_scale|]. intros h. rewrite rate_scale, head_scale.
    change [a * r] with (map (Qcmult a) [r]). change [b * h] with (map (Qcmult b) [h]). rewrite <- !map_app. now apply interp1d_ends_scale.
  - rewrite rate_scale, head_scale. now apply interp1d_ends_scale.
Qed.
Lemma minimum_rate_scale : forall cs h, minimum_rate_at (map scale_curve cs) (b * h) = rmap (Qcmult a) (minimum_rate_at cs h).
Proof.
  intros cs h. unfold minimum_rate_at. eapply bind_rmap; [apply slow_scale|]. intros slow. eapply bind_rmap; [apply fast_scale|]. intros fast.
  eapply bind_rmap; [rewrite head_scale; apply hd_scale|]. intros h1. eapply bind_rmap; [apply min_rate_scale|]. intros r1.
  eapply bind_rmap; [rewrite head_scale; apply hd_scale|]. intros h0. eapply bind_rmap; [apply min_rate_scale|]. intros r0.
  change [b * h0; b * h1] with (map (Qcmult b) [h0; h1]). change [a * r0; a * r1] with (map (Qcmult a) [r0; r1]). now apply interp1d_at_scale.
Qed.
Lemma minimum_rate_nc_scale : forall cs h, minimum_rate_no_choking_at (map scale_curve cs) (b * h) = rmap (Qcmult a) (minimum_rate_no_choking_at cs h).
Proof.
  intros cs h. unfold minimum_rate_no_choking_at. eapply bind_rmap; [apply slow_scale|]. intros slow. eapply bind_rmap; [apply fast_scale|]. intros fast.
  eapply bind_rmap; [rewrite head_scale; apply hd_scale|]. intros h1. eapply bind_rmap; [apply min_rate_scale|]. intros r1.
  rewrite rate_scale, head_scale, <- !map_rev. change [b * h1] with (map (Qcmult b) [h1]). change [a * r1] with (map (Qcmult a) [r1]).
  rewrite <- !map_app. now apply interp1d_ends_scale.
Qed.
Lemma maximum_rate_scale : forall cs h, maximum_rate_at (map scale_curve cs) (b * h) = rmap (Qcmult a) (maximum_rate_at cs h).
Proof.
  intros cs h. unfold maximum_rate_at. eapply bind_rmap; [apply fast_scale|]. intros fast. rewrite by_head_scale, fst_both, snd_both. now apply interp1d_ends_scale.
Qed.
Lemma maximum_rate_nc_scale : forall cs h, maximum_rate_no_choking_at (map scale_curve cs) (b * h) = rmap (Qcmult a) (maximum_rate_no_choking_at cs h).
Proof.
  intros cs h. unfold maximum_rate_no_choking_at. eapply bind_rmap; [apply slow_scale|]. intros slow.
  eapply bind_rmap; [apply max_rate_scale|]. intros r0. eapply bind_rmap; [rewrite head_scale; apply last_opt_scale|]. intros h0.
  eapply bind_rmap; [apply fast_scale|]. intros fast. rewrite by_head_scale, fst_both, snd_both.
  change (b * h0 :: map (Qcmult b) (map fst (by_head fast))) with (map (Qcmult b) (h0 :: map fst (by_head fast))).
  change (a * r0 :: map (Qcmult a) (map snd (by_head fast))) with (map (Qcmult a) (r0 :: map snd (by_head fast))). now apply interp1d_ends_scale.
Qed.
Lemma maximum_head_scale : forall cs q, maximum_head_at (map scale_curve cs) (a * q) = rmap (Qcmult b) (maximum_head_at cs q).
Proof.
  intros cs q. unfold maximum_head_at. eapply bind_rmap; [apply fast_scale|]. intros fast. unfold curve_head_at. rewrite rate_scale, head_scale. now apply interp1d_ends_scale.
Qed.

Lemma capacity_scale : forall cs choke q h, evaluate_capacity (map scale_curve cs) choke (a * q) (b * h) = rmap scale_capacity (evaluate_capacity cs choke q h).
Proof.
  intros cs choke q h. unfold evaluate_capacity.
  eapply bind_rmap with (f := Qcmult a); [destruct choke; [apply minimum_rate_scale|apply minimum_rate_nc_scale]|]. intros m. rewrite max_scale by auto.
  eapply bind_rmap; [apply minimum_head_scale|]. intros k. rewrite !max_scale by auto. rewrite !ltb_scale by auto.
  destruct choke.
  - eapply bind_rmap; [apply maximum_rate_scale|]. intros M. eapply bind_rmap; [apply maximum_head_scale|]. intros g. rewrite !ltb_scale by auto. reflexivity.
  - eapply bind_rmap; [apply maximum_rate_nc_scale|]. intros M. eapply bind_rmap; [apply maximum_head_scale|]. intros g. rewrite !ltb_scale by auto. reflexivity.
Qed.
Lemma capacities_scale : forall cs choke rates heads,
  evaluate_capacities (map scale_curve cs) choke (map (Qcmult a) rates) (map (Qcmult b) heads) = rmap (map scale_capacity) (evaluate_capacities cs choke rates heads).
Proof.
  intros cs choke rates heads. unfold evaluate_capacities. rewrite combine_both. generalize (combine rates heads). intros l.
  induction l as [|[q h] l IH]; [reflexivity|]. cbn [map mapM both fst snd]. eapply bind_rmap; [apply capacity_scale|]. intros c.
  eapply bind_rmap; [apply IH|]. reflexivity.
Qed.
Lemma below_scale : forall l, any_below_stone_wall (map scale_capacity l) = any_below_stone_wall l.
Proof. intros l. unfold any_below_stone_wall, any_above_maximum_speed. induction l as [|c l IH]; [reflexivity|]. cbn [map existsb]. now rewrite IH. Qed.
Lemma above_scale : forall l, any_above_maximum_speed (map scale_capacity l) = any_above_maximum_speed l.
Proof. intros l. unfold any_below_stone_wall, any_above_maximum_speed. induction l as [|c l IH]; [reflexivity|]. cbn [map existsb]. now rewrite IH. Qed.

(** ** generic charts *)
Lemma generic_scale : forall u r h e s, generic_curve u (a * r) (b * h) e s = rmap scale_curve (generic_curve u r h e s).
Proof.
  intros u r h e s. unfold generic_curve, make_curve. rewrite !map_length. destruct (negb (forallb _ _)); [reflexivity|]. destruct (negb _); [reflexivity|].
  destruct (Nat.ltb _ _); [reflexivity|]. cbn [rmap]. f_equal. unfold curve_in_units. cbn [cv_points cv_speed]. f_equal. rewrite !combine_scaled.
  rewrite <- (sort_map _ _ scale_point (fun p q => Qcleb (p_rate p) (p_rate q)) (fun p q => Qcleb (p_rate p) (p_rate q))).
  - f_equal. unfold scaled. rewrite map_map. apply map_ext. intros p. unfold scale_point. cbn. f_equal. f_equal; ring.
  - intros p q. cbn. now apply leb_scale.
Qed.
Lemma from_design_scale : forall r h e, from_design_point (a * r) (b * h) e = rmap (map scale_curve) (from_design_point r h e).
Proof.
  intros r h e. unfold from_design_point. eapply bind_rmap; [apply generic_scale|]. intros slow. eapply bind_rmap; [apply generic_scale|]. reflexivity.
Qed.

Section Values.
Variables (rates heads : list Qc) (e sr sh : Qc).
Local Notation rates' := (map (Qcmult a) rates).
Local Notation heads' := (map (Qcmult b) heads).
Lemma result_scale : forall R H, chart_result rates' heads' e (a * sr) (b * sh) R H = rmap (map scale_capacity) (chart_result rates heads e sr sh R H).
Proof.
  intros R H. unfold chart_result. replace (R * (a * sr)) with (a * (R * sr)) by ring. replace (H * (b * sh)) with (b * (H * sh)) by ring.
  eapply bind_rmap; [apply from_design_scale|]. intros cs. apply capacities_scale.
Qed.
Lemma below_wall_scale : forall R H, below_wall rates' heads' e (a * sr) (b * sh) R H = below_wall rates heads e sr sh R H.
Proof. intros R H. unfold below_wall. rewrite result_scale. destruct (chart_result rates heads e sr sh R H); cbn; auto. now rewrite below_scale. Qed.
Lemma above_curve_scale : forall R H, above_curve rates' heads' e (a * sr) (b * sh) R H = above_curve rates heads e sr sh R H.
Proof. intros R H. unfold above_curve. rewrite result_scale. destruct (chart_result rates heads e sr sh R H); cbn; auto. now rewrite above_scale. Qed.
Lemma maximize_ext : forall lo hi f g, (forall x, f x = g x) -> maximize lo hi f = maximize lo hi g.
Proof.
  intros lo hi f g H. unfold maximize. f_equal.
  enough (forall n rel x0 x1 s, maximize_loop (fun x (s : unit) => match f x with Ok b => (Return b, s) | Err _ => (Raise OtherProcessError, s) end) convergence_tolerance n rel x0 x1 s =
    maximize_loop (fun x s => match g x with Ok b => (Return b, s) | Err _ => (Raise OtherProcessError, s) end) convergence_tolerance n rel x0 x1 s) as X.
  { unfold maximize_x. now rewrite X. }
  induction n as [|n IH]; intros rel x0 x1 s; [reflexivity|]. cbn [maximize_loop]. destruct (Qcltb _ _); [|reflexivity]. unfold Search_Model.bind. rewrite H.
  destruct (g _); auto.
Qed.
Lemma increase_step : forall rates heads e sr sh n R H, increase rates heads e sr sh (S n) R H =
  bind (above_curve rates heads e sr sh R H) (fun above => if above then
    bind (maximize H (1 + change_in_head) (fun x => not_r (below_wall rates heads e sr sh (R + qc 1 100) x))) (fun head => increase rates heads e sr sh n (R + qc 1 100) head)
    else Ok (Some (R, H))).
Proof. reflexivity. Qed.
Lemma increase_zero : forall rates heads e sr sh R H, increase rates heads e sr sh 0 R H =
  bind (above_curve rates heads e sr sh R H) (fun above => if above then Ok None else Ok (Some (R, H))).
Proof. reflexivity. Qed.
Lemma bind_ext : forall (X Y : Type) (r r' : result X) (k k' : X -> result Y), r = r' -> (forall x, k x = k' x) -> bind r k = bind r' k'.
Proof. intros X Y r r' k k' -> H. destruct r'; cbn; auto. Qed.
Lemma increase_scale : forall n R H, increase rates' heads' e (a * sr) (b * sh) n R H = increase rates heads e sr sh n R H.
Proof.
  induction n as [|n IH]; intros R H.
  - rewrite !increase_zero. apply bind_ext; [apply above_curve_scale|reflexivity].
  - rewrite !increase_step. generalize (R + qc 1 100). intros R'. apply bind_ext; [apply above_curve_scale|]. intros [|]; [|reflexivity].
    apply bind_ext; [|intros x; apply IH]. apply maximize_ext. intros x. apply (f_equal not_r). apply below_wall_scale.
Qed.
Lemma unified_scale : forall n, unified_design rates' heads' e (a * sr) (b * sh) n = unified_design rates heads e sr sh n.
Proof.
  intros n. unfold unified_design. apply bind_ext; [apply below_wall_scale|]. intros [|].
  - apply bind_ext; [|intros x; apply increase_scale]. apply maximize_ext. intros x. apply (f_equal not_r). apply below_wall_scale.
  - apply bind_ext; [apply above_curve_scale|]. intros [|]; [|reflexivity].
    apply bind_ext. { apply maximize_ext. intros x. apply (f_equal not_r). apply below_wall_scale. }
    intros H. apply bind_ext; [apply above_curve_scale|]. intros [|].
    + apply increase_scale.
    + apply bind_ext; [|reflexivity]. apply maximize_ext. intros x. apply (f_equal not_r). apply above_curve_scale.
Qed.
End Values.

Lemma max_of_scale : forall y l, 0 < y -> qc_max_of (map (Qcmult y) l) = rmap (Qcmult y) (qc_max_of l).
Proof.
  intros y [|v l] Y; [reflexivity|]. cbn. f_equal. revert v. induction l as [|w l IH]; intros v; [reflexivity|]. cbn. rewrite max_scale by auto. apply IH.
Qed.
Lemma from_values_scale : forall n rates heads e,
  from_values n (map (Qcmult a) rates) (map (Qcmult b) heads) e = rmap (option_map (map scale_curve)) (from_values n rates heads e).
Proof.
  intros n rates heads e. unfold from_values. eapply bind_rmap; [now apply max_of_scale|]. intros qm. eapply bind_rmap; [now apply max_of_scale|]. intros hm.
  replace (a * qm / max_rate_105) with (a * (qm / max_rate_105)) by (field; discriminate).
  replace (b * hm / max_head_105) with (b * (hm / max_head_105)) by (field; discriminate).
  eapply bind_rmap with (f := fun x => x); [rewrite unified_scale; now destruct (unified_design _ _ _ _ _ _)|]. intros [[R H]|]; [|reflexivity].
  replace (R * (a * (qm / max_rate_105))) with (a * (R * (qm / max_rate_105))) by ring. replace (H * (b * (hm / max_head_105))) with (b * (H * (hm / max_head_105))) by ring.
  eapply bind_rmap; [apply from_design_scale|]. reflexivity.
Qed.
End Scale.

(** ** the properties *)
Theorem capacity_units_proof : forall a b cs choke q h, 0 < a -> 0 < b ->
  evaluate_capacity (map (curve_in_units a b) cs) choke (a * q) (b * h) =
  match evaluate_capacity cs choke q h with Ok c => Ok (capacity_in_units a b c) | Err e => Err e end.
Proof. intros a b cs choke q h A B. exact (capacity_scale a b A B cs choke q h). Qed.
Theorem generic_units_proof : forall a b n rates heads e, 0 < a -> 0 < b ->
  from_values n (map (fun q => a * q) rates) (map (fun h => b * h) heads) e =
  match from_values n rates heads e with
  | Ok (Some cs) => Ok (Some (map (curve_in_units a b) cs))
  | Ok None => Ok None
  | Err x => Err x
  end.
Proof.
  intros a b n rates heads e A B. transitivity (rmap (option_map (map (curve_in_units a b))) (from_values n rates heads e)).
  - exact (from_values_scale a b A B n rates heads e).
  - destruct (from_values n rates heads e) as [[cs|]|x]; reflexivity.
Qed.

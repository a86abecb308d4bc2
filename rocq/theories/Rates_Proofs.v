From Coq Require Import PeanoNat.
From Verif Require Import QcTac Base BaseLemmas Num Time_Model Time_Spec Time_Proofs Time_Proofs2 Time_Proofs3 Units_Model Rates_Model Rates_Spec.
Local Open Scope Z_scope.

(** ** cumulative sums (C12) *)
Fixpoint runsum (acc : Qc) (l : list Qc) : list Qc :=
  match l with [] => [] | v :: r => (acc + v)%Qc :: runsum (acc + v)%Qc r end.
Lemma nancumsum_runsum : forall l acc, nancumsum_from acc l = map Some (runsum acc (map nan_zero l)).
Proof. induction l as [|v l IH]; intros acc; cbn; [reflexivity|]. now rewrite IH. Qed.
Lemma runsum_length : forall l acc, length (runsum acc l) = length l.
Proof. induction l as [|v l IH]; intros acc; cbn; auto. Qed.
Lemma nancumsum_length : forall l acc, length (nancumsum_from acc l) = length l.
Proof. intros. now rewrite nancumsum_runsum, map_length, runsum_length, map_length. Qed.
Lemma runsum_nth : forall l acc k, (k < length l)%nat ->
  nth_error (runsum acc l) k = Some (acc + qsum (firstn (S k) l))%Qc.
Proof.
  induction l as [|v l IH]; intros acc k H; cbn in H; [lia|]. destruct k as [|k].
  - cbn. f_equal. ring.
  - cbn [runsum nth_error]. rewrite IH by lia. cbn [firstn qsum fold_right].
    f_equal. destruct l as [|w l]; [cbn in H; lia|]. unfold qsum. cbn [firstn fold_right]. ring.
Qed.
Lemma np_diff_runsum : forall l acc, np_diff (Some acc :: map Some (runsum acc l)) = map Some l.
Proof.
  induction l as [|v l IH]; intros acc; [reflexivity|].
  cbn [runsum map]. change (np_diff (Some acc :: Some (acc + v)%Qc :: map Some (runsum (acc + v)%Qc l)))
    with (Some (acc + v - acc)%Qc :: np_diff (Some (acc + v)%Qc :: map Some (runsum (acc + v)%Qc l))).
  rewrite IH. f_equal. f_equal. ring.
Qed.
Lemma qsum_app : forall a b, qsum (a ++ b) = (qsum a + qsum b)%Qc.
Proof. unfold qsum; induction a as [|x a IH]; intros b; cbn; [ring|]. rewrite IH. ring. Qed.

Theorem volumes_cumulative_proof : forall s, length (s_values s) = length (s_periods s) ->
  exists c, volumes_cumulative s = Ok (mkSeries (s_periods s) c (s_unit s)) /\
    (forall k, (k < length (s_values s))%nat ->
       nth_error c k = Some (Some (qsum (map nan_zero (firstn (S k) (s_values s)))))) /\
    length c = length (s_values s) /\
    cumulative_to_volumes (mkSeries (s_periods s) c (s_unit s)) =
      Ok (mkSeries (s_periods s) (map (fun v => Some (nan_zero v)) (s_values s)) (s_unit s)).
Proof.
  intros s H. exists (compute_cumulative (s_values s)).
  assert (length (compute_cumulative (s_values s)) = length (s_values s)) as L
    by (unfold compute_cumulative; now rewrite nancumsum_length).
  repeat split; auto.
  - unfold volumes_cumulative, make_series. rewrite L, H, Nat.eqb_refl. reflexivity.
  - intros k Hk. unfold compute_cumulative. rewrite nancumsum_runsum.
    rewrite nth_error_map, runsum_nth by now rewrite map_length.
    cbn [option_map]. do 2 f_equal. rewrite firstn_map. ring.
  - unfold cumulative_to_volumes, make_series. cbn [s_periods s_values s_unit].
    unfold compute_cumulative. rewrite nancumsum_runsum.
    change (Some 0%Qc :: map Some (runsum 0 (map nan_zero (s_values s)))) with
      (Some 0%Qc :: map Some (runsum 0%Qc (map nan_zero (s_values s)))).
    rewrite np_diff_runsum, !map_length, H, Nat.eqb_refl. now rewrite map_map.
Qed.

Lemma qsum_firstn_mono : forall l i j, (forall x, In x l -> (0 <= x)%Qc) -> (i <= j)%nat ->
  (qsum (firstn i l) <= qsum (firstn j l))%Qc.
Proof.
  unfold qsum; induction l as [|x l IH]; intros i j H L; destruct i as [|i], j as [|j]; cbn [firstn fold_right];
    try apply Qcle_refl; try lia.
  - specialize (IH 0%nat j (fun y Hy => H y (or_intror Hy)) ltac:(lia)). cbn [firstn fold_right] in IH.
    pose proof (H x (or_introl eq_refl)). qc_lra.
  - specialize (IH i j (fun y Hy => H y (or_intror Hy)) ltac:(lia)). qc_lra.
Qed.

Theorem cumulative_monotone_proof : forall s c i j x y, volumes_cumulative s = Ok c ->
  (forall v, In (Some v) (s_values s) -> (0 <= v)%Qc) -> (i <= j)%nat ->
  nth_error (s_values c) i = Some x -> nth_error (s_values c) j = Some y ->
  exists a b, x = Some a /\ y = Some b /\ (a <= b)%Qc.
Proof.
  intros s c i j x y E H L Hi Hj. unfold volumes_cumulative, make_series in E.
  destruct (Nat.eqb _ _); [|discriminate]. injection E as <-. cbn [s_values] in *.
  unfold compute_cumulative in *. rewrite nancumsum_runsum in *. rewrite nth_error_map in *.
  assert (forall k z, option_map Some (nth_error (runsum 0 (map nan_zero (s_values s))) k) = Some z ->
          z = Some (qsum (firstn (S k) (map nan_zero (s_values s))))) as W.
  { intros k z Hk. destruct (nth_error _ _) as [w|] eqn:Ek in Hk; [|discriminate]. cbn [option_map] in Hk.
    assert (k < length (map nan_zero (s_values s)))%nat as Lk
      by (rewrite <- (runsum_length _ 0%Qc); apply nth_error_Some; congruence).
    rewrite runsum_nth in Ek by assumption.
    replace (qsum (firstn (S k) (map nan_zero (s_values s)))) with (0 + qsum (firstn (S k) (map nan_zero (s_values s))))%Qc by ring.
    congruence. }
  rewrite (W _ _ Hi), (W _ _ Hj). do 2 eexists. split; [reflexivity|]. split; [reflexivity|].
  apply qsum_firstn_mono; [|lia]. intros z Hz. apply in_map_iff in Hz as ([v|] & <- & Hv); cbn; auto.
  apply Qcle_refl.
Qed.

(** ** interpolation of cumulative volumes (C10) *)
(** seconds of [p] before [t] *)
Definition up (p : period) (t : Z) : Z := Z.max 0 (Z.min (p_end p) t - p_start p).
Definition before (ps : list period) (vs : list Qc) (t : Z) : Qc :=
  qsum (map2 (fun p v => v * (qz (up p t) / qz (seconds p)))%Qc ps vs).

Lemma qz_nonzero : forall z, z <> 0 -> qz z <> 0%Qc.
Proof. intros z H E. apply H. apply qz_inj. rewrite E. now apply Qc_is_canon. Qed.

Lemma known_points_some : forall ds vs, known_points ds (map Some vs) = combine ds vs.
Proof.
  unfold known_points. induction ds as [|d ds IH]; intros [|v vs]; cbn; auto. now rewrite IH.
Qed.

Lemma before_early : forall ps vs t, contiguous ps -> match ps with [] => True | p :: _ => t <= p_start p end ->
  before ps vs t = 0%Qc.
Proof.
  unfold before, qsum. induction ps as [|p ps IH]; intros [|v vs] t H Ht; cbn; auto.
  destruct H as (Hp & Hq & Hc). rewrite IH; auto.
  - unfold up. rewrite Z.max_l by (unfold nonempty in Hp; lia). unfold Qcdiv.
    change (qz 0) with 0%Qc. ring.
  - destruct ps; auto. unfold nonempty in Hp. lia.
Qed.

Lemma before_cons : forall p ps v vs t,
  before (p :: ps) (v :: vs) t = (v * (qz (up p t) / qz (seconds p)) + before ps vs t)%Qc.
Proof. reflexivity. Qed.

Lemma interp_cumulative : forall ps vs acc t, contiguous ps -> ps <> [] -> length vs = length ps ->
  interp_time (combine (dates_of ps) (acc :: runsum acc vs)) t =
  if t <? match ps with [] => 0 | p :: _ => p_start p end then None else Some (acc + before ps vs t)%Qc.
Proof.
  induction ps as [|p ps IH]; intros vs acc t H Hne L; [congruence|]. clear Hne.
  destruct vs as [|v vs]; [discriminate|]. injection L as L.
  destruct H as (Hp & Hq & Hc). unfold nonempty in Hp.
  assert (qz (seconds p) <> 0%Qc) as Hs by (apply qz_nonzero; unfold seconds; lia).
  destruct ps as [|q ps].
  - destruct vs; [|discriminate]. cbn [dates_of runsum combine interp_time].
    destruct (Z.ltb_spec t (p_start p)); [reflexivity|].
    destruct (Z.ltb_spec t (p_end p)).
    + f_equal. unfold before, qsum. cbn [map2 fold_right]. unfold up.
      rewrite Z.min_r, Z.max_r by lia. change (p_end p - p_start p) with (seconds p). unfold Qcdiv. ring.
    + replace (t <? p_end p) with false by (symmetry; apply Z.ltb_ge; lia).
      f_equal. unfold before, qsum. cbn [map2 fold_right]. unfold up.
      rewrite Z.min_l, Z.max_r by lia. change (p_end p - p_start p) with (seconds p).
      field. exact Hs.
  - change (dates_of (p :: q :: ps)) with (p_start p :: dates_of (q :: ps)).
    cbn [runsum]. change (combine (p_start p :: dates_of (q :: ps)) (acc :: (acc + v)%Qc :: runsum (acc + v)%Qc vs))
      with ((p_start p, acc) :: combine (dates_of (q :: ps)) ((acc + v)%Qc :: runsum (acc + v)%Qc vs)).
    assert (exists tl, combine (dates_of (q :: ps)) ((acc + v)%Qc :: runsum (acc + v)%Qc vs)
                       = (p_start q, (acc + v)%Qc) :: tl) as [tl Etl]
      by (destruct ps; cbn; eauto).
    specialize (IH vs (acc + v)%Qc t Hc ltac:(discriminate) L).
    rewrite Etl in *. 
    change (interp_time ((p_start p, acc) :: (p_start q, (acc + v)%Qc) :: tl) t) with
      (if t <? p_start p then None
       else if t <? p_start q then Some (acc + (acc + v - acc) * (qz (t - p_start p) / qz (p_start q - p_start p)))%Qc
       else interp_time ((p_start q, (acc + v)%Qc) :: tl) t).
    destruct (Z.ltb_spec t (p_start p)); [reflexivity|].
    rewrite before_cons.
    destruct (Z.ltb_spec t (p_start q)) as [Lt|Lt].
    + rewrite (before_early (q :: ps)) by (auto; lia). f_equal. rewrite <- Hq. unfold up.
      rewrite Z.min_r, Z.max_r by lia. change (p_end p - p_start p) with (seconds p). unfold Qcdiv. ring.
    + rewrite IH. f_equal. unfold up. rewrite Z.min_l, Z.max_r by lia.
      change (p_end p - p_start p) with (seconds p). field. exact Hs.
Qed.

Lemma overlap_up : forall p x y, p_start p < p_end p -> x <= y -> overlap p (mkPeriod x y) = up p y - up p x.
Proof. intros. unfold overlap, up; cbn. lia. Qed.

Lemma prorated_before : forall ps vs x y, contiguous ps -> x <= y ->
  prorated ps vs (mkPeriod x y) = (before ps (map nan_zero vs) y - before ps (map nan_zero vs) x)%Qc.
Proof.
  unfold prorated, before, qsum. induction ps as [|p ps IH]; intros [|v vs] x y H L; cbn [map map2 fold_right]; try ring.
  rewrite IH by (auto; apply H). rewrite overlap_up by (auto; apply H). rewrite qz_minus. unfold Qcdiv. ring.
Qed.

(** ** the grid *)
Lemma dates_of_consecutive : forall d e ds, dates_of (consecutive (d :: e :: ds)) = d :: e :: ds.
Proof. exact consecutive_dates. Qed.

Lemma clear_time_bounds : forall t, clear_time t <= t < clear_time t + day_seconds.
Proof. intros t. unfold clear_time, day_seconds. Z.to_euclidean_division_equations. lia. Qed.
Lemma clear_time_mono : forall a b, a <= b -> clear_time a <= clear_time b.
Proof. intros. unfold clear_time, day_seconds. apply Z.mul_le_mono_nonneg_r; [lia|]. now apply Z.div_le_mono. Qed.

Lemma date_range_bounds : forall a b f t, In t (date_range a b f) -> a <= t <= b.
Proof.
  intros a b f t H. unfold date_range in H. apply filter_In in H as [H Hb].
  apply in_map_iff in H as (d & <- & Hd). apply filter_In in Hd as [Hd _]. apply zseq_In in Hd.
  split; [|lia]. unfold day_seconds in *. Z.to_euclidean_division_equations. lia.
Qed.

(** Without the start every date of the grid is at or after the start; with it the first date is the
    midnight at or before the start, unless fewer than two dates are left. *)
Lemma grid_bounds : forall f a b is ie d e ds, a < b ->
  create_start_and_end_dates_for_periods f a b is ie = d :: e :: ds ->
  increasing (d :: e :: ds) /\ (is = true -> d <= a) /\ (is = false -> a <= d) /\ a < e /\ clear_time a <= d /\ (is = true -> d <= clear_time a).
Proof.
  intros f a b is ie d e ds L E.
  assert (increasing (d :: e :: ds)) as Hi.
  { rewrite <- E. unfold create_start_and_end_dates_for_periods. cbv zeta. apply sorted_set_increasing. }
  split; auto.
  assert (forall x, In x (d :: e :: ds) <->
    (is = true /\ x = clear_time a) \/ (ie = true /\ x = clear_time b) \/
    exists t, In t (date_range (a + day_seconds) (b - day_seconds) f) /\ x = clear_time t) as HIn.
  { intros x. rewrite <- E. unfold create_start_and_end_dates_for_periods. cbv zeta. rewrite sorted_set_In.
    set (R := date_range _ _ _).
    assert (In x (map clear_time R) <-> exists t, In t R /\ x = clear_time t) as Hm
      by (rewrite in_map_iff; split; intros (t & ? & ?); exists t; auto).
    destruct is, ie; cbn [In]; rewrite Hm; intuition (auto; discriminate). }
  assert (forall t, In t (date_range (a + day_seconds) (b - day_seconds) f) ->
            a < clear_time t /\ a + day_seconds <= t /\ t <= b - day_seconds) as Hr.
  { intros t Ht. apply date_range_bounds in Ht. pose proof (clear_time_bounds t). unfold day_seconds in *. lia. }
  pose proof (clear_time_bounds a) as Ba. pose proof (clear_time_bounds b) as Bb.
  pose proof (clear_time_mono a b ltac:(lia)) as Bm.
  apply increasing_cons in Hi as [Hi Hlt].
  assert (d < e) as Hde by (apply Hlt; now left).
  assert (In d (d :: e :: ds)) as Hd by now left. assert (In e (d :: e :: ds)) as He by (right; now left).
  apply HIn in Hd, He.
  repeat split; intros.
  - subst is. assert (In (clear_time a) (d :: e :: ds)) as Hc by (apply HIn; auto).
    destruct Hc as [Hc|Hc]; [lia|]. apply Hlt in Hc. lia.
  - subst is. destruct Hd as [[? _]|[[_ ->]|(t & Ht & ->)]]; [discriminate| |apply Hr in Ht; lia].
    destruct He as [[? _]|[[_ ->]|(t & Ht & ->)]]; [discriminate|lia|].
    apply Hr in Ht. unfold day_seconds in *. lia.
  - destruct He as [[_ ->]|[[_ ->]|(t & Ht & ->)]]; [| |apply Hr in Ht; lia].
    + destruct Hd as [[_ ->]|[[_ ->]|(t & Ht & ->)]]; [lia|lia|apply Hr in Ht; lia].
    + destruct Hd as [[_ ->]|[[_ ->]|(t & Ht & ->)]]; [|lia|apply Hr in Ht; unfold day_seconds in *; lia].
      (* midnight of the end after midnight of the start *)
      assert (clear_time a + day_seconds <= clear_time b); [|lia].
      unfold clear_time, day_seconds in *. Z.to_euclidean_division_equations. lia.
  - destruct Hd as [[_ ->]|[[_ ->]|(t & Ht & ->)]]; [lia|lia|]. apply Hr in Ht. lia.
  - subst is. assert (In (clear_time a) (d :: e :: ds)) as Hc by (apply HIn; auto).
    destruct Hc as [Hc|Hc]; [lia|]. apply Hlt in Hc. lia.
Qed.

(** Proofs about exported attributes: the points of the windows. *)
From Coq Require Import String PeanoNat Sorted.
From Verif Require Import QcTac Num Time_Model Time_Spec Time_Proofs Time_Proofs2 Time_Proofs3 Units_Model Rates_Model Rates_Spec Rates_Proofs Rates_Proofs2 Rates_Proofs3 Rates_Proofs4 Rates_Proofs6 Numbers_Model Base BaseLemmas Export_Model Export_Spec Export_Proofs Export_Proofs2 Export_Proofs3 Export_Proofs4 Attributes_Model Attributes_Spec Attributes_Proofs.
Local Open Scope list_scope.

Definition window_ok (ps : list period) (w : period) : Prop := nonempty w /\ grid_date ps (p_start w) /\ grid_date ps (p_end w).

Lemma whole_of : forall p ps, periods_period (p :: ps) = Ok (mkPeriod (p_start p) (p_end (last ps p))).
Proof. reflexivity. Qed.
Lemma period_inside : forall p ps r, contiguous (p :: ps) -> In r (p :: ps) -> nonempty r /\ p_start p <= p_start r /\ p_end r <= p_end (last ps p).
Proof.
  intros p ps r C I. apply (contiguous_within (p :: ps) (p_start p) (p_end (last ps p)) C); auto. exists p, (last ps p), ps. repeat split; auto. apply last_shift.
Qed.
Lemma outside : forall p ps w r, contiguous (p :: ps) -> In r (p :: ps) -> intersects (mkPeriod (p_start p) (p_end (last ps p))) w = false -> contains_date w (p_start r) = false.
Proof.
  intros p ps w r C I X. destruct (period_inside p ps r C I) as (N & H1 & H2). unfold nonempty in N. unfold intersects, contains_date in *. cbn in X. lia.
Qed.

(** the part of a rate series in a window *)
Lemma rate_window : forall s w, rate_well_formed s -> window_ok (r_periods s) w ->
  exists i j, rate_for_period s w = Ok (mkRate (slice i j (r_periods s)) (slice i j (r_values s)) (r_unit s) (r_type s) (slice i j (r_regularity s))) /\
    (i = j \/ (i < j <= List.length (r_periods s))%nat) /\
    forall k r, nth_error (r_periods s) k = Some r -> ((i <=? k) && (k <? j))%nat = contains_date w (p_start r).
Proof.
  intros s w (C & NE & L1 & L2) (NW & G1 & G2). unfold rate_for_period. destruct (r_periods s) as [|p ps] eqn:E; [congruence|]. rewrite whole_of. cbn [Base.bind].
  destruct (intersects (mkPeriod (p_start p) (p_end (last ps p))) w) eqn:X; cbn [negb].
  - destruct (window_indices p ps w C NW G1 G2 X) as (i & j & EI & LL & H). exists i, j. rewrite EI. cbn [Base.bind fst snd]. split; [|split; [now right|exact H]].
    unfold make_rate. rewrite !slice_length by lia. now rewrite Nat.eqb_refl.
  - exists 0%nat, 0%nat. split; [reflexivity|]. split; [now left|]. intros k r R. rewrite (outside p ps w r C (nth_error_In _ _ R) X). apply andb_false_intro2. apply Nat.ltb_ge. lia.
Qed.
Lemma slice_nil : forall A (l : list A) i, slice i i l = [].
Proof. intros. unfold slice. now rewrite Nat.sub_diag. Qed.
Lemma contiguous_slice : forall ps i j, contiguous ps -> contiguous (slice i j ps).
Proof.
  intros ps i j C. unfold slice. rewrite <- (firstn_skipn i ps) in C. apply contiguous_app_inv in C as [_ C]. rewrite <- (firstn_skipn (j - i) (skipn i ps)) in C. now apply contiguous_app_inv in C as [C _].
Qed.
Lemma calendar_slice : forall s i j, calendar_rates (mkRate (slice i j (r_periods s)) (slice i j (r_values s)) (r_unit s) (r_type s) (slice i j (r_regularity s))) = slice i j (calendar_rates s).
Proof. intros s i j. unfold calendar_rates. cbn [r_type r_values r_regularity]. destruct (r_type s); [apply map2_slice|reflexivity]. Qed.
Lemma rate_volumes_window : forall s w vu, rate_well_formed s -> window_ok (r_periods s) w -> rate_to_volume (r_unit s) = Ok vu ->
  exists i j r, rate_for_period s w = Ok r /\ rate_to_volumes r = Ok (mkSeries (slice i j (r_periods s)) (slice i j (map2 rate_volume (calendar_rates s) (r_periods s))) vu) /\
    forall k p, nth_error (r_periods s) k = Some p -> ((i <=? k) && (k <? j))%nat = contains_date w (p_start p).
Proof.
  intros s w vu W O U. destruct (rate_window s w W O) as (i & j & E & L & H). exists i, j. eexists. split; [exact E|]. split; [|exact H].
  destruct L as [->|L].
  - rewrite !slice_nil. unfold rate_to_volumes, rate_to_calendar_day. cbn [r_type r_values r_regularity r_periods r_unit]. destruct (r_type s); cbn [rates_to_calendar_day np_broadcast Base.bind List.length Nat.eqb map2 make_rate andb r_values]; (cbn; rewrite U; reflexivity).
  - destruct W as (C & NE & L1 & L2). destruct (volumes_either_proof (mkRate (slice i j (r_periods s)) (slice i j (r_values s)) (r_unit s) (r_type s) (slice i j (r_regularity s))) vu) as [V _]; auto.
    + repeat split; cbn [r_periods r_values r_regularity]; [now apply contiguous_slice| |rewrite !slice_length; lia|rewrite !slice_length; lia].
      intros Z. apply (f_equal (@List.length _)) in Z. rewrite slice_length in Z; cbn in Z; lia.
    + cbn [r_periods] in V. rewrite V, calendar_slice, map2_slice. reflexivity.
Qed.

Lemma unit_conversion : forall ps vs vu u f, unit_to vu u = Ok f -> exists g, series_to_unit (mkSeries ps vs vu) u = Ok (mkSeries ps (map (option_map g) vs) u) /\ forall x, g x = f x.
Proof.
  intros ps vs vu u f F. unfold series_to_unit. cbn [s_unit s_periods s_values]. destruct (unit_eqb u vu) eqn:E.
  - assert (u = vu) as -> by (unfold unit_eqb in E; destruct (unit_eq_dec u vu); congruence). exists (fun x => x). split.
    + do 2 f_equal. symmetry. erewrite map_ext; [apply map_id|]. intros [x|]; reflexivity.
    + intros x. unfold unit_to in F. rewrite E in F. injection F as <-. reflexivity.
  - rewrite F. exists f. split; reflexivity.
Qed.

(** the points of a window of volumes *)
Theorem volumes_window : forall s w u, rate_well_formed s -> window_ok (r_periods s) w -> to_volume_unit s u ->
  exists v, volumes_for s w u = Ok v /\ forall p x, volume_at s u p x -> points_in p (zip (s_periods v) (s_values v)) = if contains_date w (p_start p) then x else 0%Qc.
Proof.
  intros s w u W O (vu & f & U & F). destruct (rate_volumes_window s w vu W O U) as (i & j & r & E & V & H).
  destruct (unit_conversion (slice i j (r_periods s)) (slice i j (map2 rate_volume (calendar_rates s) (r_periods s))) vu u f F) as (g & S & G).
  eexists. split; [unfold volumes_for; rewrite E; cbn [Base.bind]; rewrite V; cbn [Base.bind]; exact S|]. cbn [s_periods s_values]. intros p x (k & r' & vu' & f' & P & R & U' & F' & ->).
  assert (vu' = vu) as -> by congruence. assert (f' = f) as -> by congruence. rewrite map_slice. unfold zip. rewrite combine_slice.
  pose proof (calendar_rates_length _ W) as LC. destruct W as (C & NE & L1 & L2).
  rewrite (points_slice _ _ i j k p (option_map g (rate_volume r' p))).
  - rewrite (H k p P). destruct (contains_date w (p_start p)); [|reflexivity]. destruct (rate_volume r' p); cbn [option_map nan_zero]; [apply G|reflexivity].
  - now apply periods_NoDup.
  - rewrite map_length, map2_length_eq by exact LC. congruence.
  - exact P.
  - rewrite nth_error_map, nth_error_map2, R, P. reflexivity.
Qed.
(** without conversion *)
Theorem fuel_window : forall s w vu, rate_well_formed s -> window_ok (r_periods s) w -> rate_to_volume (r_unit s) = Ok vu ->
  exists r v, rate_for_period s w = Ok r /\ rate_to_volumes r = Ok v /\ forall p x, volume_at s vu p x -> points_in p (zip (s_periods v) (s_values v)) = if contains_date w (p_start p) then x else 0%Qc.
Proof.
  intros s w vu W O U. destruct (rate_volumes_window s w vu W O U) as (i & j & r & E & V & H). exists r. eexists. split; [exact E|]. split; [exact V|]. cbn [s_periods s_values].
  intros p x (k & r' & vu' & f' & P & R & U' & F' & ->). assert (vu' = vu) as -> by congruence. unfold unit_to, unit_eqb in F'. destruct (unit_eq_dec vu vu) as [_|N]; [|congruence]. injection F' as <-.
  unfold zip. rewrite combine_slice. pose proof (calendar_rates_length _ W) as LC. destruct W as (C & NE & L1 & L2).
  rewrite (points_slice _ _ i j k p (rate_volume r' p)).
  - rewrite (H k p P). destruct (contains_date w (p_start p)); [|reflexivity]. destruct (rate_volume r' p); reflexivity.
  - now apply periods_NoDup.
  - rewrite map2_length_eq by exact LC. congruence.
  - exact P.
  - rewrite nth_error_map2, R, P. reflexivity.
Qed.
(** levels *)
Theorem level_window : forall s w u f, rate_well_formed s -> window_ok (r_periods s) w -> unit_to (r_unit s) u = Ok f ->
  exists r v, rate_for_period s w = Ok r /\ rate_to_unit r u = Ok v /\ forall p x, level_at s u p x -> points_in p (zip (r_periods v) (r_values v)) = if contains_date w (p_start p) then x else 0%Qc.
Proof.
  intros s w u f W O F. destruct (rate_window s w W O) as (i & j & E & L & H). eexists. unfold rate_to_unit.
  destruct (unit_conversion (slice i j (r_periods s)) (slice i j (r_values s)) (r_unit s) u f F) as (g & S & G). unfold series_to_unit in S. cbn [s_unit s_periods s_values] in S.
  assert (forall v, r_periods v = slice i j (r_periods s) -> r_values v = map (option_map g) (slice i j (r_values s)) ->
    forall p x, level_at s u p x -> points_in p (zip (r_periods v) (r_values v)) = if contains_date w (p_start p) then x else 0%Qc) as K.
  { intros v -> -> p x (k & r' & f' & P & R & F' & ->). assert (f' = f) as -> by congruence. rewrite map_slice. unfold zip. rewrite combine_slice. destruct W as (C & NE & L1 & L2).
    rewrite (points_slice _ _ i j k p (option_map g r')).
    - rewrite (H k p P). destruct (contains_date w (p_start p)); [|reflexivity]. destruct r'; cbn [option_map nan_zero]; [apply G|reflexivity].
    - now apply periods_NoDup.
    - rewrite map_length. congruence.
    - exact P.
    - rewrite nth_error_map, R. reflexivity. }
  destruct (unit_eqb u (r_unit s)) eqn:EU.
  - eexists. split; [exact E|]. cbn [r_unit]. rewrite EU. split; [reflexivity|]. apply K; [reflexivity|]. cbn [r_values]. congruence.
  - rewrite F in S. cbn [Base.bind] in S. eexists. split; [exact E|]. cbn [r_unit]. rewrite EU, F. cbn [Base.bind]. split; [reflexivity|]. apply K; [reflexivity|]. cbn [r_values]. congruence.
Qed.
(** windows of the volumes of a storage *)
Theorem storage_window : forall s w u, rate_well_formed s -> window_ok (r_periods s) w -> to_volume_unit s u ->
  (exists p, In p (r_periods s) /\ (p_start p = p_start w \/ p_end p = p_start w)) -> (exists p, In p (r_periods s) /\ (p_start p = p_end w \/ p_end p = p_end w)) ->
  exists v v' x, rate_to_volumes s = Ok v /\ series_to_unit v u = Ok v' /\ series_for_period v' w = Ok x /\
    forall p y, volume_at s u p y -> points_in p (zip (s_periods x) (s_values x)) = if contains_date w (p_start p) then y else 0%Qc.
Proof.
  intros s w u W O (vu & f & U & F) B1 B2. destruct (volumes_either_proof s vu W U) as [V _].
  destruct (unit_conversion (r_periods s) (map2 rate_volume (calendar_rates s) (r_periods s)) vu u f F) as (g & S & G).
  pose proof (calendar_rates_length _ W) as LC. pose proof W as (C & NE & L1 & L2). destruct O as (NW & G1 & G2).
  destruct (r_periods s) as [|p0 ps] eqn:EP; [congruence|].
  assert (forall d, (exists p, In p (p0 :: ps) /\ (p_start p = d \/ p_end p = d)) -> In d (dates_of (p0 :: ps))) as DD. { intros d (p & I & X). apply (dates_of_In _ _ C). exists p. tauto. }
  pose proof (DD _ B1) as D1. pose proof (DD _ B2) as D2.
  assert (intersects (mkPeriod (p_start p0) (p_end (last ps p0))) w = true) as X.
  { pose proof (dates_bounds _ _ _ C D1). pose proof (dates_bounds _ _ _ C D2). unfold nonempty in NW. unfold intersects, contains_date. cbn. lia. }
  destruct (window_indices p0 ps w C NW G1 G2 X) as (i & j & EI & LL & H).
  do 3 eexists. split; [exact V|]. split; [exact S|]. split.
  - unfold series_for_period. cbn [s_periods s_values s_unit]. rewrite all_dates_of. cbn [Base.bind].
    rewrite (proj2 (existsb_exists (Z.eqb (p_start w)) _)) by (exists (p_start w); split; [exact D1|apply Z.eqb_refl]).
    rewrite (proj2 (existsb_exists (Z.eqb (p_end w)) _)) by (exists (p_end w); split; [exact D2|apply Z.eqb_refl]). cbn [negb orb]. rewrite EI. cbn [Base.bind fst snd].
    unfold make_series. rewrite slice_length by lia. rewrite slice_length by (rewrite map_length, map2_length_eq by (rewrite LC; reflexivity); rewrite LC; lia). now rewrite Nat.eqb_refl.
  - cbn [s_periods s_values]. intros p x (k & r' & vu' & f' & P & R & U' & F' & ->). rewrite EP in P.
    assert (vu' = vu) as -> by congruence. assert (f' = f) as -> by congruence. unfold zip. rewrite combine_slice.
    rewrite (points_slice _ _ i j k p (option_map g (rate_volume r' p))).
    + rewrite (H k p P). destruct (contains_date w (p_start p)); [|reflexivity]. destruct (rate_volume r' p); cbn [option_map nan_zero]; [apply G|reflexivity].
    + now apply periods_NoDup.
    + rewrite map_length, map2_length_eq by exact LC. congruence.
    + exact P.
    + rewrite nth_error_map, nth_error_map2, R, P. reflexivity.
Qed.

(** Proofs about exports: the maximum usage from shore. *)
From Coq Require Import String PeanoNat.
From Verif Require Import QcTac Num Time_Model Time_Spec Time_Proofs Time_Proofs2 Time_Proofs3 Units_Model Rates_Model Rates_Spec Rates_Proofs Rates_Proofs2 Rates_Proofs4 Rates_Proofs6 Numbers_Model Base BaseLemmas Input_Proofs Export_Model Export_Spec Export_Proofs Export_Proofs2.
Local Open Scope list_scope.

(** a window of a series, by the positions of its dates *)
Lemma for_period_slice : forall V (s : series V) p i j, well_formed s -> nth_error (dates_of (s_periods s)) i = Some (p_start p) -> nth_error (dates_of (s_periods s)) j = Some (p_end p) ->
  (i < j <= List.length (s_periods s))%nat -> series_for_period s p = Ok (mkSeries (slice i j (s_periods s)) (slice i j (s_values s)) (s_unit s)).
Proof.
  intros V s p i j (Hc & Hne & Lv) Hi Hj Lij. unfold series_for_period. destruct (s_periods s) as [|p0 ps] eqn:Eps; [congruence|].
  rewrite all_dates_of. cbn [Base.bind]. rewrite (existsb_dates _ _ _ Hi), (existsb_dates _ _ _ Hj). cbn [negb orb].
  rewrite (period_indices_eq _ _ _ i j) by (auto; lia). cbn [Base.bind fst snd]. unfold make_series.
  rewrite !slice_length by lia. now rewrite Nat.eqb_refl.
Qed.
Lemma slice_one : forall A (l : list A) k x, nth_error l k = Some x -> slice k (S k) l = [x].
Proof.
  intros A l k x H. unfold slice. replace (S k - k)%nat with 1%nat by lia. revert k H. induction l as [|y l IH]; intros [|k] H; try discriminate.
  - injection H as <-. reflexivity.
  - cbn [skipn]. now apply IH.
Qed.
Lemma for_period_one : forall V (s : series V) k p v, well_formed s -> nth_error (s_periods s) k = Some p -> nth_error (s_values s) k = Some v ->
  series_for_period s p = Ok (mkSeries [p] [v] (s_unit s)).
Proof.
  intros V s k p v W P E. pose proof W as (C & _ & L).
  assert (k < List.length (s_periods s))%nat by (apply nth_error_Some; congruence).
  destruct (dates_of_nth _ _ _ C P) as [D1 D2].
  rewrite (for_period_slice V s p k (S k) W D1 D2) by lia. now rewrite (slice_one _ _ _ _ P), (slice_one _ _ _ _ E).
Qed.

(** the values are finite: filling forward works as for any series *)
Lemma flat_get : forall (t : Z) ds (xs : list Qc), match dict_get Z.eqb t (combine ds (map Some xs)) with Some w => w | None => None end = dict_get Z.eqb t (combine ds xs).
Proof. intros t ds. induction ds as [|d ds IH]; intros [|x xs]; cbn; auto. destruct (Z.eqb t d); auto. Qed.
Lemma float_resample_finite : forall ps (xs : list Qc) u f, float_resample (mkSeries ps (map Some xs) u) f = series_resample (mkSeries ps xs u) f true true.
Proof.
  intros ps xs u f. assert (forall new, ffill (map (fun v => match v with Some w => w | None => None end) (reindex (start_dates ps) (map Some xs) new)) = ffill (reindex (start_dates ps) xs new)) as H.
  { intros new. f_equal. unfold reindex. rewrite map_map. apply map_ext. intros t. apply flat_get. }
  unfold float_resample, series_resample. cbn [s_periods s_values s_unit]. destruct f; [reflexivity| | |]; (destruct (resample_periods _ _ _ _) as [new|]; cbn [Base.bind]; [now rewrite H|reflexivity]).
Qed.
Lemma mapM_rows : forall (g : period -> result (period * num)) new vs, List.length new = List.length vs ->
  (forall k p v, nth_error new k = Some p -> nth_error vs k = Some v -> g p = Ok (p, v)) -> mapM g new = Ok (combine new vs).
Proof.
  intros g. induction new as [|p new IH]; intros [|v vs] L H; try discriminate; [reflexivity|]. cbn [mapM combine]. rewrite (H 0%nat p v eq_refl eq_refl). cbn [Base.bind].
  rewrite (IH vs); [reflexivity|now injection L|]. intros k p' v' E1 E2. now apply (H (S k)).
Qed.
Lemma max_rows : forall ps (sums : list Qc) new vs u f, NoDup new -> contiguous new -> new <> [] -> List.length ps = List.length sums -> List.length new = List.length vs ->
  resample_periods ps f true true = Ok new -> series_resample (mkSeries ps sums u) f true true = Ok (mkSeries new vs u) ->
  resampled MaxUsageFromShore ps (combine ps (map Some sums)) u f = Ok (combine new vs).
Proof.
  intros ps sums new vs u f N C NE L1 L2 R S.
  assert (as_series (combine ps (map Some sums)) u = Ok (mkSeries ps (map Some sums) u)) as A.
  { unfold as_series. rewrite combine_keys, combine_vals by now rewrite map_length. unfold make_series. now rewrite map_length, L1, Nat.eqb_refl. }
  unfold resampled. rewrite R. cbn [Base.bind]. rewrite (mapM_rows _ new vs L2).
  - cbn [Base.bind]. rewrite build_dict; [reflexivity|]. cbn [map app]. now rewrite combine_keys.
  - intros k p v P V. rewrite A. cbn [Base.bind]. rewrite float_resample_finite, S. cbn [Base.bind].
    rewrite (for_period_one _ (mkSeries new vs u) k p v); auto. repeat split; cbn; auto.
Qed.

(** C46: the maximum usage: without a frequency, the sums *)
Theorem max_sum_proof : forall q e u l, q_kind q = MaxUsageFromShore -> contiguous (e_periods e) -> e_periods e <> [] -> right_installation q e ->
  attributes_of e (q_kind q) u = Ok l -> (forall a, In a l -> matches q a -> finite_on (e_periods e) a) ->
  exists sums, Forall2 (fun p x => total_in (matches q) p l x) (e_periods e) sums /\
    run_query q e u FreqNone = Ok (Some (combine (e_periods e) (map Some sums))).
Proof.
  intros q e u l K C NE R A F. pose proof (periods_NoDup _ C) as N. destruct (sums_ok q l _ N F) as (sums & T & L). exists sums. split; [exact T|].
  apply installation_spec in R. unfold run_query. rewrite R, A. cbn [Base.bind]. rewrite L, K.
  pose proof (F2_length _ _ _ _ _ T) as LL.
  rewrite (max_rows _ sums (e_periods e) (map Some sums)); auto. now rewrite map_length.
Qed.
(** C46: with a frequency, the level of the latest original period that starts with a new period, at or before the row *)
Theorem max_resampled_proof : forall q e u l f A B, q_kind q = MaxUsageFromShore -> contiguous (e_periods e) -> right_installation q e ->
  attributes_of e (q_kind q) u = Ok l -> (forall a, In a l -> matches q a -> finite_on (e_periods e) a) ->
  f <> FreqNone -> (A < B)%Z -> spans (e_periods e) (86400 * A) (86400 * B) ->
  exists sums new rows, Forall2 (fun p x => total_in (matches q) p l x) (e_periods e) sums /\
    resample_periods (e_periods e) f true true = Ok new /\ contiguous new /\ spans new (86400 * A) (86400 * B) /\
    run_query q e u f = Ok (Some rows) /\ map fst rows = new /\
    forall k p v, nth_error rows k = Some (p, v) ->
      exists i o j r x, (j <= k)%nat /\ nth_error new j = Some r /\ nth_error (e_periods e) i = Some o /\ p_start o = p_start r /\ nth_error sums i = Some x /\ v = Some x /\
        forall j' r' o', (j < j' <= k)%nat -> nth_error new j' = Some r' -> In o' (e_periods e) -> p_start o' <> p_start r'.
Proof.
  intros q e u l f A B K C R At F NF AB S. pose proof (periods_NoDup _ C) as N. destruct (sums_ok q l _ N F) as (sums & T & L).
  pose proof (F2_length _ _ _ _ _ T) as LL.
  destruct (resample_periods_proof _ _ _ _ S AB NF) as (new & En & Cn & Sn & _).
  assert (e_periods e <> []) as NE. { destruct S as (? & ? & ? & E & _). rewrite E. discriminate. }
  assert (new <> []) as NN. { destruct Sn as (? & ? & ? & E & _). rewrite E. discriminate. }
  assert (well_formed (mkSeries (e_periods e) sums u)) as W by (repeat split; cbn; auto).
  destruct (series_resample_proof _ _ _ _ _ _ W NF En) as (vs & Es & Lv & H). cbn [s_periods s_values s_unit] in Es.
  exists sums, new, (combine new vs). split; [exact T|]. split; [exact En|]. split; [exact Cn|]. split; [exact Sn|]. split.
  { apply installation_spec in R. unfold run_query. rewrite R, At. cbn [Base.bind]. rewrite L, K.
    rewrite (max_rows _ sums new vs u f (periods_NoDup _ Cn) Cn NN LL (eq_sym Lv) En Es). reflexivity. }
  split; [now apply combine_keys|]. intros k p v E. apply nth_error_combine in E as [E1 E2].
  destruct (H k p E1) as [(j & r & x & J & Ej & (i & o & Eo & Ex & So) & V & Z)|[V Z]].
  - exists i, o, j, r, x. cbn [s_periods s_values] in *. repeat split; auto; [congruence|]. intros j' r' o' J' Ej' Io So'.
    apply In_nth_error in Io as (i' & Ei'). assert (i' < List.length sums)%nat as Li by (rewrite <- LL; apply nth_error_Some; congruence).
    apply nth_error_Some in Li. destruct (nth_error sums i') as [y|] eqn:Ey; [|congruence]. apply (Z j' r' J' Ej' y). exists i', o'. auto.
  - exfalso. destruct S as (o & ? & rest & Eo & _ & So & _). destruct Sn as (n & ? & ns & En' & _ & Sn & _). destruct sums as [|y sums]; [rewrite Eo in LL; discriminate|].
    apply (Z 0%nat n ltac:(lia) ltac:(now rewrite En') y). exists 0%nat, o. cbn. rewrite Eo. repeat split; cbn; congruence.
Qed.

(** Proofs about exports: what a query returns. *)
From Coq Require Import String PeanoNat.
From Verif Require Import QcTac Num Time_Model Time_Spec Time_Proofs Time_Proofs2 Time_Proofs3 Units_Model Rates_Model Rates_Spec Rates_Proofs Rates_Proofs2 Rates_Proofs6 Numbers_Model Base BaseLemmas Input_Proofs Export_Model Export_Spec Export_Proofs.
Local Open Scope list_scope.

Lemma installation_spec : forall q e, other_installation q e = false <-> right_installation q e.
Proof.
  intros q e. unfold other_installation, right_installation, is_wanted. destruct (q_installation q) as [c|].
  - rewrite negb_false_iff, text_eqb_spec. split; [intros <- c' [= <-]; reflexivity|intros H; symmetry; now apply H].
  - split; [intros _ c; discriminate|reflexivity].
Qed.
(** C46: a query of an installation of another category gives nothing *)
Theorem category_proof : forall q e u f, ~ right_installation q e -> run_query q e u f = Ok None.
Proof.
  intros q e u f H. unfold run_query. destruct (other_installation q e) eqn:E; [reflexivity|]. apply installation_spec in E. contradiction.
Qed.
Theorem category_answer_proof : forall q e u f r, right_installation q e -> run_query q e u f = Ok r -> exists rows, r = Some rows.
Proof.
  intros q e u f r R H. apply installation_spec in R. unfold run_query in H. rewrite R in H.
  destruct (attributes_of e (q_kind q) u); cbn [bind] in H; [|discriminate]. destruct (resampled _ _ _ u f); cbn [bind] in H; [|discriminate]. injection H as <-. eauto.
Qed.

Lemma build_dict : forall (l acc : list (period * num)), NoDup (map fst acc ++ map fst l) -> fold_left (fun d pv => dict_set period_eqb (fst pv) (snd pv) d) l acc = acc ++ l.
Proof.
  induction l as [|[p v] l IH]; intros acc N; cbn [fold_left map fst snd] in *; [now rewrite app_nil_r|].
  rewrite dict_set_keys_notin; [|apply period_eqb_spec|apply NoDup_remove_2 in N; intros I; apply N, in_or_app; now left].
  rewrite IH, <- app_assoc; [reflexivity|]. rewrite map_app, <- app_assoc. exact N.
Qed.
Lemma combine_keys : forall (A B : Type) (l : list A) (m : list B), List.length l = List.length m -> map fst (combine l m) = l.
Proof. induction l as [|a l IH]; intros [|b m] H; cbn in *; try discriminate; auto. f_equal. apply IH. lia. Qed.
Lemma combine_vals : forall (A B : Type) (l : list A) (m : list B), List.length l = List.length m -> map snd (combine l m) = m.
Proof. induction l as [|a l IH]; intros [|b m] H; cbn in *; try discriminate; auto. f_equal. apply IH. lia. Qed.
Lemma to_dict_ok : forall s, NoDup (s_periods s) -> List.length (s_periods s) = List.length (s_values s) -> to_dict s = combine (s_periods s) (s_values s).
Proof. intros s N L. unfold to_dict. rewrite build_dict; [reflexivity|]. cbn [map app]. unfold zip. now rewrite combine_keys. Qed.
Lemma fill_finite : forall ps (xs : list Qc) u, fill_nan (mkSeries ps (map Some xs) u) 0 = mkSeries ps (map Some xs) u.
Proof. intros ps xs u. unfold fill_nan. cbn [s_periods s_values s_unit]. f_equal. rewrite map_map. now apply map_ext. Qed.

(** to kilos and back *)
Lemma kilos_and_back : forall ps (xs : list Qc) u, u = KILO \/ u = TONS ->
  (do s <- series_to_unit (mkSeries ps (map Some xs) u) KILO; series_to_unit s u) = Ok (mkSeries ps (map Some xs) u).
Proof.
  intros ps xs u [-> | ->]; [reflexivity|]. unfold series_to_unit at 1. change (unit_eqb KILO (s_unit (mkSeries ps (map Some xs) TONS))) with false. cbv iota.
  change (unit_to (s_unit (mkSeries ps (map Some xs) TONS)) KILO) with (Ok (fun x : Qc => x * qz 1000)%Qc). cbn [Base.bind s_periods s_values].
  unfold series_to_unit. cbn [s_unit s_periods s_values]. change (unit_eqb TONS KILO) with false. cbv iota. change (unit_to KILO TONS) with (Ok (fun x : Qc => x / qz 1000)%Qc). cbn [Base.bind].
  do 2 f_equal. rewrite !map_map. apply map_ext. intros x. cbn [option_map]. f_equal. field. discriminate.
Qed.
(** without resampling the volumes stay *)
Lemma volumes_none : forall ps (xs : list Qc) u, List.length ps = List.length xs -> volumes_resample (mkSeries ps (map Some xs) u) FreqNone true true = Ok (mkSeries ps (map Some xs) u).
Proof.
  intros ps xs u L. destruct (volumes_cumulative_proof (mkSeries ps (map Some xs) u)) as (c & E & _ & _ & B); [cbn; now rewrite map_length|]. cbn [s_periods s_values s_unit] in *.
  unfold volumes_resample. rewrite E. cbn [Base.bind cumulative_resample]. rewrite B. do 2 f_equal. rewrite map_map. now apply map_ext.
Qed.

(** from sums to rows, for the queries of volumes *)
Lemma rows_ok : forall k ps sums new (ys : list Qc) u f, k <> MaxUsageFromShore -> (k = EmissionMass -> u = KILO \/ u = TONS) -> NoDup new -> List.length ps = List.length sums -> List.length new = List.length ys ->
  volumes_resample (mkSeries ps (map Some sums) u) f true true = Ok (mkSeries new (map Some ys) u) ->
  resampled k ps (combine ps (map Some sums)) u f = Ok (combine new (map Some ys)).
Proof.
  intros k ps sums new ys u f K U N L1 L2 V.
  assert (as_series (combine ps (map Some sums)) u = Ok (mkSeries ps (map Some sums) u)) as A.
  { unfold as_series. rewrite combine_keys, combine_vals by now rewrite map_length. unfold make_series. now rewrite map_length, L1, Nat.eqb_refl. }
  assert (to_dict (fill_nan (mkSeries new (map Some ys) u) 0) = combine new (map Some ys)) as T.
  { rewrite fill_finite, to_dict_ok; cbn [s_periods s_values]; auto. now rewrite map_length. }
  unfold resampled. rewrite A. cbn [Base.bind]. rewrite V. cbn [Base.bind].
  destruct k; try (now rewrite T); [|congruence].
  pose proof (kilos_and_back new ys u (U eq_refl)) as KB. destruct (series_to_unit (mkSeries new (map Some ys) u) KILO) as [s|]; cbn [Base.bind] in *; [|discriminate].
  rewrite KB. cbn [Base.bind]. now rewrite T.
Qed.

Lemma F2_length : forall (A B : Type) (P : A -> B -> Prop) l m, Forall2 P l m -> List.length l = List.length m.
Proof. intros A B P l m H. induction H; cbn; congruence. Qed.
Lemma map_Some_inj : forall a b : list Qc, map Some a = map Some b -> a = b.
Proof.
  induction a as [|x a IH]; intros [|y b] H; try discriminate; [reflexivity|]. cbn [map] in H. rewrite (IH b) by congruence. assert (x = y) as -> by congruence. reflexivity.
Qed.
Lemma periods_NoDup : forall ps, contiguous ps -> NoDup ps.
Proof. intros ps C. apply (NoDup_map_inv p_start). exact (starts_NoDup ps C). Qed.

(** C46: without a frequency, every period of the installation has the sum over the matching attributes *)
Theorem query_sum_proof : forall q e u l, q_kind q <> MaxUsageFromShore -> unit_ok q u -> contiguous (e_periods e) -> right_installation q e ->
  attributes_of e (q_kind q) u = Ok l -> (forall a, In a l -> matches q a -> finite_on (e_periods e) a) ->
  exists sums, Forall2 (fun p x => total_in (matches q) p l x) (e_periods e) sums /\
    run_query q e u FreqNone = Ok (Some (combine (e_periods e) (map Some sums))).
Proof.
  intros q e u l K U C R A F. pose proof (periods_NoDup _ C) as N. destruct (sums_ok q l _ N F) as (sums & T & L). exists sums. split; [exact T|].
  apply installation_spec in R. unfold run_query. rewrite R, A. cbn [Base.bind]. rewrite L.
  pose proof (F2_length _ _ _ _ _ T) as LL.
  rewrite (rows_ok _ _ _ (e_periods e) sums _ _ K U N); auto. now apply volumes_none.
Qed.
(** C46: with a frequency, every new period has the share of the sums that falls in it, and nothing is lost *)
Theorem query_resampled_proof : forall q e u l f A B, q_kind q <> MaxUsageFromShore -> unit_ok q u -> contiguous (e_periods e) -> right_installation q e ->
  attributes_of e (q_kind q) u = Ok l -> (forall a, In a l -> matches q a -> finite_on (e_periods e) a) ->
  f <> FreqNone -> (A < B)%Z -> spans (e_periods e) (86400 * A) (86400 * B) ->
  exists sums new, Forall2 (fun p x => total_in (matches q) p l x) (e_periods e) sums /\
    resample_periods (e_periods e) f true true = Ok new /\ contiguous new /\ spans new (86400 * A) (86400 * B) /\
    run_query q e u f = Ok (Some (map (fun p => (p, Some (prorated (e_periods e) (map Some sums) p))) new)) /\
    qsum (map (prorated (e_periods e) (map Some sums)) new) = qsum sums.
Proof.
  intros q e u l f A B K U C R At F NF AB S. pose proof (periods_NoDup _ C) as N. destruct (sums_ok q l _ N F) as (sums & T & L).
  pose proof (F2_length _ _ _ _ _ T) as LL.
  destruct (resample_periods_proof _ _ _ _ S AB NF) as (new & En & Cn & Sn & _).
  assert (e_periods e <> []) as NE. { destruct S as (? & ? & ? & E & _). rewrite E. discriminate. }
  assert (well_formed (mkSeries (e_periods e) (map Some sums) u)) as W by (repeat split; cbn; auto; now rewrite map_length).
  exists sums, new. split; [exact T|]. split; [exact En|]. split; [exact Cn|]. split; [exact Sn|].
  destruct new as [|n ns]; [destruct Sn as (? & ? & ? & E & _); discriminate|].
  pose proof (volumes_resample_proof _ _ _ _ _ _ W NF En) as V. cbn [s_periods s_values s_unit] in V. split.
  - apply installation_spec in R. unfold run_query. rewrite R, At. cbn [Base.bind]. rewrite L. rewrite <- (map_map (prorated (e_periods e) (map Some sums)) Some) in V.
    rewrite (rows_ok _ _ _ (n :: ns) (map (prorated (e_periods e) (map Some sums)) (n :: ns)) _ _ K U (periods_NoDup _ Cn) LL); [|now rewrite map_length|exact V].
    cbn [Base.bind]. do 2 f_equal. clear. induction (n :: ns) as [|x xs IH]; cbn; [reflexivity|]. now rewrite IH.
  - destruct (volumes_conserved_proof _ _ _ _ W NF AB S) as (s' & v & v' & V' & _ & _ & Ev' & Ev & Q).
    rewrite V in V'. injection V' as <-. cbn [s_values] in *. rewrite <- (map_map (prorated (e_periods e) (map Some sums)) Some) in Ev'.
    rewrite (map_Some_inj (map (prorated (e_periods e) (map Some sums)) (n :: ns)) v' Ev').
    rewrite Q, Ev. rewrite map_map. cbn. now rewrite map_id.
Qed.

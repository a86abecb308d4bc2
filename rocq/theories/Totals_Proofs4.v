(** The totals of the asset are the sums of the totals of its installations. *)
From Coq Require Import PeanoNat String Permutation.
From Verif Require Import QcTac Base BaseLemmas Num Time_Model Time_Spec Units_Model Units_Proofs Rates_Model Rates_Spec Rates_Proofs Rates_Proofs2 Rates_Proofs3
  Rates_Proofs4 Rates_Proofs5 Stream_Proofs System_Proofs2 Graph_Model Graph_Spec Totals_Model Totals_Spec Totals_Proofs Totals_Proofs2 Totals_Proofs3.
Local Open Scope list_scope.
Local Open Scope Qc_scope.

Lemma Forall_flat : forall (A B : Type) (P : B -> Prop) (f : A -> list B) l, (forall x, In x l -> Forall P (f x)) -> Forall P (flat_map f l).
Proof. induction l as [|x l IH]; intros H; cbn; [constructor|]. apply Forall_app. split; [apply H; now left|]. apply IH. intros; apply H; now right. Qed.
Lemma map_flat : forall (A B C : Type) (g : B -> C) (f : A -> list B) l, map g (flat_map f l) = flat_map (fun x => map g (f x)) l.
Proof. induction l as [|x l IH]; cbn; [reflexivity|]. now rewrite map_app, IH. Qed.

Theorem asset_proof : forall ps l, l <> [] -> Forall (installation_ok ps) l ->
  exists t, asset_totals ps l = Ok t /\
    summed ps (flat_map (fun i => map fc_fuel (in_components i)) l) (flat_map electrical_powers l) (flat_map mechanical_powers l) (flat_map all_emitters l) t /\
    export_ok ps (t_export t) /\ adds_up (map (fun i => r_values (in_export i)) l) (r_values (t_export t)).
Proof.
  intros ps l Ne F. rewrite Forall_forall in F. assert (contiguous ps /\ ps <> []) as [C N].
  { destruct l as [|i l]; [congruence|]. destruct (F i (or_introl eq_refl)) as (_ & _ & _ & _ & ([(C & N & _) <-] & _)). auto. }
  assert (Forall (power_ok ps) (flat_map electrical_powers l)) as Hel by (apply Forall_flat; intros x X; apply (F x X)).
  assert (Forall (power_ok ps) (flat_map mechanical_powers l)) as Hm by (apply Forall_flat; intros x X; apply (F x X)).
  assert (Forall (Forall (emission_ok ps)) (flat_map all_emitters l)) as He by (apply Forall_flat; intros x X; apply (F x X)).
  assert (Forall (fun c => fuel_ok ps (fc_fuel c)) (flat_map get_fuel_consumers l)) as Hf by (apply Forall_flat; intros x X; apply (F x X)).
  unfold asset_totals. change get_electrical with electrical_powers. change get_mechanical with mechanical_powers. change get_emitters with all_emitters. destruct (reduce_ok ps STANDARD_CUBIC_METER_PER_DAY CALENDAR_DAY (map in_export l)) as (ex & Eex & Pex & Uex & Tex & Aex).
  { destruct l; [congruence|discriminate]. }
  { rewrite Forall_forall. intros r R. apply in_map_iff in R as (i & <- & I). apply (F i I). }
  rewrite Eex. cbn [bind]. destruct (aggregate_powers ps _ Hel) as (el & Eel & Pel). destruct (aggregate_powers ps _ Hm) as (me & Eme & Pme). rewrite Eel, Eme. cbn [bind].
  destruct (both_ok ps _ _ me el false Pme Pel) as (po & Epo & Ppo). rewrite Epo. cbn [bind]. apply powers_swap in Ppo.
  assert (Forall (power_ok ps) (flat_map electrical_powers l ++ flat_map mechanical_powers l)) as Hb by (apply Forall_app; auto).
  destruct (optional_ok ps _ po (powers_sound ps _ po Hb Ppo)) as (cp & Ecp & Scp). destruct (optional_ok ps _ el (powers_sound ps _ el Hel Pel)) as (ce & Ece & Sce).
  destruct (optional_ok ps _ me (powers_sound ps _ me Hm Pme)) as (cm & Ecm & Scm). rewrite Ecp, Ece, Ecm. cbn [bind].
  destruct (aggregate_fuel_ok ps _ C N Hf) as (fu & Efu & Ofu & Tfu & Afu). rewrite Efu. cbn [bind].
  pose proof Ofu as [Ofp Ofu']. destruct (cumulative_of_ok ps fu STANDARD_CUBIC_METER Ofp) as (cf & Ecf & Ucf & Rcf); [now rewrite Ofu'|]. rewrite Ecf. cbn [bind].
  destruct (emissions_ok ps _ He) as (d & full & Ed & Efl & Sem). rewrite Ed. cbn [bind]. rewrite Efl. cbn [bind]. eexists. split; [reflexivity|].
  rewrite calendar_of_calendar in Rcf by auto. unfold summed. cbn [t_export t_energy t_energy_cumulative t_electrical t_electrical_cumulative t_mechanical t_mechanical_cumulative t_power t_power_cumulative t_emissions].
  rewrite (map_flat _ _ _ fc_fuel get_fuel_consumers) in Afu. rewrite map_map in Aex. split; [repeat (split; auto)|]. split; [split; auto|exact Aex].
Qed.

(** ** running sums are linear *)
Definition days_of (ps : list period) (j : nat) : Qc := match nth_error ps j with Some p => qz (seconds p) / qz 86400 | None => 0 end.
Lemma firstn_produced : forall ps rates n,
  qsum (map2 (fun p r => nan_zero r * (qz (seconds p) / qz 86400)) (firstn n ps) (firstn n rates)) =
  qsum (map (fun j => number_at rates j * days_of ps j) (seq 0 n)).
Proof.
  assert (forall x l, qsum (x :: l) = x + qsum l) as Q by reflexivity.
  assert (forall n, qsum (map (fun _ : nat => 0) (seq 0 n)) = 0) as Z by (intros n; apply qsum_allzero; intros x X; apply in_map_iff in X as (? & <- & _); reflexivity).
  induction ps as [|p ps IH]; intros rates n.
  - rewrite firstn_nil. cbn [map2]. transitivity (qsum (map (fun _ : nat => 0) (seq 0 n))); [now rewrite Z|]. f_equal. apply map_ext. intros j. unfold days_of. destruct j; cbn; ring.
  - destruct n as [|n]; [reflexivity|]. destruct rates as [|r rates].
    + rewrite firstn_nil. cbn [firstn map2]. transitivity (qsum (map (fun _ : nat => 0) (seq 0 (S n)))); [now rewrite Z|]. f_equal. apply map_ext. intros j. rewrite number_at_nil. ring.
    + cbn [firstn map2 seq map]. rewrite !Q, IH, <- seq_shift, map_map. apply f_equal2; [|reflexivity].
      unfold number_at, days_of. cbn [nth_error]. destruct r as [r|]; reflexivity.
Qed.
Lemma scale_right : forall (A : Type) (f : A -> Qc) d l, qsum (map f l) * d = qsum (map (fun x => f x * d) l).
Proof. induction l as [|x l IH]; cbn [map]; [cbn; ring|]. assert (forall y m, qsum (y :: m) = y + qsum m) as Q by reflexivity. rewrite !Q, <- IH. ring. Qed.
Lemma scale_left : forall (A : Type) (f : A -> Qc) d l, d * qsum (map f l) = qsum (map (fun x => d * f x) l).
Proof. induction l as [|x l IH]; cbn [map]; [cbn; ring|]. assert (forall y m, qsum (y :: m) = y + qsum m) as Q by reflexivity. rewrite !Q, <- IH. ring. Qed.
Lemma produced_seq : forall ps rates k, produced ps rates k = qsum (map (fun j => number_at rates j * days_of ps j) (seq 0 (S k))).
Proof. intros. unfold produced. now rewrite firstn_produced. Qed.
Lemma produced_adds : forall ps parts total k, adds_up parts total -> produced ps total k = qsum (map (fun p => produced ps p k) parts).
Proof.
  intros ps parts total k A. rewrite produced_seq. rewrite (map_ext _ (fun p => qsum (map (fun j => number_at p j * days_of ps j) (seq 0 (S k))))) by (intros; apply produced_seq).
  transitivity (qsum (map (fun j => qsum (map (fun p => number_at p j * days_of ps j) parts)) (seq 0 (S k)))).
  - f_equal. apply map_ext. intros j. rewrite (A j). apply scale_right.
  - apply qsum_swap.
Qed.
Lemma runs_number : forall ps f rates c k, runs_up ps f rates c -> number_at (s_values c) k = if Nat.ltb k (length ps) then f * produced ps rates k else 0.
Proof.
  intros ps f rates c k (_ & L & R). destruct (Nat.ltb_spec k (length ps)) as [K|K].
  - unfold number_at. now rewrite (R k K).
  - apply number_at_over. lia.
Qed.
Lemma runs_adds : forall (A : Type) ps f (l : list A) (rates : A -> list num) (c : A -> series num) total ct,
  (forall x, In x l -> runs_up ps f (rates x) (c x)) -> runs_up ps f total ct -> adds_up (map rates l) total ->
  adds_up (map (fun x => s_values (c x)) l) (s_values ct).
Proof.
  intros A ps f l rates c total ct R Rt Ad k. rewrite map_map. rewrite (runs_number _ _ _ _ k Rt).
  rewrite (map_ext_in _ (fun x => if Nat.ltb k (length ps) then f * produced ps (rates x) k else 0)) by (intros x X; now apply runs_number, R).
  destruct (Nat.ltb k (length ps)).
  - rewrite (produced_adds ps _ _ k Ad), map_map. apply scale_left.
  - symmetry. apply qsum_allzero. intros x X. apply in_map_iff in X as (? & <- & _). reflexivity.
Qed.

(** ** the asset and its installations *)
Lemma power_rates : forall ps l o c, power_summed ps l o c -> adds_up (map r_values l) (rates_of o).
Proof. intros ps l [r|] [e|] H; cbn in *; try contradiction; [tauto|]. subst. apply adds_up_nil. Qed.
Definition calendar_of (o : option rate_series) : list num := match o with Some r => calendar_rates r | None => [] end.
Lemma power_runs : forall ps l o c, power_summed ps l o c -> forall k, number_at (numbers_of c) k = if Nat.ltb k (length ps) then qc 24 1000 * produced ps (calendar_of o) k else 0.
Proof.
  intros ps l [r|] [e|] H k; cbn in H; try contradiction.
  - cbn [numbers_of calendar_of]. apply runs_number. tauto.
  - cbn [numbers_of calendar_of]. rewrite number_at_nil. unfold produced. rewrite firstn_nil. destruct (firstn (S k) ps); cbn [map2 qsum fold_right]; destruct (Nat.ltb k (length ps)); ring.
Qed.
Lemma power_calendar : forall ps l o c, power_summed ps l o c -> Forall sound_power l -> adds_up (map calendar_rates l) (calendar_of o).
Proof. intros ps l [r|] [e|] H S; cbn in *; try contradiction; [tauto|]. subst. apply adds_up_nil. Qed.
Lemma power_runs_adds : forall (A : Type) ps (l : list A) (parts : A -> list rate_series) (o : A -> option rate_series) (c : A -> option (series num)) ot ct,
  (forall x, In x l -> power_summed ps (parts x) (o x) (c x)) -> power_summed ps (flat_map parts l) ot ct -> Forall sound_power (flat_map parts l) ->
  adds_up (map (fun x => numbers_of (c x)) l) (numbers_of ct).
Proof.
  intros A ps l parts o c ot ct H Ht S k. rewrite (power_runs _ _ _ _ Ht k), map_map.
  rewrite (map_ext_in _ (fun x => if Nat.ltb k (length ps) then qc 24 1000 * produced ps (calendar_of (o x)) k else 0)) by (intros x X; exact (power_runs _ _ _ _ (H x X) k)).
  assert (adds_up (map (fun x => calendar_of (o x)) l) (calendar_of ot)) as Ad.
  { apply (adds_up_flat A (fun x => map calendar_rates (parts x)) (fun x => calendar_of (o x))).
    - intros x X. apply (power_calendar ps _ _ (c x)); auto. rewrite Forall_forall in *. intros p P. apply S. apply in_flat_map. eauto.
    - rewrite <- map_flat. exact (power_calendar ps _ _ ct Ht S). }
  destruct (Nat.ltb k (length ps)).
  - rewrite (produced_adds ps _ _ k Ad), map_map. apply scale_left.
  - symmetry. apply qsum_allzero. intros x X. apply in_map_iff in X as (? & <- & _). reflexivity.
Qed.
Lemma power_adds : forall (A : Type) ps (l : list A) (parts : A -> list rate_series) (o : A -> option rate_series) (c : A -> option (series num)) ot ct,
  (forall x, In x l -> power_summed ps (parts x) (o x) (c x)) -> power_summed ps (flat_map parts l) ot ct ->
  adds_up (map (fun x => rates_of (o x)) l) (rates_of ot).
Proof.
  intros A ps l parts o c ot ct H Ht. apply (adds_up_flat A (fun x => map r_values (parts x)) (fun x => rates_of (o x))).
  - intros x X. apply (power_rates ps _ _ (c x)); auto.
  - rewrite <- map_flat. exact (power_rates ps _ _ ct Ht).
Qed.
(** sums of concatenations in another order *)
Lemma power_perm : forall ps l m o c, Permutation l m -> power_summed ps l o c -> power_summed ps m o c.
Proof.
  assert (forall (A : Type) (f : A -> list num) l m t, Permutation l m -> adds_up (map f l) t -> adds_up (map f m) t) as X.
  { intros A f l m t P H k. rewrite (H k), !map_map. now apply qsum_map_perm. }
  intros ps l m [r|] [e|] P H; cbn in *; auto.
  - destruct H as (N & O & Ad & U & R & S). split; [intros ->; apply N; apply Permutation_nil; now apply Permutation_sym|]. split; auto. split; [now apply (X _ _ l)|]. split; auto. split; auto.
    intros F. apply (X _ _ l); auto. apply S. apply (Permutation_Forall (Permutation_sym P) F).
  - subst. now apply Permutation_nil.
Qed.
Lemma flat_perm : forall (A B : Type) (f g : A -> list B) l, Permutation (flat_map f l ++ flat_map g l) (flat_map (fun x => f x ++ g x) l).
Proof.
  induction l as [|x l IH]; cbn; [constructor|]. rewrite <- !app_assoc. apply Permutation_app_head. rewrite (Permutation_app_comm (flat_map f l)), <- app_assoc.
  apply Permutation_app_head. now rewrite Permutation_app_comm.
Qed.

(** emissions *)
Lemma emitted_flat : forall (A : Type) (f : A -> list (list (string * rate_series))) name l, emitted name (flat_map f l) = flat_map (fun x => emitted name (f x)) l.
Proof.
  intros A f name. induction l as [|x l IH]; [reflexivity|]. cbn [flat_map]. rewrite <- IH. unfold emitted. now rewrite concat_app, filter_app, map_app.
Qed.
Lemma find_emission : forall name l r c, NoDup (map (fun e : string * rate_series * series num => fst (fst e)) l) -> In (name, r, c) l ->
  List.find (fun e => String.eqb (fst (fst e)) name) l = Some (name, r, c).
Proof.
  intros name. induction l as [|e l IH]; intros r c N I; [destruct I|]. cbn [map] in N. inversion N; subst. cbn [List.find]. destruct I as [->|I].
  - cbn. now rewrite String.eqb_refl.
  - destruct (String.eqb_spec (fst (fst e)) name) as [Q|Q]; [|now apply IH]. exfalso. apply H1. rewrite Q. change name with (fst (fst (name, r, c))). now apply in_map with (f := fun e => fst (fst e)).
Qed.
Lemma emission_found : forall ps l t name, emissions_summed ps l (t_emissions t) ->
  adds_up (map calendar_rates (emitted name l)) (emission_rate name t) /\
  forall k, number_at (emission_cumulative name t) k = if Nat.ltb k (length ps) then produced ps (emission_rate name t) k else 0.
Proof.
  intros ps l t name (N & I & H). unfold emission_rate, emission_cumulative. destruct (List.find (fun e => String.eqb (fst (fst e)) name) (t_emissions t)) as [[[n r] c]|] eqn:E.
  - apply find_some in E as [E Q]. cbn in Q. apply String.eqb_eq in Q. subst n. destruct (H name r c E) as (_ & _ & A & _ & R). split; auto. intros k.
    rewrite (runs_number _ _ _ _ k R). destruct (Nat.ltb k (length ps)); ring.
  - assert (emitted name l = []) as Z.
    { destruct (emitted name l) as [|x y] eqn:Q; auto. exfalso. assert (In name (map (fun e => fst (fst e)) (t_emissions t))) as J by (apply I; congruence).
      apply in_map_iff in J as (e & Fe & J). pose proof (find_none _ _ E e J) as K. cbn in K. rewrite Fe, String.eqb_refl in K. discriminate. }
    rewrite Z. split; [apply adds_up_nil|]. intros k. rewrite number_at_nil. unfold produced. rewrite firstn_nil. destruct (firstn (S k) ps); cbn [map2 qsum fold_right]; destruct (Nat.ltb k (length ps)); reflexivity.
Qed.

Theorem asset_installations_proof : forall ps l t, l <> [] -> Forall (installation_ok ps) l -> asset_totals ps l = Ok t ->
  exists ts, mapM (map_installation ps) l = Ok ts /\ length ts = length l /\
    adds_up (map (fun x => r_values (t_energy x)) ts) (r_values (t_energy t)) /\
    adds_up (map (fun x => s_values (t_energy_cumulative x)) ts) (s_values (t_energy_cumulative t)) /\
    adds_up (map (fun x => rates_of (t_electrical x)) ts) (rates_of (t_electrical t)) /\
    adds_up (map (fun x => rates_of (t_mechanical x)) ts) (rates_of (t_mechanical t)) /\
    adds_up (map (fun x => rates_of (t_power x)) ts) (rates_of (t_power t)) /\
    adds_up (map (fun x => r_values (t_export x)) ts) (r_values (t_export t)) /\
    (forall name, adds_up (map (emission_rate name) ts) (emission_rate name t) /\ adds_up (map (emission_cumulative name) ts) (emission_cumulative name t)) /\
    ((forall i, In i l -> Forall sound_power (electrical_powers i ++ mechanical_powers i)) ->
     adds_up (map (fun x => numbers_of (t_electrical_cumulative x)) ts) (numbers_of (t_electrical_cumulative t)) /\
     adds_up (map (fun x => numbers_of (t_mechanical_cumulative x)) ts) (numbers_of (t_mechanical_cumulative t)) /\
     adds_up (map (fun x => numbers_of (t_power_cumulative x)) ts) (numbers_of (t_power_cumulative t))).
Proof.
  intros ps l t Ne F E. destruct (asset_proof ps l Ne F) as (t' & E' & S & Ox & Ax). rewrite E in E'. injection E' as <-.
  set (get := fun i => match map_installation ps i with Ok x => x | Err _ => t end).
  assert (forall i, In i l -> map_installation ps i = Ok (get i) /\ summed ps (map fc_fuel (in_components i)) (electrical_powers i) (mechanical_powers i) (all_emitters i) (get i) /\ t_export (get i) = in_export i) as G.
  { intros i I. rewrite Forall_forall in F. destruct (installation_proof ps i (F i I)) as (x & Ex & Sx & Tx). unfold get. rewrite Ex. auto. }
  exists (map get l). split; [apply mapM_ok; intros i I; now apply G|]. split; [apply map_length|]. rewrite !map_map.
  destruct S as (S1 & S2 & S3 & S4 & S5 & S6 & S7 & S8 & S9).
  assert (adds_up (map (fun i => r_values (t_energy (get i))) l) (r_values (t_energy t))) as A1.
  { rewrite map_flat in S3. apply (adds_up_flat _ (fun i => map calendar_rates (map fc_fuel (in_components i)))); auto. intros i I. now destruct (G i I) as (_ & (_ & _ & ? & _) & _). }
  split; [exact A1|]. split.
  { apply (runs_adds _ ps 1 l (fun i => r_values (t_energy (get i))) (fun i => t_energy_cumulative (get i)) (r_values (t_energy t))); auto.
    intros i I. destruct (G i I) as (_ & Si & _). unfold summed in Si. tauto. }
  assert (forall i, In i l -> power_summed ps (electrical_powers i) (t_electrical (get i)) (t_electrical_cumulative (get i))) as P1 by (intros i I; destruct (G i I) as (_ & Si & _); unfold summed in Si; tauto).
  assert (forall i, In i l -> power_summed ps (mechanical_powers i) (t_mechanical (get i)) (t_mechanical_cumulative (get i))) as P2 by (intros i I; destruct (G i I) as (_ & Si & _); unfold summed in Si; tauto).
  assert (forall i, In i l -> power_summed ps (electrical_powers i ++ mechanical_powers i) (t_power (get i)) (t_power_cumulative (get i))) as P3 by (intros i I; destruct (G i I) as (_ & Si & _); unfold summed in Si; tauto).
  pose proof (power_perm ps _ _ _ _ (flat_perm _ _ electrical_powers mechanical_powers l) S8) as S8'.
  split; [exact (power_adds _ ps l _ _ _ _ _ P1 S6)|]. split; [exact (power_adds _ ps l _ _ _ _ _ P2 S7)|]. split; [exact (power_adds _ ps l _ _ _ _ _ P3 S8')|]. split.
  { rewrite (map_ext_in _ (fun i => r_values (in_export i))); [exact Ax|]. intros i I. destruct (G i I) as (_ & _ & ->). reflexivity. }
  split.
  - intros name. rewrite !map_map. destruct (emission_found ps _ t name S9) as [B1 B2].
    assert (forall i, In i l -> adds_up (map calendar_rates (emitted name (all_emitters i))) (emission_rate name (get i)) /\
      forall k, number_at (emission_cumulative name (get i)) k = if Nat.ltb k (length ps) then produced ps (emission_rate name (get i)) k else 0) as Bi.
    { intros i I. apply emission_found. destruct (G i I) as (_ & Si & _). unfold summed in Si. tauto. }
    assert (adds_up (map (fun i => emission_rate name (get i)) l) (emission_rate name t)) as A2.
    { rewrite emitted_flat, map_flat in B1. apply (adds_up_flat _ (fun i => map calendar_rates (emitted name (all_emitters i)))); auto. intros i I. now apply Bi. }
    split; [exact A2|]. intros k. rewrite B2, map_map.
    rewrite (map_ext_in _ (fun i => if Nat.ltb k (length ps) then produced ps (emission_rate name (get i)) k else 0)) by (intros i I; now apply Bi).
    destruct (Nat.ltb k (length ps)).
    + rewrite (produced_adds ps _ _ k A2), map_map. reflexivity.
    + symmetry. apply qsum_allzero. intros x X. apply in_map_iff in X as (? & <- & _). reflexivity.
  - intros Snd. assert (Forall sound_power (flat_map (fun i => electrical_powers i ++ mechanical_powers i) l)) as Fs by (apply Forall_flat; auto).
    split; [|split].
    + apply (power_runs_adds _ ps l electrical_powers (fun i => t_electrical (get i)) (fun i => t_electrical_cumulative (get i)) (t_electrical t)); auto.
      apply Forall_flat. intros i I. now destruct (proj1 (Forall_app _ _ _) (Snd i I)).
    + apply (power_runs_adds _ ps l mechanical_powers (fun i => t_mechanical (get i)) (fun i => t_mechanical_cumulative (get i)) (t_mechanical t)); auto.
      apply Forall_flat. intros i I. now destruct (proj1 (Forall_app _ _ _) (Snd i I)).
    + apply (power_runs_adds _ ps l (fun i => electrical_powers i ++ mechanical_powers i) (fun i => t_power (get i)) (fun i => t_power_cumulative (get i)) (t_power t)); auto.
Qed.

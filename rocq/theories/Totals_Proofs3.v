(** Emissions, the totals of an installation and of the asset. *)
From Coq Require Import PeanoNat String Permutation.
From Verif Require Import QcTac Base BaseLemmas Num Time_Model Time_Spec Units_Model Units_Proofs Rates_Model Rates_Spec Rates_Proofs Rates_Proofs2 Rates_Proofs3
  Rates_Proofs4 Rates_Proofs5 Stream_Proofs System_Proofs2 Graph_Model Graph_Spec Totals_Model Totals_Spec Totals_Proofs Totals_Proofs2.
Local Open Scope list_scope.
Local Open Scope Qc_scope.

(** ** emissions by name *)
Definition named (name : string) (l : list (string * rate_series)) : list rate_series := map snd (filter (fun e => String.eqb (fst e) name) l).
Definition emission_inv (ps : list period) (d : list (string * rate_series)) (done : list (string * rate_series)) : Prop :=
  NoDup (map fst d) /\ forall name,
  match dict_get String.eqb name d with
  | None => named name done = []
  | Some r => named name done <> [] /\ emission_ok ps (name, r) /\ r_type r = CALENDAR_DAY /\ adds_up (map calendar_rates (named name done)) (r_values r)
  end.
Lemma string_eqb_spec : forall a b, String.eqb a b = true <-> a = b. Proof. exact String.eqb_eq. Qed.
Lemma named_snoc : forall name l e, named name (l ++ [e]) = named name l ++ (if String.eqb (fst e) name then [snd e] else []).
Proof. intros name l e. unfold named. rewrite filter_app, map_app. cbn. now destruct (String.eqb (fst e) name). Qed.
Lemma set_nodup : forall k (v : rate_series) d, NoDup (map fst d) -> NoDup (map fst (dict_set String.eqb k v d)).
Proof.
  intros k v d N. destruct (in_dec string_dec k (map fst d)) as [I|I].
  - now rewrite (dict_set_keys_in _ _ _ _ _ _ string_eqb_spec I).
  - rewrite (dict_set_keys_notin _ _ _ _ _ _ string_eqb_spec I), map_app. cbn. apply (Permutation_NoDup (l := k :: map fst d)); [apply Permutation_cons_append|now constructor].
Qed.

Lemma add_emission_ok : forall ps d done e, emission_ok ps e -> emission_inv ps d done ->
  exists d', add_emission (Ok d) e = Ok d' /\ emission_inv ps d' (done ++ [e]).
Proof.
  intros ps d done [n r] [P U] [N I]. unfold add_emission. cbn [bind fst snd] in *. destruct P as [W Pp].
  rewrite (to_calendar_day_eq r W). cbn [bind]. fold (as_calendar r). assert (on_periods ps (as_calendar r)) as Pc by (apply as_calendar_on; split; auto).
  pose proof (I n) as In'. destruct (dict_get String.eqb n d) as [s|] eqn:G.
  - destruct In' as (Ne & [Ps Us] & Ts & As). cbn [snd] in *. destruct (add_on ps s (as_calendar r) Ps Pc) as (t & E & Pt & Ut & Tt & Vt & _); [cbn; congruence|cbn; congruence|].
    rewrite E. cbn [bind]. eexists. split; [reflexivity|]. split; [now apply set_nodup|]. intros name. rewrite (dict_get_set _ _ _ _ _ _ _ string_eqb_spec).
    rewrite named_snoc. cbn [fst snd]. rewrite (String.eqb_sym n name). destruct (String.eqb name n) eqn:Q.
    + apply String.eqb_eq in Q. subst name. split; [intros C; apply app_eq_nil in C as [_ C]; discriminate|]. split; [split; cbn; congruence|]. split; [congruence|].
      rewrite map_app. apply (adds_up_app _ _ (r_values s) (calendar_rates r)); auto; [apply adds_up_one|]. intros k. rewrite Vt. cbn [as_calendar r_values].
      rewrite number_at_sum; [cbn; ring|]. destruct (on_periods_len _ _ Ps) as [-> _]. now destruct (on_periods_len _ _ Pc) as [L _].
    + rewrite app_nil_r. apply I.
  - eexists. split; [reflexivity|]. split; [now apply set_nodup|]. intros name. rewrite (dict_get_set _ _ _ _ _ _ _ string_eqb_spec). rewrite named_snoc. cbn [fst snd].
    rewrite (String.eqb_sym n name). destruct (String.eqb name n) eqn:Q.
    + apply String.eqb_eq in Q. subst name. rewrite In'. cbn [app]. split; [discriminate|]. split; [split; auto|]. split; [reflexivity|]. cbn [map as_calendar r_values]. apply adds_up_one.
    + rewrite app_nil_r. apply I.
Qed.
Lemma fold_emissions : forall ps l d done, Forall (emission_ok ps) l -> emission_inv ps d done ->
  exists d', fold_left add_emission l (Ok d) = Ok d' /\ emission_inv ps d' (done ++ l).
Proof.
  intros ps. induction l as [|e l IH]; intros d done F I.
  - exists d. rewrite app_nil_r. auto.
  - inversion F; subst. cbn [fold_left]. destruct (add_emission_ok ps d done e) as (d1 & E & I1); auto. rewrite E.
    destruct (IH d1 (done ++ [e])) as (d2 & E2 & I2); auto. exists d2. rewrite <- app_assoc in I2. auto.
Qed.
Lemma fold_concat : forall (A B : Type) (f : A -> B -> A) l a, fold_left (fun acc x => fold_left f x acc) l a = fold_left f (concat l) a.
Proof. induction l as [|x l IH]; intros a; cbn; [reflexivity|]. rewrite fold_left_app. apply IH. Qed.
Lemma Forall_concat_iff : forall (A : Type) (P : A -> Prop) l, Forall (Forall P) l -> Forall P (concat l).
Proof. induction l as [|x l IH]; intros F; cbn; [constructor|]. inversion F; subst. apply Forall_app. auto. Qed.
Lemma aggregate_emissions_ok : forall ps l, Forall (Forall (emission_ok ps)) l ->
  exists d, aggregate_emissions l = Ok d /\ NoDup (map fst d) /\ (forall name, In name (map fst d) <-> emitted name l <> []) /\
    forall name r, In (name, r) d -> emission_ok ps (name, r) /\ r_type r = CALENDAR_DAY /\ adds_up (map calendar_rates (emitted name l)) (r_values r).
Proof.
  intros ps l F. unfold aggregate_emissions. rewrite fold_concat. destruct (fold_emissions ps (concat l) [] []) as (d & E & N & I).
  - now apply Forall_concat_iff.
  - split; [constructor|]. intros name. reflexivity.
  - cbn [app] in I. fold (named) in I. exists d. split; [exact E|]. split; [exact N|]. split.
    + intros name. specialize (I name). change (named name (concat l)) with (emitted name l) in I. pose proof (dict_get_None _ _ String.eqb name d string_eqb_spec) as X.
      destruct (dict_get String.eqb name d) as [r|].
      * split; [tauto|]. intros _. destruct (in_dec string_dec name (map fst d)) as [Y|Y]; auto. apply X in Y. discriminate.
      * split; [intros Y; now apply X in Y|]. intros Y. congruence.
    + intros name r R. specialize (I name). rewrite (dict_get_NoDup _ _ _ _ _ _ string_eqb_spec N R) in I. tauto.
Qed.
Lemma full_emissions_ok : forall ps (P : string -> rate_series -> Prop) d, (forall name r, In (name, r) d -> P name r /\ emission_ok ps (name, r) /\ r_type r = CALENDAR_DAY) ->
  exists full, full_emissions d = Ok full /\ map fst full = d /\
    forall name r c, In (name, r, c) full -> P name r /\ s_unit c = TONS /\ runs_up ps 1 (r_values r) c.
Proof.
  intros ps P. induction d as [|[n r] d IH]; intros H; [exists []; split; [reflexivity|split; [reflexivity|intros ? ? ? []]]|].
  destruct (H n r) as (Hp & [O U] & T); [now left|]. cbn [snd] in *. destruct (cumulative_of_ok ps r TONS O) as (c & E & Uc & R); [now rewrite U|].
  destruct IH as (full & Ef & M & X); [intros; apply H; now right|]. unfold full_emissions in *. cbn [mapM snd]. rewrite E. cbn [bind]. rewrite Ef. cbn [bind].
  eexists. split; [reflexivity|]. split; [cbn; now rewrite M|]. intros name r' c' [[= <- <- <-]|I]; [|now apply X]. rewrite calendar_of_calendar in R by auto. auto.
Qed.
Lemma emissions_ok : forall ps l, Forall (Forall (emission_ok ps)) l ->
  exists d full, aggregate_emissions l = Ok d /\ full_emissions d = Ok full /\ emissions_summed ps l full.
Proof.
  intros ps l F. destruct (aggregate_emissions_ok ps l F) as (d & E & N & I & A).
  destruct (full_emissions_ok ps (fun name r => emission_ok ps (name, r) /\ r_type r = CALENDAR_DAY /\ adds_up (map calendar_rates (emitted name l)) (r_values r)) d) as (full & Ef & M & X).
  - intros name r R. pose proof (A name r R). tauto.
  - exists d, full. split; auto. split; auto. replace (map fst d) with (map (fun e : string * rate_series * series num => fst (fst e)) full) in * by (rewrite <- M, map_map; reflexivity).
    split; [exact N|]. split; [exact I|]. intros name r c R. destruct (X name r c R) as ((X1 & X2 & X3) & X4 & X5). auto 6.
Qed.

(** ** an installation *)
Theorem installation_proof : forall ps i, installation_ok ps i ->
  exists t, map_installation ps i = Ok t /\ summed ps (map fc_fuel (in_components i)) (electrical_powers i) (mechanical_powers i) (all_emitters i) t /\ t_export t = in_export i.
Proof.
  intros ps i (Hf & He & Hm & Hel & (Px & _)). assert (contiguous ps /\ ps <> []) as [C N] by (destruct Px as [(C & N & _) <-]; auto). unfold map_installation. change get_electrical with electrical_powers. change get_mechanical with mechanical_powers. change get_emitters with all_emitters.
  destruct (aggregate_powers ps _ Hel) as (el & Eel & Pel). destruct (aggregate_powers ps _ Hm) as (me & Eme & Pme). rewrite Eel, Eme. cbn [bind].
  destruct (both_ok ps _ _ el me true Pel Pme) as (po & Epo & Ppo). rewrite Epo. cbn [bind].
  destruct (aggregate_fuel_ok ps (get_fuel_consumers i) C N Hf) as (fu & Efu & Ofu & Tfu & Afu). rewrite Efu. cbn [bind].
  assert (Forall (power_ok ps) (electrical_powers i ++ mechanical_powers i)) as Hb by (apply Forall_app; auto).
  destruct (optional_ok ps _ po (powers_sound ps _ po Hb Ppo)) as (cp & Ecp & Scp). destruct (optional_ok ps _ el (powers_sound ps _ el Hel Pel)) as (ce & Ece & Sce).
  destruct (optional_ok ps _ me (powers_sound ps _ me Hm Pme)) as (cm & Ecm & Scm). rewrite Ecp, Ece, Ecm. cbn [bind].
  pose proof Ofu as [Ofp Ofu']. destruct (cumulative_of_ok ps fu STANDARD_CUBIC_METER Ofp) as (cf & Ecf & Ucf & Rcf); [now rewrite Ofu'|]. rewrite Ecf. cbn [bind].
  destruct (emissions_ok ps _ He) as (d & full & Ed & Efl & Sem). rewrite Ed. cbn [bind]. rewrite Efl. cbn [bind]. eexists. split; [reflexivity|]. split; [|reflexivity].
  rewrite calendar_of_calendar in Rcf by auto. unfold summed. cbn [t_energy t_energy_cumulative t_electrical t_electrical_cumulative t_mechanical t_mechanical_cumulative t_power t_power_cumulative t_emissions].
  repeat (split; auto).
Qed.

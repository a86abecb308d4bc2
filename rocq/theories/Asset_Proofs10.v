(** What the totals of an installation are made of. *)
From Coq Require Import PeanoNat String Lia.
From Verif Require Import QcTac Base BaseLemmas Time_Model Time_Spec Num Expr_Model Vars_Model Units_Model Rates_Model
  Input_Model Interp_Model Energy_Model Emitters_Model Emitters_Spec Emitters_Proofs2 Emitters_Proofs5
  Consumer_Model Graph_Model Totals_Model Totals_Spec Asset_Model Asset_Spec Asset_Proofs Asset_Proofs2 Asset_Proofs3 Asset_Proofs4 Asset_Proofs8 Report_Spec Asset_Proofs9.
Local Open Scope list_scope.
Local Open Scope nat_scope.

Lemma kept_unique : forall A (P : A -> Prop) l m m', kept P l m -> kept P l m' -> m = m'.
Proof. intros A P l m m' H. revert m'. induction H; intros m' H'; inversion H'; subst; try contradiction; f_equal; auto. Qed.
Lemma f2_length : forall A B (P : A -> B -> Prop) l m, Forall2 P l m -> length l = length m.
Proof. intros A B P l m H. induction H; cbn; congruence. Qed.
Lemma f2_cons_inv : forall A B (P : A -> B -> Prop) a b l m, Forall2 P (a :: l) (b :: m) -> P a b /\ Forall2 P l m.
Proof. intros A B P a b l m H. inversion H; subst. auto. Qed.
Lemma f2_app_l : forall A B (P : A -> B -> Prop) a a' b b', length a = length b -> Forall2 P (a ++ a') (b ++ b') -> Forall2 P a b /\ Forall2 P a' b'.
Proof.
  intros A B P a. induction a as [|x a IH]; intros a' [|y b] b' L H; cbn in L; try discriminate; [split; [constructor|exact H]|].
  cbn in H. inversion H; subst. assert (L2 : length a = length b) by congruence. match goal with X : Forall2 P (a ++ a') (b ++ b') |- _ => destruct (IH a' b b' L2 X) as [H1 H2] end. split; [now constructor|exact H2].
Qed.
Lemma f2_map_l : forall A B C (P : B -> C -> Prop) (f : A -> B) l m, Forall2 P (map f l) m -> Forall2 (fun a c => P (f a) c) l m.
Proof. intros A B C P f l. induction l as [|a l IH]; intros m H; inversion H; subst; constructor; auto. Qed.

Definition rated (ps : list period) (reg : list Qc) (u : unit_) (v : list num) : rate_series := mkRate ps v u STREAM_DAY (map Some reg).

Section Parts.
  Context {M : Type}.
  Variable np_pow : Qc -> Qc -> Qc.
  Variable usage : energy_usage_type -> M -> list Qc -> variables_map -> result function_result.
  Variables (first : period) (rest : list period) (vars : variables_dict) (vm : variables_map) (target : period).
  Let ps := first :: rest.
  Let n := List.length ps.
  Variable fuels : list (string * fuel_type).
  Variable tables : list (string * tabular_data).
  Variable W : list (entry M).
  Variable g : graph.
  Variable results : list (node_id * component_result).
  Hypothesis Evm : make_variables_map ps vars = Ok vm.
  Hypothesis RS : run_setting ps target.
  Hypothesis Lvars : forall r l, dict_get String.eqb r vars = Some l -> List.length l = n.
  Hypothesis Hfuels : fuels_sound np_pow ps vars fuels.
  Hypothesis Hunit : forall m reg vm' fr, usage FUEL m reg vm' = Ok fr -> fr_unit fr = STANDARD_CUBIC_METER_PER_DAY.

  Lemma periods_eq : vm_periods vm = ps. Proof. exact (proj1 (vm_fields ps vars vm Evm)). Qed.
  Lemma grid : contiguous ps. Proof. exact (proj1 RS). Qed.

  (** a user of fuel and what is reported of it *)
  Definition component_facts (reg : list Qc) (s : shown) (fc : fuel_component) : Prop :=
    exists name fuel r below, s = Shown name (Some fuel) (Some r) below /\
      length (s_values (re_energy r)) = n /\ fc_fuel fc = rated ps reg STANDARD_CUBIC_METER_PER_DAY (s_values (re_energy r)) /\
      emission_dict ps reg (fun name => exists t m, in_force fuel t m /\ In name (map fst m))
        (fun name k => burns np_pow ps vars name k (fuel, s_values (re_energy r))) (fc_emissions fc) /\
      (forall v, In v (powers_of below) -> length v = n) /\ (forall v, power_shown s = Some v -> length v = n) /\
      match below with
      | [] => fc_power fc = Mechanical (option_map (rated ps reg MEGA_WATT) (power_shown s))
      | _ => fc_power fc = Electrical (map (fun c => option_map (rated ps reg MEGA_WATT) (power_shown c)) below)
      end.

  Lemma found : forall id name fuel r below, shows W g results id (Shown name fuel (Some r) below) -> get_container_result results id = Ok r.
  Proof. intros id name fuel r below H. inversion H; subst. assumption. Qed.
  Lemma fuel_found : forall id c name fuel r below, shows W g results id (Shown name fuel r below) -> get_energy_container W id = Ok c -> fuel = get_fuel c.
  Proof. intros id c name fuel r below H E. inversion H; subst; congruence. Qed.
  Lemma children_found : forall id ids name fuel r below, shows W g results id (Shown name fuel r below) -> get_children g id = Ok ids ->
    Forall2 (shows W g results) ids below.
  Proof. intros id ids name fuel r below H E. inversion H; subst; congruence. Qed.

  Lemma whole_fuel : forall reg values power, length reg = n -> length values = n ->
    fuel_consumption vm reg (mkConsumerResult ps (mkSeries ps values STANDARD_CUBIC_METER_PER_DAY) power) = Ok (rated ps reg STANDARD_CUBIC_METER_PER_DAY values).
  Proof.
    intros reg values power Lr Lv. apply (fuel_rate_proof ps vars vm reg [] ps [] ps values power STANDARD_CUBIC_METER_PER_DAY [] reg []); auto.
    - exact grid. - now rewrite app_nil_r. - discriminate. - now rewrite app_nil_r.
  Qed.
  Lemma whole_power : forall reg values usage, length reg = n -> length values = n ->
    electricity_consumer_power vm reg (mkConsumerResult ps usage (Some (mkSeries ps values MEGA_WATT))) = Ok (Some (rated ps reg MEGA_WATT values)).
  Proof.
    intros reg values us Lr Lv. apply (electricity_power_proof ps vars vm reg [] ps [] ps us values MEGA_WATT [] reg []); auto.
    - exact grid. - now rewrite app_nil_r. - discriminate. - now rewrite app_nil_r.
  Qed.
  Lemma alone_facts : forall consumes i data r, alone np_pow usage vm target consumes i data r ->
    (consumes = FUEL -> re_energy r = mkSeries ps (s_values (re_energy r)) STANDARD_CUBIC_METER_PER_DAY /\ length (s_values (re_energy r)) = n) /\
    forall p, re_power r = Some p -> p = mkSeries ps (s_values p) MEGA_WATT /\ length (s_values p) = n.
  Proof.
    intros consumes i data r (s & E & ->). cbn [re_energy re_power]. split.
    - intros ->. destruct (consumer_fields M np_pow (usage FUEL) STANDARD_CUBIC_METER_PER_DAY _ _ _ _ _ Hunit E) as ((P1 & P2 & P3) & _).
      rewrite periods_eq in *. split; [|exact P3]. rewrite (series_eta _ (cs_energy s)) at 1. congruence.
    - intros p Ep. unfold evaluate_consumer in E.
      destruct (model_results np_pow _ _ vm data target) as [[l|]|] eqn:Em; cbn [bind] in E; try discriminate.
      destruct (consumer_series_of l (vm_periods vm)) as [c|] eqn:Es; [|discriminate]. cbn [bind] in E. injection E as <-.
      unfold consumer_series_of in Es. destruct (result_energy l (vm_periods vm)) as [oe|] eqn:Ee; [|discriminate]. cbn [bind] in Es.
      destruct (result_power l (vm_periods vm)) as [op|] eqn:Eo; [|discriminate]. cbn [bind] in Es.
      destruct (result_valid l (vm_periods vm)) as [ov|]; [|discriminate]. cbn [bind] in Es. destruct oe as [e|], ov as [v|]; try discriminate. injection Es as <-.
      cbn [cs_power] in Ep. subst op. unfold result_power in Eo.
      destruct (concatenated_fields _ _ _ _ _ _ _ (fun x => x = MEGA_WATT) _ _ _ (fun _ _ => eq_refl) Eo) as [P1 P2].
      pose proof (concatenated_length _ _ _ _ _ _ _ _ _ _ Eo) as P3. rewrite periods_eq in *. split; [|exact P3]. rewrite (series_eta _ p) at 1. congruence.
  Qed.

  Lemma consumer_powers : forall i reg (cs : list (electricity_consumer M)) running below, length reg = n ->
    (forall e, In e cs -> rg_values (ec_regularity e) = reg) -> Forall2 (shows W g results) (map ec_id cs) below -> Forall2 (consumer_shown np_pow usage vm target i) running below ->
    mapM (fun e => do r <- consumer_result_of vm results (ec_id e); electricity_consumer_power vm (rg_values (ec_regularity e)) r) cs =
      Ok (map (fun c => option_map (rated ps reg MEGA_WATT) (power_shown c)) below) /\
    forall v, In v (powers_of below) -> length v = n.
  Proof.
    intros i reg cs. induction cs as [|c cs IH]; intros running below Lr Hr Hs Hc; cbn [map] in Hs.
    { inversion Hs; subst. split; [reflexivity|intros v []]. }
    destruct below as [|s0 below]; [inversion Hs|]. destruct running as [|y0 running]; [inversion Hc|].
    apply f2_cons_inv in Hs as [H1 H3]. apply f2_cons_inv in Hc as [H4 H5]. destruct (IH _ _ Lr (fun e He => Hr e (or_intror He)) H3 H5) as (I1 & I2).
    destruct H4 as (r & Ha & Es0). subst s0. apply found in H1. destruct (alone_facts _ _ _ _ Ha) as [_ Hp].
    cbn [mapM]. unfold consumer_result_of at 1. rewrite H1. cbn [bind]. rewrite (Hr c (or_introl eq_refl)).
    unfold powers_of. cbn [flat_map map power_shown]. destruct (re_power r) as [p|] eqn:Ep; cbn [option_map].
    - destruct (Hp p eq_refl) as [E1 E2]. rewrite E1 at 1. rewrite periods_eq, whole_power by auto. cbn [bind]. setoid_rewrite I1. cbn [bind].
      split; [reflexivity|]. intros v [<-|Hv]; [exact E2|]. now apply I2.
    - change (electricity_consumer_power vm reg (mkConsumerResult (vm_periods vm) (re_energy r) None)) with (@Ok (option rate_series) None). cbn [bind]. setoid_rewrite I1. cbn [bind].
      split; [reflexivity|]. exact I2.
  Qed.

  Lemma generator_set_part : forall i r reg y c s, rg_values r = reg -> length reg = n -> generator_set_object target fuels W g i r y c ->
    fuel_entries ps fuels (ge_fuel c) -> shows W g results (ge_id c) s -> generator_set_shown np_pow usage vm target fuels tables i y s ->
    exists fc, fuel_component_of np_pow vm results (inl c) = Ok fc /\ component_facts reg s fc.
  Proof.
    intros i r reg y c s Er Lr (O1 & O2 & O3 & O4 & O5) Hf Hs (running & below & total & rs & fuel & G1 & G2 & G3 & G4 & G5 & G6 & G7 & ->).
    pose proof (found _ _ _ _ _ Hs) as Hres. pose proof (children_found _ _ _ _ _ _ Hs O2) as Hkids.
    assert (Efuel : fuel = ge_fuel c). { pose proof (fuel_found _ _ _ _ _ _ Hs O1) as X. cbn in X. congruence. }
    destruct G6 as ((power & P1 & P2 & P3 & P4) & E1 & E2 & E3 & _). rewrite periods_eq in *.
    assert (Een : re_energy rs = mkSeries ps (s_values (re_energy rs)) STANDARD_CUBIC_METER_PER_DAY) by (rewrite (series_eta _ (re_energy rs)) at 1; congruence).
    destruct (burnt np_pow first rest vars vm reg Evm grid Lvars Lr fuels (ge_fuel c) (s_values (re_energy rs)) ps (re_power rs) STANDARD_CUBIC_METER_PER_DAY Hfuels Hf E2) as (d & Ed & Hd). fold ps in Ed, Hd.
    destruct (consumer_powers i reg (ge_consumers c) running below Lr) as (Ep & Hp); auto. { intros e He. now rewrite (O4 e He). }
    cbn [fuel_component_of]. unfold consumer_result_of at 1. rewrite Hres. cbn [bind]. rewrite O3, Er, periods_eq, Een, whole_fuel by auto. cbn [bind].
    rewrite Ed. cbn [bind]. rewrite Ep. cbn [bind]. eexists. split; [reflexivity|].
    exists (yg_name y), fuel, rs, below. split; [reflexivity|]. split; [exact E2|]. split; [reflexivity|]. rewrite Efuel. split; [exact Hd|].
    split; [exact Hp|]. split; [intros v Hv; cbn in Hv; rewrite P1 in Hv; cbn in Hv; injection Hv as <-; now rewrite P3|].
    destruct below; [contradiction|reflexivity].
  Qed.

  Lemma fuel_consumer_part : forall i r reg y c s, rg_values r = reg -> length reg = n -> fuel_object target fuels W i r y c ->
    fuel_entries ps fuels (fu_fuel c) -> shows W g results (fu_id c) s -> fuel_consumer_shown np_pow usage vm target fuels i y s ->
    exists fc, fuel_component_of np_pow vm results (inr c) = Ok fc /\ component_facts reg s fc.
  Proof.
    intros i r reg y c s Er Lr (O1 & O2 & O3) Hf Hs (rs & fuel & A & U & ->).
    pose proof (found _ _ _ _ _ Hs) as Hres.
    assert (Efuel : fuel = fu_fuel c). { pose proof (fuel_found _ _ _ _ _ _ Hs O1) as X. cbn in X. congruence. }
    destruct (alone_facts _ _ _ _ A) as [A1 A2]. destruct (A1 eq_refl) as [Een Le].
    destruct (burnt np_pow first rest vars vm reg Evm grid Lvars Lr fuels (fu_fuel c) (s_values (re_energy rs)) ps (re_power rs) STANDARD_CUBIC_METER_PER_DAY Hfuels Hf Le) as (d & Ed & Hd). fold ps in Ed, Hd.
    assert (Epw : fuel_consumer_power vm reg (mkConsumerResult ps (re_energy rs) (re_power rs)) = Ok (option_map (rated ps reg MEGA_WATT) (option_map s_values (re_power rs)))).
    { destruct (re_power rs) as [p|] eqn:Ep; [|reflexivity]. destruct (A2 p eq_refl) as [P1 P2]. rewrite P1 at 1. cbn [option_map].
      destruct (fuel_power_proof ps vars vm reg ps (re_energy rs) ps (s_values p) MEGA_WATT Evm grid) as (X & _); auto; discriminate. }
    cbn [fuel_component_of]. unfold consumer_result_of at 1. rewrite Hres. cbn [bind]. rewrite O2, Er, periods_eq. rewrite Epw. rewrite Een, whole_fuel by auto. cbn [bind].
    rewrite Ed. cbn [bind]. eexists. split; [reflexivity|].
    exists (yf_name y), fuel, rs, []. split; [reflexivity|]. split; [exact Le|]. split; [reflexivity|]. rewrite Efuel. split; [exact Hd|].
    split; [intros v []|]. split; [|reflexivity].
    intros v Hv. cbn in Hv. destruct (re_power rs) as [p|]; [|discriminate]. cbn in Hv. injection Hv as <-. apply (A2 p eq_refl).
  Qed.

  Definition emitter_facts (reg : list Qc) (y : yaml_venting_emitter) (d : list (string * rate_series)) : Prop :=
    emission_dict ps reg (fun name => In name (emitter_names (yv_emitter y)))
      (fun name k x => forall q, nth_error reg k = Some q -> vents np_pow ps vars name k q (yv_emitter y) x) d.
  Definition installation_facts (i : yaml_installation M) (s : shown) (inst : installation) : Prop :=
    exists reg parts silent, regularity_values np_pow (yi_regularity i) target vm = Ok reg /\ length reg = n /\
      hydrocarbon_export np_pow (yi_export i) reg target vm = Ok (in_export inst) /\
      below_of s = parts ++ silent /\ (forall c, In c silent -> exists name, c = Shown name None None []) /\
      Forall2 (component_facts reg) parts (in_components inst) /\ Forall2 (emitter_facts reg) (yi_venting_emitters i) (in_venting inst).

  Lemma mapM_app : forall A B (f : A -> result B) l l' m m', mapM f l = Ok m -> mapM f l' = Ok m' -> mapM f (l ++ l') = Ok (m ++ m').
  Proof.
    intros A B f l. induction l as [|a l IH]; intros l' m m' E E'; cbn [mapM] in *; [injection E as <-; exact E'|].
    destruct (f a) as [b|] eqn:Ef; [|discriminate]. cbn [bind] in E. destruct (mapM f l) as [bs|] eqn:El; [|discriminate]. cbn [bind] in E. injection E as <-.
    cbn [app mapM]. rewrite Ef. cbn [bind]. now rewrite (IH l' bs m' eq_refl E').
  Qed.
  Lemma mapM_parts : forall A B S (f : A -> result B) (P : A -> S -> Prop) (Q : S -> B -> Prop) l ss, Forall2 P l ss ->
    (forall a s, In a l -> P a s -> exists b, f a = Ok b /\ Q s b) -> exists bs, mapM f l = Ok bs /\ Forall2 Q ss bs.
  Proof.
    intros A B S f P Q l ss H. induction H as [|a s l ss H _ IH]; intros Hf; [exists []; split; [reflexivity|constructor]|].
    destruct (Hf a s (or_introl eq_refl) H) as (b & Eb & Hb). destruct IH as (bs & Ebs & Hbs). { intros. apply Hf; auto. now right. }
    exists (b :: bs). cbn [mapM]. rewrite Eb. cbn [bind]. rewrite Ebs. split; [reflexivity|now constructor].
  Qed.
  Lemma f2_join : forall A B C (P : A -> B -> Prop) (Q : A -> C -> Prop) (R : B -> C -> Prop) l m k, Forall2 P l m -> Forall2 Q l k -> Forall2 R m k ->
    Forall2 (fun b c => exists a, In a l /\ P a b /\ Q a c /\ R b c) m k.
  Proof.
    intros A B C P Q R l m k H. revert k. induction H as [|a b l m H _ IH]; intros k Hq Hr.
    { inversion Hr; subst. constructor. }
    destruct k as [|c k]; [inversion Hr|]. apply f2_cons_inv in Hq as [Q1 Q2]. apply f2_cons_inv in Hr as [R1 R2]. constructor.
    - exists a. split; [now left|auto].
    - assert (X := IH _ Q2 R2). clear - X. induction X as [|b' c' lb lc (a' & I & X') _ IHX]; constructor; auto. exists a'. split; [now right|exact X'].
  Qed.
  Lemma f2_weaken : forall A B (P Q : A -> B -> Prop) l m, (forall a b, In a l -> In b m -> P a b -> Q a b) -> Forall2 P l m -> Forall2 Q l m.
  Proof. intros A B P Q l m Hpq H. induction H; constructor; [apply Hpq; auto; now left|]. apply IHForall2. intros. apply Hpq; auto; now right. Qed.

  Lemma hydrocarbon_lengths : forall input reg e, hydrocarbon_export np_pow input reg target vm = Ok e -> length reg = n.
  Proof.
    intros input reg e E. unfold hydrocarbon_export in E. destruct (temporal_expression_evaluate _ _ _ _) as [v|]; [|discriminate]. cbn [bind] in E.
    unfold make_rate in E. destruct (_ && _) eqn:Eb; [|discriminate]. apply andb_prop in Eb as [_ Eb]. apply Nat.eqb_eq in Eb. rewrite map_length, periods_eq in Eb. unfold n. congruence.
  Qed.

  Lemma installation_part : forall i c s, installation_written ps i -> fuel_dates_sound ps i -> (forall y, In y (yi_venting_emitters i) -> emitter_sound np_pow ps vars (yv_emitter y)) ->
    installation_object np_pow vm target fuels W g i c -> shows W g results (ic_id c) s -> installation_shown np_pow usage vm target fuels tables i s ->
    exists inst, installation_of np_pow vm results c = Ok inst /\ installation_facts i s inst.
  Proof.
    intros i c s (Wi & Wg & Wf) Hd He (values & gs & running & fs & Ev & Ex & Ec & Ech & Og & Kf & Of & Ov) Hs
      (running' & gss & fss & ess & Sg & Kf' & Sf & Se & ->).
    assert (running' = running) by (eapply kept_unique; eauto). subst running'.
    pose proof (hydrocarbon_lengths _ _ _ Ex) as Lr. pose proof (children_found _ _ _ _ _ _ Hs Ech) as Hkids.
    destruct (f2_app_l _ _ _ _ _ _ _ ltac:(rewrite map_length; rewrite <- (f2_length _ _ _ _ _ Og); exact (f2_length _ _ _ _ _ Sg)) Hkids) as [Kg Hkids'].
    destruct (f2_app_l _ _ _ _ _ _ _ ltac:(rewrite map_length; rewrite <- (f2_length _ _ _ _ _ Of); exact (f2_length _ _ _ _ _ Sf)) Hkids') as [Kfu _].
    apply f2_map_l in Kg. apply f2_map_l in Kfu.
    assert (Hdef : forall f, yi_fuel i = Some f -> well_written f /\ forall t, In t (data_dates f) -> uncut ps t).
    { intros f Ef. split; [now apply Wi|]. intros t It. apply (Hd f); auto. }
    destruct (mapM_parts _ _ _ (fuel_component_of np_pow vm results) (fun a s => exists c, a = inl c /\ exists y, In y (yi_generator_sets i) /\
       generator_set_object target fuels W g i (mkRegularity (yi_regularity i) values) y c /\ generator_set_shown np_pow usage vm target fuels tables i y s /\ shows W g results (ge_id c) s)
       (component_facts values) (map inl gs) gss) as (b1 & E1 & F1).
    { pose proof (f2_join _ _ _ _ _ _ _ _ _ Og Sg Kg) as X. clear - X. induction X as [|a b la lb (y & X1 & X2 & X3 & X4) _ IH]; cbn; constructor; auto. exists a. split; [reflexivity|]. exists y. auto. }
    { intros a s' _ (c' & -> & y & Iy & O & Sh & Sw). apply (generator_set_part i (mkRegularity (yi_regularity i) values) values y c' s' eq_refl Lr O); auto.
      destruct O as (_ & _ & _ & _ & O5). apply (resolve_fuel_entries target fuels (yg_fuel y) (yi_fuel i)); auto.
      intros f Ef. split; [apply (Wg y Iy); exact Ef|]. intros t It. apply (Hd f); auto. right. left. exists y. auto. }
    destruct (mapM_parts _ _ _ (fuel_component_of np_pow vm results) (fun a s => exists c, a = inr c /\ exists y, In y running /\
       fuel_object target fuels W i (mkRegularity (yi_regularity i) values) y c /\ fuel_consumer_shown np_pow usage vm target fuels i y s /\ shows W g results (fu_id c) s)
       (component_facts values) (map inr fs) fss) as (b2 & E2 & F2).
    { pose proof (f2_join _ _ _ _ _ _ _ _ _ Of Sf Kfu) as X. clear - X. induction X as [|a b la lb (y & X1 & X2 & X3 & X4) _ IH]; cbn; constructor; auto. exists a. split; [reflexivity|]. exists y. auto. }
    { intros a s' _ (c' & -> & y & Iy & O & Sh & Sw). apply (fuel_consumer_part i (mkRegularity (yi_regularity i) values) values y c' s' eq_refl Lr O); auto.
      assert (Iy' : In y (yi_fuel_consumers i)). { clear - Kf Iy. induction Kf; auto; [destruct Iy as [<-|Iy]; [now left|right; auto]|right; auto]. }
      destruct O as (_ & _ & O5). apply (resolve_fuel_entries target fuels (yf_fuel y) (yi_fuel i)); auto.
      intros f Ef. split; [apply (Wf y Iy'); exact Ef|]. intros t It. apply (Hd f); auto. right. right. exists y. auto. }
    assert (Fl : forall A B (P : A -> B -> Prop) l m, Forall2 P l m -> Forall2 (fun b a => P a b) m l) by (intros A B P l m X; induction X; constructor; auto).
    destruct (mapM_parts _ _ _ (emitter_emissions np_pow vm) (fun c y => In y (yi_venting_emitters i) /\ venting_object (mkRegularity (yi_regularity i) values) y c)
       (emitter_facts values) (ic_venting_emitters c) (yi_venting_emitters i)) as (b3 & E3 & F3).
    { apply f2_weaken with (2 := Fl _ _ _ _ _ Ov). intros a b _ Ib X. auto. }
    { intros c' y _ (Iy & O1 & O2). destruct (vented np_pow first rest vars vm values Evm grid Lvars Lr c') as (d & Ed & Hdd).
      - now rewrite O1. - rewrite O2. now apply He. - exists d. split; [exact Ed|]. unfold emitter_facts. now rewrite <- O2. }
    unfold installation_of. rewrite Ec, (mapM_app _ _ _ _ _ _ _ E1 E2). cbn [bind]. rewrite E3. cbn [bind]. eexists. split; [reflexivity|].
    exists values, (gss ++ fss), ess. split; [exact Ev|]. split; [exact Lr|]. split; [exact Ex|]. split; [now rewrite <- app_assoc|].
    split; [intros x Ix; clear - Se Ix; induction Se as [|a b la lb H _ IH]; [destruct Ix|]; destruct Ix as [<-|Ix]; [rewrite H; eauto|auto]|].
    split; [now apply Forall2_app|exact F3].
  Qed.
End Parts.

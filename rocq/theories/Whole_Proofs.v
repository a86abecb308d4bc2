(** C117: whole models with all kinds of consumers. *)
From Coq Require Import PeanoNat String Lia.
From Verif Require Import QcTac Num Base BaseLemmas Time_Model Time_Spec Expr_Model Vars_Model Units_Model Rates_Model Input_Model Interp_Model Energy_Model Emitters_Model Chart_Model Pump_Model Consumer_Model
  Consumer_Proofs7 Equipment_Model System_Model Systems_Model Machines_Model Whole_Model Graph_Model Asset_Model Asset_Spec Asset_Proofs4 Asset_Proofs5 Asset_Proofs9 Report_Spec Asset_Proofs11.
Local Open Scope list_scope.
Local Open Scope nat_scope.

Ltac step E := match type of E with bind ?r _ = Ok _ => destruct r eqn:?; [cbn [bind] in E|discriminate] end.

Lemma usage_result_fields : forall ps t neg loss u fr, usage_result ps t neg loss u = Ok fr ->
  fr_unit fr = usage_unit t /\ (t = POWER -> exists p, fr_power fr = Some p).
Proof. intros ps t neg loss u fr E. unfold usage_result in E. step E. injection E as <-. split; [reflexivity|]. intros ->. cbn. eauto. Qed.
Lemma run_machine_fields : forall np_pow vm c mc rates s d i rho fr, run_machine np_pow vm c mc rates s d i rho = Ok fr ->
  fr_unit fr = usage_unit (mc_type mc) /\ (mc_has_power mc = true -> exists p, fr_power fr = Some p).
Proof.
  intros np_pow vm c mc rates s d i rho fr E. unfold run_machine in E. step E. unfold machine_result in E. step E. step E. step E. step E. injection E as <-. cbn [fr_unit fr_power].
  split; [reflexivity|]. intros H. match goal with X : (if mc_has_power mc then _ else _) = Ok _ |- _ => rewrite H in X; step X; injection X as <- end. eauto.
Qed.
Lemma machine_power : forall k, mc_type (machine_of k) = POWER -> mc_has_power (machine_of k) = true.
Proof.
  intros [[d|m]|t f c k] H; cbn [machine_of compressor_of compressor_machine turbine_machine mc_type mc_has_power] in *.
  - reflexivity.
  - cbn [sampled_compressor co_type co_has_power] in *. unfold sampled_has_power. now rewrite H.
  - discriminate.
Qed.
Lemma type_neq : forall a b, negb (usage_type_eqb a b) = false -> a = b.
Proof. intros a b H. apply Bool.negb_false_iff in H. now apply usage_type_eqb_eq. Qed.
Lemma system_result_fields : forall np_pow m consumes vm settings fr, system_result_of np_pow m consumes vm settings = Ok fr ->
  fr_unit fr = usage_unit consumes /\ exists p, fr_power fr = Some p.
Proof. intros np_pow m consumes vm settings fr E. unfold system_result_of in E. cbv zeta in E. step E. step E. step E. step E. step E. step E. injection E as <-. split; [reflexivity|cbn; eauto]. Qed.

Lemma usage_fields : forall np_pow nd closest np_std bump consumes m reg vm fr, usage_of np_pow nd closest np_std bump consumes m reg vm = Ok fr ->
  fr_unit fr = usage_unit consumes /\ (consumes = POWER -> exists p, fr_power fr = Some p).
Proof.
  intros np_pow nd closest np_std bump consumes m reg vm fr E. destruct m as [m|m|m|k rate s d c|t dt rates s d i c|m]; cbn [usage_of] in E.
  - unfold direct_evaluate in E. destruct (negb (usage_type_eqb consumes (dm_type m))) eqn:H; [discriminate|]. apply type_neq in H. subst consumes. cbv zeta in E.
    step E. step E. step E. step E. exact (usage_result_fields _ _ _ _ _ _ E).
  - unfold tabulated_evaluate in E. step E. cbv zeta in E. destruct (negb (usage_type_eqb consumes (tabular_usage_type (tm_table m)))) eqn:H; [discriminate|]. apply type_neq in H. subst consumes.
    step E. step E. destruct (negb _); [discriminate|]. step E. step E. destruct (tm_variables m); [discriminate|]. exact (usage_result_fields _ _ _ _ _ _ E).
  - unfold pump_evaluate_model in E. destruct (negb (usage_type_eqb consumes POWER)) eqn:H; [discriminate|]. apply type_neq in H. subst consumes. cbv zeta in E. step E. step E. step E. step E. step E.
    destruct (run_machine_fields _ _ _ _ _ _ _ _ _ _ E) as [A B]. split; [exact A|]. intros _. apply B. reflexivity.
  - unfold compressor_evaluate in E. cbn [cm_machine cm_sampled cm_rate cm_suction cm_discharge cm_common] in E. cbv zeta in E. step E. step E. step E. step E.
    destruct (negb (usage_type_eqb consumes (mc_type (machine_of k)))) eqn:H; [discriminate|]. apply type_neq in H. step E.
    destruct (run_machine_fields _ _ _ _ _ _ _ _ _ _ E) as [A B]. rewrite H. split; [exact A|]. intros T. apply B, machine_power. exact T.
  - unfold streams_evaluate in E. cbn [sm_machine sm_rates sm_suction sm_discharge sm_interstage sm_common] in E. cbv zeta in E.
    destruct (negb (usage_type_eqb consumes (mc_type (train_machine t dt)))) eqn:H; [discriminate|]. apply type_neq in H. step E. step E. step E. step E. step E.
    destruct (run_machine_fields _ _ _ _ _ _ _ _ _ _ E) as [A B]. rewrite H. split; [exact A|]. intros T. apply B. unfold train_machine in *. apply machine_power. exact T.
  - step E. unfold system_evaluate in E. destruct (sy_pumps m).
    + destruct (negb (usage_type_eqb consumes POWER)) eqn:H; [discriminate|]. step E. destruct (system_result_fields _ _ _ _ _ _ E) as [A B]. split; [exact A|intros _; exact B].
    + step E. step E. destruct (negb _); [discriminate|]. destruct (system_result_fields _ _ _ _ _ _ E) as [A B]. split; [exact A|intros _; exact B].
Qed.

(** a consumer whose models all have a power has a power *)
Lemma consumer_power : forall M np_pow (ev : M -> list Qc -> variables_map -> result function_result) input vm (data : temporal_data M) target s,
  (forall m reg vm' fr, ev m reg vm' = Ok fr -> exists p, fr_power fr = Some p) -> evaluate_consumer np_pow ev input vm data target = Ok (Some s) ->
  exists p, cs_power s = Some p.
Proof.
  intros M np_pow ev input vm data target s Hp E. unfold evaluate_consumer in E.
  destruct (model_results np_pow ev input vm data target) as [[l|]|] eqn:Em; cbn [bind] in E; try discriminate.
  destruct (consumer_series_of l (vm_periods vm)) as [c|] eqn:Es; [|discriminate]. cbn [bind] in E. injection E as <-.
  unfold consumer_series_of in Es. destruct (result_energy l (vm_periods vm)) as [oe|]; [|discriminate]. cbn [bind] in Es.
  destruct (result_power l (vm_periods vm)) as [op|] eqn:Eo; [|discriminate]. cbn [bind] in Es.
  destruct (result_valid l (vm_periods vm)) as [ov|]; [|discriminate]. cbn [bind] in Es. destruct oe as [e|], ov as [v|]; try discriminate. injection Es as <-. cbn [cs_power].
  assert (Hl : forall r, In r l -> exists p, fr_power r = Some p).
  { unfold model_results in Em. cbv zeta in Em. destruct (mapM _ (define_time_model_for_period data target)) as [subsets|]; [|discriminate]. cbn [bind] in Em.
    destruct (define_time_model_for_period data target); [discriminate|]. destruct (temporal_model_of_periods _); [|discriminate]. cbn [bind] in Em.
    destruct (mapM _ subsets) as [rs|] eqn:Er; [|discriminate]. cbn [bind] in Em. injection Em as <-. apply mapM_Ok in Er. clear - Hp Er.
    induction Er as [|a b la lb H _ IH]; intros r I; [destruct I|]. destruct I as [<-|I]; eauto. }
  assert (N : forall acc, attribute_series fr_periods fr_power (fun _ => MEGA_WATT) true (Some 0%Qc) l acc <> Ok None).
  { clear - Hl. induction l as [|r l IH]; intros acc E; cbn [attribute_series] in E; [discriminate|]. destruct (Hl r (or_introl eq_refl)) as (p & Ep). rewrite Ep in E.
    destruct (make_series (fr_periods r) p MEGA_WATT) as [x|]; [|discriminate]. cbn [bind] in E. refine (IH _ (acc ++ [x]) E). intros. apply Hl. now right. }
  destruct op as [p|]; [eauto|]. exfalso. unfold result_power, concatenated in Eo. specialize (N []).
  destruct (attribute_series fr_periods fr_power (fun _ => MEGA_WATT) true (Some 0%Qc) l []) as [[o|]|]; cbn [bind] in Eo; [|now apply N|discriminate].
  destruct (negb _); [discriminate|]. destruct (reduce_extend o); [|discriminate]. cbn [bind] in Eo. destruct (fill_values_for_new_periods _ _ _); discriminate.
Qed.

Theorem whole_units_proof : forall np_pow nd closest np_std bump vm target consumes i data r,
  alone np_pow (usage_of np_pow nd closest np_std bump) vm target consumes i data r ->
  s_periods (re_energy r) = vm_periods vm /\ List.length (s_values (re_energy r)) = List.length (vm_periods vm) /\
  s_unit (re_energy r) = (match consumes with POWER => MEGA_WATT | FUEL => STANDARD_CUBIC_METER_PER_DAY end) /\
  (consumes = POWER -> exists power, re_power r = Some power) /\
  (forall power, re_power r = Some power -> s_periods power = vm_periods vm /\ List.length (s_values power) = List.length (vm_periods vm) /\ s_unit power = MEGA_WATT).
Proof.
  intros np_pow nd closest np_std bump vm target consumes i data r (s & E & ->). cbn [re_energy re_power].
  destruct (consumer_fields _ np_pow (usage_of np_pow nd closest np_std bump consumes) (usage_unit consumes) _ _ _ _ _ (fun m reg vm' fr X => proj1 (usage_fields _ _ _ _ _ _ _ _ _ _ X)) E) as [(A & B & C) D].
  split; [exact A|]. split; [exact C|]. split; [exact B|]. split.
  - intros ->. exact (consumer_power _ _ _ _ _ _ _ _ (fun m reg vm' fr X => proj2 (usage_fields _ _ _ _ _ _ _ _ _ _ X) eq_refl) E).
  - intros p Ep. destruct (D p Ep) as (D1 & D2 & D3). auto.
Qed.

Lemma kept_none : forall A (P : A -> Prop) l, kept P l [] -> forall x, In x l -> ~ P x.
Proof. intros A P l K. remember [] as m eqn:Em. induction K as [|a l m Pa K IH|a l m Na K IH]; intros x I; [destruct I|discriminate|]. destruct I as [<-|I]; auto. Qed.

Theorem whole_fails_proof : forall np_pow nd closest np_std bump first rest vars vm target fuels tables name installations a mp e,
  let ps := first :: rest in
  make_variables_map ps vars = Ok vm -> run_setting ps target -> (forall i, In i installations -> installation_written ps i) ->
  map_model np_pow vm target fuels tables name installations = Ok (a, mp) ->
  evaluate_energy_usage np_pow (usage_of np_pow nd closest np_std bump) vm target (mp_registered mp) = Err e ->
  exists i, In i installations /\
    ((exists g c, In g (yi_generator_sets i) /\ In c (yg_consumers g) /\ fails_alone np_pow (usage_of np_pow nd closest np_std bump) vm target POWER i (ye_model c) e) \/
     (exists c, In c (yi_fuel_consumers i) /\ fails_alone np_pow (usage_of np_pow nd closest np_std bump) vm target FUEL i (yf_model c) e) \/
     (e = OtherError /\ exists g, In g (yi_generator_sets i) /\ forall c, In c (yg_consumers g) -> ~ in_run target (ye_model c))).
Proof.
  intros np_pow nd closest np_std bump first rest vars vm target fuels tables name installations a mp e ps Evm RS Hw Em Ee.
  destruct (asset_proof _ np_pow (usage_of np_pow nd closest np_std bump) first rest vars vm target fuels tables name installations a mp Evm RS Hw Em) as (g & root & _ & _ & X).
  rewrite Ee in X. destruct X as (i & Hi & F). exists i. split; [exact Hi|]. destruct F as [F|[F|(-> & gs & running & results & G1 & G2 & G3)]]; [now left|right; now left|].
  right. right. split; [reflexivity|]. exists gs. split; [exact G1|]. destruct G3 as [|c r cs rs [A N] _].
  - exact (kept_none _ _ _ G2).
  - exfalso. destruct (whole_units_proof np_pow nd closest np_std bump vm target POWER i (ye_model c) r A) as (_ & _ & _ & P & _). destruct (P eq_refl) as (p & Ep). congruence.
Qed.

Theorem whole_totals_proof : forall np_pow nd closest np_std bump first rest vars vm target fuels tables name installations a mp results,
  let ps := first :: rest in
  make_variables_map ps vars = Ok vm -> run_setting ps target -> (forall i, In i installations -> installation_written ps i) ->
  report_setting np_pow ps vars fuels installations ->
  map_model np_pow vm target fuels tables name installations = Ok (a, mp) ->
  evaluate_energy_usage np_pow (usage_of np_pow nd closest np_std bump) vm target (mp_registered mp) = Ok results ->
  exists g root below t, build (map fst (mp_registered mp)) = Ok g /\ get_root g = Ok root /\
    shows (mp_registered mp) g results root (Shown name None None below) /\
    Forall2 (installation_shown np_pow (usage_of np_pow nd closest np_std bump) vm target fuels tables) installations below /\
    report np_pow vm a results = Ok t /\ totals_reported np_pow ps vars vm target installations below t.
Proof.
  intros np_pow nd closest np_std bump first rest vars vm target fuels tables name installations a mp results ps Evm RS Hw Hr Em Er.
  apply (report_proof _ np_pow (usage_of np_pow nd closest np_std bump) first rest vars vm target fuels tables name installations a mp results Evm RS Hw Hr); auto.
  intros m reg vm' fr X. exact (proj1 (usage_fields _ _ _ _ _ _ _ _ _ _ X)).
Qed.

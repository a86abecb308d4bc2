(** Pump and compressor consumers: the theorems for each kind. *)
From Coq Require Import PeanoNat String.
From Verif Require Import Attributes_Proofs Attributes_Proofs2 QcTac Num Time_Model Time_Spec Time_Proofs Time_Proofs2 Units_Model Rates_Model Rates_Spec Rates_Proofs Rates_Proofs3 Rates_Proofs4
  Base BaseLemmas Expr_Model Expr_Spec Expr_Proofs Vars_Model Vars_Proofs Input_Model Interp_Model Interp_Spec Energy_Model Energy_Proofs Energy_Proofs2 Energy_Proofs3 Export_Proofs2 Emitters_Proofs5 Emitters_Spec
  Consumer_Model Consumer_Spec Consumer_Proofs Consumer_Proofs2 Consumer_Proofs3 Consumer_Proofs4 Consumer_Proofs5 Consumer_Proofs6 Consumer_Proofs7 Consumer_Proofs8 Consumer_Proofs9
  Chart_Model Chart_Spec Pump_Model Pump_Spec Pump_Proofs3 Equipment_Model Equipment_Spec Equipment_Proofs Equipment_Proofs2 Equipment_Proofs3 Equipment_Proofs4.
Local Open Scope list_scope.
Local Open Scope nat_scope.

Lemma equipment_result_impl : forall M ps consumes (data : temporal_data M) target (energy energy' : M -> nat -> num -> bool -> Prop) (power power' : M -> nat -> num -> Prop) has s,
  (forall k m e v, in_force_at ps data target k m -> energy m k e v -> energy' m k e v) ->
  (forall k m w, in_force_at ps data target k m -> power m k w -> power' m k w) ->
  equipment_result ps consumes data target energy power has s -> equipment_result ps consumes data target energy' power' has s.
Proof.
  intros M ps consumes data target energy energy' power power' has s He Hp (E1 & E2 & E3 & E4 & E5 & E6 & E7 & E8).
  split; [exact E1|]. split; [exact E2|]. split; [exact E3|]. split; [exact E4|]. split; [exact E5|]. split; [|split; [exact E7|]].
  - intros k L. destruct (E6 k L) as (e & v & A & B & D & F). exists e, v. split; [exact A|]. split; [exact B|]. split; [|exact F]. intros m I. apply (He k m e v I). now apply D.
  - intros H. destruct (E8 H) as (pw & A & B & D & F & G). exists pw. split; [exact A|]. split; [exact B|]. split; [exact D|]. split; [exact F|].
    intros k L. destruct (G k L) as (w & X & Y & Z). exists w. split; [exact X|]. split; [|exact Z]. intros m I. apply (Hp k m w I). now apply Y.
Qed.
Lemma in_force_lt : forall M ps (data : temporal_data M) target k m, in_force_at ps data target k m -> k < List.length ps.
Proof. intros M ps data target k m (p & d & K & _). apply nth_error_Some. now rewrite K. Qed.

(** *** several streams *)
Lemma streams_consumer_proof : forall pow consumes first rest vars vm input g data target,
  make_variables_map (first :: rest) vars = Ok vm -> consumer_setting pow first rest vars input data target ->
  regularity_values pow input (whole_of first rest) vm = Ok g ->
  let ps := first :: rest in let n := List.length ps in
  (forall m, In m (data_models data) -> plan_ok pow vars n (streams_plan m)) ->
  (forall k m, in_force_at ps data target k m -> plan_works pow vars n g (streams_plan m) k) ->
  let run := evaluate_consumer pow (streams_evaluate pow consumes) input vm data target in
  ((exists k m, in_force_at ps data target k m) ->
   (forall k m, in_force_at ps data target k m -> plan_acceptable pow vars n g consumes (streams_plan m) k) ->
   exists s, run = Ok (Some s) /\
     equipment_result ps consumes data target (fun m => plan_energy pow vars n g (streams_plan m))
       (fun m => plan_power pow vars n g (streams_plan m)) (fun m => mc_has_power (sm_machine m)) s) /\
  ((exists k m, in_force_at ps data target k m /\ ~ plan_acceptable pow vars n g consumes (streams_plan m) k) ->
   run = Err ValidationError) /\
  ((forall k m, ~ in_force_at ps data target k m) -> run = Ok None).
Proof.
  intros pow consumes first rest vars vm input g data target Evm S Eg ps n Hok Wk.
  refine (plan_consumer pow (streams_evaluate pow consumes) streams_plan first rest vars vm input g data target Evm S Eg consumes Hok _ Wk).
  intros m i j sub _ _ _ _. apply streams_same.
Qed.

(** *** one stream *)
Lemma type_eqb_false : forall a b, negb (usage_type_eqb a b) = true -> a <> b.
Proof. intros [|] [|] H; try discriminate H; discriminate. Qed.
Lemma compressor_same : forall pow consumes first rest vars vm g, make_variables_map (first :: rest) vars = Ok vm -> contiguous (first :: rest) ->
  (forall r l, dict_get String.eqb r vars = Some l -> List.length l = List.length (first :: rest)) -> List.length g = List.length (first :: rest) ->
  forall m i j sub, plan_ok pow vars (List.length (first :: rest)) (compressor_plan m) ->
  (cm_sampled m = true \/ (cm_suction m <> None /\ cm_discharge m <> None)) ->
  i < j -> j <= List.length (first :: rest) -> get_subset vm i j = Ok sub ->
  compressor_evaluate pow consumes m (slice i j g) sub = plan_evaluate pow consumes (compressor_plan m) (slice i j g) sub.
Proof.
  intros pow consumes first rest vars vm g Evm C Un Lg m i j sub (_ & Kr & Ks & Kd & _ & _ & Kc & _) Fit L1 L2 Es.
  cbn [pl_rates pl_suction pl_discharge pl_common compressor_plan] in Kr, Ks, Kd, Kc.
  destruct (rate_facts pow first rest vars vm Evm C Un g Lg (cm_common m) (cm_rate m) Kc (Kr _ (or_introl eq_refl))) as (ws & Lw & _ & Rw). specialize (Rw i j sub L1 L2 Es).
  destruct (optional_facts pow first rest vars vm Evm C Un g Lg (cm_suction m) Ks) as (so & Lso & Nso & _ & Hso). destruct (Hso i j sub L1 L2 Es) as [_ Hs].
  destruct (optional_facts pow first rest vars vm Evm C Un g Lg (cm_discharge m) Kd) as (d_o & Ldo & Ndo & _ & Hdo). destruct (Hdo i j sub L1 L2 Es) as [_ Hd].
  unfold compressor_evaluate, plan_evaluate. cbn [pl_machine pl_rates pl_suction pl_discharge pl_common pl_intermediate pl_density compressor_plan mapM]. rewrite Rw.
  destruct (negb (usage_type_eqb consumes (mc_type (cm_machine m)))) eqn:Ty.
  - destruct (existsb _ (slice i j ws)); [reflexivity|]. cbn [bind]. rewrite Hs. destruct so as [sl|].
    + destruct (existsb _ _); [reflexivity|]. cbn [bind]. rewrite Hd. destruct d_o as [dl|]; [|reflexivity]. destruct (existsb _ _); [reflexivity|]. cbn [bind].
      destruct (validate_cases (validation_mask (slice i j ws) (slice i j g)) (slice i j sl) (slice i j dl) None) as [[-> _]|[-> _]]; try reflexivity.
      * pose proof (mask_length first rest g Lg [ws] ltac:(discriminate) ltac:(intros l [<-|[]]; exact Lw) i j L1 L2) as ML. cbn [map summed] in ML. rewrite ML. rewrite slice_length; [reflexivity|rewrite (Lso sl eq_refl); exact L2].
      * rewrite !slice_length; [reflexivity|rewrite (Lso sl eq_refl); exact L2|rewrite (Ldo dl eq_refl); exact L2].
      * intros l E. discriminate E.
    + cbn [bind]. rewrite Hd. destruct d_o as [dl|]; [|reflexivity]. destruct (existsb _ _); reflexivity.
  - destruct (existsb _ (slice i j ws)); [reflexivity|]. cbn [bind summed optional_pressures optional_values]. rewrite Hs, Hd. destruct so as [sl|].
    + destruct (existsb _ _); [reflexivity|]. cbn [bind]. destruct d_o as [dl|].
      * destruct (existsb _ _); [reflexivity|]. cbn [bind]. destruct (validate_pressures _ _ _ _); [|reflexivity]. cbn [bind]. destruct (cm_sampled m); reflexivity.
      * cbn [bind]. destruct (cm_sampled m); [reflexivity|]. destruct Fit as [F|[_ F]]; [discriminate F|]. exfalso. apply F. now apply Ndo.
    + cbn [bind]. destruct (cm_sampled m); [|destruct Fit as [F|[F _]]; [discriminate F|exfalso; apply F; now apply Nso]].
      destruct d_o as [dl|]; [|reflexivity]. destruct (existsb _ _); reflexivity.
Qed.
Lemma compressor_consumer_proof : forall pow consumes first rest vars vm input g data target,
  make_variables_map (first :: rest) vars = Ok vm -> consumer_setting pow first rest vars input data target ->
  regularity_values pow input (whole_of first rest) vm = Ok g ->
  let ps := first :: rest in let n := List.length ps in
  (forall m, In m (data_models data) -> plan_ok pow vars n (compressor_plan m) /\
     (cm_sampled m = true \/ (cm_suction m <> None /\ cm_discharge m <> None))) ->
  (forall k m, in_force_at ps data target k m -> plan_works pow vars n g (compressor_plan m) k) ->
  let run := evaluate_consumer pow (compressor_evaluate pow consumes) input vm data target in
  ((exists k m, in_force_at ps data target k m) ->
   (forall k m, in_force_at ps data target k m -> plan_acceptable pow vars n g consumes (compressor_plan m) k) ->
   exists s, run = Ok (Some s) /\
     equipment_result ps consumes data target (fun m => plan_energy pow vars n g (compressor_plan m))
       (fun m => plan_power pow vars n g (compressor_plan m)) (fun m => mc_has_power (cm_machine m)) s) /\
  ((exists k m, in_force_at ps data target k m /\ ~ plan_acceptable pow vars n g consumes (compressor_plan m) k) ->
   run = Err ValidationError) /\
  ((forall k m, ~ in_force_at ps data target k m) -> run = Ok None).
Proof.
  intros pow consumes first rest vars vm input g data target Evm S Eg ps n Hok Wk.
  refine (plan_consumer pow (compressor_evaluate pow consumes) compressor_plan first rest vars vm input g data target Evm S Eg consumes (fun m I => proj1 (Hok m I)) _ Wk).
  intros m i j sub Im L1 L2 Es. pose proof S as (C & Mx & Un & Rok & NP & W & N & T1 & T2 & NC).
  assert (List.length g = n) as Lg by (destruct (regularity_slice pow first rest vars vm input g 0 1 Evm C Un Mx Rok Eg) as [L _]; [lia|cbn; lia|exact L]).
  apply (compressor_same pow consumes first rest vars vm g Evm C Un Lg m i j sub); auto; now apply Hok.
Qed.

(** *** pumps *)
Lemma model_output : forall closest np_std bump, (forall pts x y, (0 <= fst (closest pts x y))%Qc) -> (forall x, (x <= bump x)%Qc) ->
  forall cs margin rate s d rho, usable_chart cs -> ((0 < rate)%Qc -> (0 < rho)%Qc) ->
  exists power head status, model_simulate closest np_std bump cs margin rate s d rho = Ok (power, head, status) /\
    pumped cs margin rate s d rho power (match status with NO_FAILURE => true | _ => false end).
Proof.
  intros closest np_std bump Hc Hb cs margin rate s d rho (Ne & Pc & He & Hf) Hrho. destruct (Qcleb rate 0) eqn:Er.
  - apply Qcleb_le in Er. exists 0%Qc, 0%Qc, NO_FAILURE. split; [now apply model_stopped_proof|]. split; [auto|]. intros H. exfalso. qc_lra.
  - apply Qcleb_gt in Er. destruct (last_opt cs) as [fast|] eqn:El; [|destruct cs as [|a cs']; [now elim Ne|exfalso; clear -El; revert a El; induction cs'; intros a0 E; [discriminate E|now apply (IHcs' a)]]].
    destruct (model_proof closest np_std bump Hc Hb cs fast margin rate s d rho Ne Pc He El (Hf fast eq_refl) Er (Hrho Er)) as (power & status & r & h & e & Em & A1 & A2 & A3 & A4 & A5 & A6 & _).
    exists power, (head_between s d rho), status. split; [exact Em|]. split; [intros H; exfalso; qc_lra|]. intros _. exists fast, r, h, e. split; [exact El|]. split; [exact A1|]. split; [exact A2|]. split; [exact A4|]. split; [exact A5|]. split; [exact A6|].
    destruct status; cbn [reports] in A3; split; intro H; try discriminate H; try (exact A3); try reflexivity; exfalso; tauto.
Qed.
Lemma pump_consumer_proof : forall pow closest np_std bump, (forall pts x y, (0 <= fst (closest pts x y))%Qc) -> (forall x, (x <= bump x)%Qc) ->
  forall first rest vars vm input g data target,
  make_variables_map (first :: rest) vars = Ok vm -> consumer_setting pow first rest vars input data target ->
  regularity_values pow input (whole_of first rest) vm = Ok g ->
  let ps := first :: rest in let n := List.length ps in
  (forall m, In m (data_models data) -> pump_ok pow vars n m) ->
  (forall k m rate s d rho, in_force_at ps data target k m -> pump_at pow vars n g m k rate s d rho -> (0 < rate -> 0 < rho)%Qc) ->
  let run := fun consumes => evaluate_consumer pow (pump_evaluate_model pow closest np_std bump consumes) input vm data target in
  ((exists k m, in_force_at ps data target k m) -> (forall k m, in_force_at ps data target k m -> pump_acceptable pow vars n g m k) ->
   exists s, run POWER = Ok (Some s) /\
     equipment_result ps POWER data target (pump_energy pow vars n g) (fun m k w => exists v, pump_energy pow vars n g m k w v) (fun _ => true) s) /\
  ((exists k m, in_force_at ps data target k m /\ ~ pump_acceptable pow vars n g m k) -> run POWER = Err ValidationError) /\
  ((exists k m, in_force_at ps data target k m) -> run FUEL = Err ValidationError) /\
  (forall consumes, (forall k m, ~ in_force_at ps data target k m) -> run consumes = Ok None).
Proof.
  intros pow closest np_std bump Hc Hb first rest vars vm input g data target Evm S Eg ps n Hok Hrho run.
  pose proof S as (C & Mx & Un & Rok & NP & W & N & T1 & T2 & NC).
  assert (List.length g = n) as Lg by (destruct (regularity_slice pow first rest vars vm input g 0 1 Evm C Un Mx Rok Eg) as [L _]; [lia|cbn; lia|exact L]).
  set (pl := fun m => pump_plan (pump_machine closest np_std bump (pm_curves m) (pm_margin m)) m).
  assert (forall m, In m (data_models data) -> plan_ok pow vars n (pl m)) as Hpl.
  { intros m I. destruct (Hok m I) as (K1 & K2 & K3 & K4 & K5 & _). split; [discriminate|]. split; [intros e [<-|[]]; exact K1|]. split; [exact K2|]. split; [exact K3|]. split; [exact Logic.I|]. split; [exact K4|]. split; [exact K5|]. intros H. now elim H. }
  assert (forall m k pt, point_at pow vars n g (pl m) k pt <-> exists rate s d rho, pt = mkPoint [rate] (Some s) (Some d) None (Some rho) /\ pump_at pow vars n g m k rate s d rho) as Hpt.
  { intros m k [r s d i rho]. unfold point_at, pl, pump_plan, pump_at. cbn [pl_machine pl_common pl_rates pl_suction pl_discharge pl_intermediate pl_density op_rates op_suction op_discharge op_intermediate op_density optional_at]. split.
    - intros (F & (s' & -> & Is) & (d' & -> & Id) & -> & (rho' & -> & Ir)). inversion F as [|? w ? l' Hw F2]; subst. inversion F2; subst. exists w, s', d', rho'. auto.
    - intros (r' & s' & d' & rho' & E & A1 & A2 & A3 & A4). injection E as -> -> -> -> ->. split; [constructor; [exact A1|constructor]|]. split; [eauto|]. split; [eauto|]. split; [reflexivity|eauto]. }
  assert (forall k m, in_force_at ps data target k m -> plan_works pow vars n g (pl m) k) as Wk.
  { intros k m F pt Hp. apply Hpt in Hp as (rate & s & d & rho & -> & Hp). unfold pl, pump_plan. cbn [pl_machine pump_machine mc_run op_rates op_suction op_discharge op_density].
    pose proof (in_force_model pow first rest vars input data target S k m F) as Im.
    destruct (model_output closest np_std bump Hc Hb (pm_curves m) (pm_margin m) rate s d rho (proj2 (proj2 (proj2 (proj2 (proj2 (Hok m Im)))))) (Hrho k m rate s d rho F Hp)) as (power & head & status & -> & _). cbn [bind]. eauto. }
  assert (forall consumes m i j sub, In m (data_models data) -> i < j -> j <= n -> get_subset vm i j = Ok sub ->
    pump_evaluate_model pow closest np_std bump consumes m (slice i j g) sub = plan_evaluate pow consumes (pl m) (slice i j g) sub) as Same.
  { intros consumes m i j sub Im L1 L2 Es. apply pump_same. destruct (optional_facts pow first rest vars vm Evm C Un g Lg (Some (pm_density m)) (proj1 (proj2 (proj2 (proj2 (Hok m Im)))))) as (o & Lo & No & _ & Ho).
    destruct (Ho i j sub L1 L2 Es) as [E _]. unfold optional_values in E. destruct (vm_evaluate pow sub (input_tokens (pm_density m))) as [v|]; [eauto|discriminate E]. }
  assert (forall k m, in_force_at ps data target k m -> (plan_acceptable pow vars n g POWER (pl m) k <-> pump_acceptable pow vars n g m k)) as Ha.
  { intros k m F. split.
    - intros [_ A] rate s d rho gk Hp Egk. destruct (A (mkPoint [rate] (Some s) (Some d) None (Some rho))) as [A1 A2]; [apply Hpt; eauto 6|]. split; [apply A1; now left|]. intros Fl. destruct A2 as [_ A2]; [exists gk; split; [exact Egk|]; cbn [op_rates fold_right]; replace (rate + 0)%Qc with rate by ring; exact Fl|]. destruct (A2 s d eq_refl eq_refl) as (B1 & B2 & _). auto.
    - intros A. split; [reflexivity|]. intros pt Hp. apply Hpt in Hp as (rate & s & d & rho & -> & Hp). cbn [op_rates]. split.
      + intros w [<-|[]]. destruct (nth_error g k) as [gk|] eqn:Egk; [|apply nth_error_None in Egk; pose proof (in_force_lt _ _ _ _ _ _ F); unfold n, ps in Lg; unfold ps in H; lia]. now apply (A rate s d rho gk).
      + intros (gk & Egk & Fl). cbn [op_rates fold_right] in Fl. replace (rate + 0)%Qc with rate in Fl by ring. destruct (A rate s d rho gk Hp Egk) as [_ B]. destruct (B Fl) as [B1 B2]. split.
        * intros x [E|[E|E]]; cbn [op_suction op_discharge op_intermediate] in E; try discriminate E; injection E as <-; qc_lra.
        * intros s0 d0 E1 E2. cbn [op_suction op_discharge op_intermediate] in *. injection E1 as <-. injection E2 as <-. split; [exact B1|]. split; [exact B2|]. intros i E. discriminate E. }
  pose proof (fun consumes => plan_consumer pow (pump_evaluate_model pow closest np_std bump consumes) pl first rest vars vm input g data target Evm S Eg consumes Hpl (Same consumes) Wk) as G.
  split; [|split; [|split]].
  - intros Ex Acc. destruct (G POWER) as (G1 & _ & _). destruct (G1 Ex) as (s & Er & R); [intros k m F; now apply Ha, Acc|]. exists s. split; [exact Er|].
    refine (equipment_result_impl _ _ _ _ _ _ _ _ _ _ _ _ _ R).
    + intros k m e v F (pt & o & f & Hp & Hr & Hl & Hs & ->). apply Hpt in Hp as (rate & su & d & rho & -> & Hp). unfold pl, pump_plan in Hr. cbn [pl_machine pump_machine mc_run op_rates op_suction op_discharge op_density] in Hr.
      pose proof (in_force_model pow first rest vars input data target S k m F) as Im.
      destruct (model_output closest np_std bump Hc Hb (pm_curves m) (pm_margin m) rate su d rho (proj2 (proj2 (proj2 (proj2 (proj2 (Hok m Im)))))) (Hrho k m rate su d rho F Hp)) as (power & head & status & Em & Pw). rewrite Em in Hr. cbn [bind fst snd] in Hr. injection Hr as <-.
      exists rate, su, d, rho, power, f. split; [exact Hp|]. split; [exact Pw|]. split; [exact Hl|exact Hs].
    + intros k m w F (pt & o & f & Hp & Hr & Hl & Hs). apply Hpt in Hp as (rate & su & d & rho & -> & Hp). unfold pl, pump_plan in Hr. cbn [pl_machine pump_machine mc_run op_rates op_suction op_discharge op_density] in Hr.
      pose proof (in_force_model pow first rest vars input data target S k m F) as Im.
      destruct (model_output closest np_std bump Hc Hb (pm_curves m) (pm_margin m) rate su d rho (proj2 (proj2 (proj2 (proj2 (proj2 (Hok m Im)))))) (Hrho k m rate su d rho F Hp)) as (power & head & status & Em & Pw). rewrite Em in Hr. cbn [bind fst snd] in Hr. injection Hr as <-.
      eexists. exists rate, su, d, rho, power, f. split; [exact Hp|]. split; [exact Pw|]. split; [exact Hl|exact Hs].
  - intros (k & m & F & B). destruct (G POWER) as (_ & G2 & _). apply G2. exists k, m. split; [exact F|]. intros A. apply B. now apply Ha.
  - intros (k & m & F). destruct (G FUEL) as (_ & G2 & _). apply G2. exists k, m. split; [exact F|]. intros [A _]. discriminate A.
  - intros consumes H. now apply (G consumes).
Qed.

(** *** a compressor driven by a turbine *)
Lemma turbine_machine_proof : forall loads efficiencies lhv a b t factor constant c pt o p,
  make_turbine loads efficiencies lhv a b = Ok t -> NoDup loads -> (0 < a)%Qc ->
  co_has_power c = true -> co_run c pt = Ok o -> co_power o = Some p ->
  exists out load m, mc_run (turbine_machine t factor constant c) pt = Ok out /\ adjusted factor constant p load /\ maximum_of loads m /\
    ((0 < load)%Qc -> in_range (combine loads efficiencies) ((load + b) / a) -> (0 < lhv)%Qc ->
       exists e, interpolates (combine loads efficiencies) ((load + b) / a)%Qc e /\ mo_power out = Some ((load + b) / a)%Qc /\
         (e <> 0%Qc -> exists u, mo_energy out = Some u /\ (u * e * lhv = (load + b) / a * qz 86400)%Qc)) /\
    ((forall l, In l loads -> (0 <= l)%Qc) -> (load <= 0)%Qc -> mo_energy out = Some 0%Qc) /\
    (mo_valid out = true <-> co_no_failure o = true /\ (load <= m)%Qc /\
       match co_stages o with Some b => b = true | None => mo_energy out <> None end).
Proof.
  intros loads efficiencies lhv a b t factor constant c pt o p Et Nd Ha Hp Er Ep.
  destruct (turbine_proof loads efficiencies lhv a b t 0%Qc Et Nd Ha) as (Ll & H1 & H2 & (m & Hm & _ & Hx & _)). cbv zeta in H1.
  set (load := if Qcltb 0 p then (p * factor + constant)%Qc else p).
  exists (let r := turbine_evaluate t 0 (Some load) in mkOutput (tr_usage r) (tr_load r) (compressor_valid (tr_usage r) (negb (tr_exceeds r)) o)), load, m.
  split; [|split; [|split; [exact Hm|split; [|split]]]].
  - unfold turbine_machine. cbn [mc_run]. rewrite Er. cbn [bind]. rewrite Hp. rewrite Ep. unfold adjusted_load, load. destruct (Qcltb 0 p); reflexivity.
  - unfold adjusted, load. split; intros H; destruct (Qcltb 0 p) eqn:E; try reflexivity; exfalso; [apply Qcltb_ge in E|apply Qcltb_lt in E]; qc_lra.
  - intros L R Hh. change (if Qcltb 0 0 then 0%Qc else lhv) with lhv in H1. destruct (H1 load L R Hh) as (e & I1 & _ & _ & I2 & _ & I3). exists e. cbv zeta. cbn [mo_power mo_energy]. auto.
  - intros Hl L. cbv zeta. cbn [mo_energy]. now apply H2.
  - cbv zeta. cbn [mo_valid mo_energy]. unfold compressor_valid. rewrite !Bool.andb_true_iff, Bool.negb_true_iff. specialize (Hx load). destruct (tr_exceeds (turbine_evaluate t 0 (Some load))) eqn:E.
    + split; [intros [[_ K] _]; discriminate K|]. intros (_ & K & _). exfalso. assert (m < load)%Qc by now apply Hx. qc_lra.
    + assert (load <= m)%Qc as K by (destruct (Qclt_le_dec m load) as [K|K]; [apply Hx in K; discriminate K|exact K]).
      destruct (co_stages o) as [v|]; [tauto|]. destruct (tr_usage _); intuition congruence.
Qed.

(** *** a missing pressure *)
Lemma missing_pressure_proof : forall pow consumes m g vm r, cm_sampled m = false -> cm_suction m = None \/ cm_discharge m = None ->
  compressor_evaluate pow consumes m g vm <> Ok r.
Proof.
  intros pow consumes m g vm r Sm Ms E. unfold compressor_evaluate in E. destruct (equipment_rate pow vm (cm_common m) g (cm_rate m)) as [rate|]; [|discriminate E]. cbn [bind] in E.
  rewrite Sm in E. destruct Ms as [Ms|Ms]; rewrite Ms in E; cbn [optional_pressures bind] in E.
  - destruct (optional_pressures pow vm _ (cm_discharge m)) as [d|]; [|discriminate E]. cbn [bind] in E. destruct (negb _); [discriminate E|]. cbn [bind] in E. discriminate E.
  - destruct (optional_pressures pow vm _ (cm_suction m)) as [[s|]|]; [| |discriminate E]; cbn [bind] in E; (destruct (negb _); [discriminate E|]); cbn [bind] in E; discriminate E.
Qed.

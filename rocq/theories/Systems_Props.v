(** C109 to C111: pump and compressor systems and their consumers. *)
From Coq Require Import PeanoNat String.
From Verif Require Import QcTac Num Base BaseLemmas Time_Model Time_Spec Time_Proofs Expr_Model Expr_Spec Vars_Model Vars_Proofs Units_Model Rates_Model Input_Model Interp_Model Interp_Spec Energy_Model Energy_Proofs2 Emitters_Spec
  Consumer_Model Consumer_Spec Consumer_Props Chart_Model Chart_Spec Pump_Model Pump_Spec Equipment_Model Equipment_Spec Equipment_Props
  System_Model System_Spec Systems_Model Systems_Spec Systems_Proofs Systems_Proofs9 Component_Model Component_Spec Component_Proofs Component_Proofs2.
Local Open Scope list_scope.
Local Open Scope nat_scope.

(** C109: the description of a system is accepted exactly if it is well-formed. *)
Theorem C109_description : forall m,
  (check_description m = Ok tt <-> well_described m) /\ (~ well_described m -> check_description m = Err ValidationError).
Proof. exact description_proof. Qed.
Print Assumptions C109_description.
(** C109: a consumer with systems reports, in each period, the energy usage of the system in force there: that of the first of
    its operational settings in which every consumer has capacity for what is left to it after cross-over, of the last if there is none. *)
Theorem C109_system : forall pow consumes (meaning_of : system_model -> list meaning) first rest vars vm input g data target,
  make_variables_map (first :: rest) vars = Ok vm -> consumer_setting pow first rest vars input data target ->
  regularity_values pow input (whole_of first rest) vm = Ok g ->
  let ps := first :: rest in let n := List.length ps in
  (forall m, In m (data_models data) -> system_ok pow vars n m /\ Forall2 means (map fst (sy_consumers m)) (meaning_of m)) ->
  (forall k m, in_force_at ps data target k m -> system_works pow vars n g m (meaning_of m) k) ->
  let run := evaluate_consumer pow (system_evaluate pow consumes) input vm data target in
  ((exists k m, in_force_at ps data target k m) ->
   (forall k m, in_force_at ps data target k m -> system_acceptable pow vars n g consumes m k) ->
   exists s, run = Ok (Some s) /\
     equipment_result ps consumes data target (fun m => system_usage pow vars n g m (meaning_of m))
       (fun m => system_power_at pow vars n g m (meaning_of m)) (fun _ => true) s) /\
  ((exists k m, in_force_at ps data target k m /\ ~ system_acceptable pow vars n g consumes m k) -> run = Err ValidationError) /\
  ((forall k m, ~ in_force_at ps data target k m) -> run = Ok None).
Proof. exact system_consumer_proof. Qed.
Print Assumptions C109_system.

(** C110: every machine can be a consumer of a system, and gives its own answers there. *)
Theorem C110_component : forall name pumps mc max, exists me, meaning_of_machine pumps mc max me /\ means (machine_component name pumps mc max) me.
Proof. exact machine_component_proof. Qed.
Print Assumptions C110_component.
(** C110: a pump in a system: its power and its largest rate. *)
Theorem C110_pump : forall closest np_std bump, (forall pts x y, (0 <= fst (closest pts x y))%Qc) -> (forall x, (x <= bump x)%Qc) ->
  forall name cs margin, usable_chart cs -> falling_chart cs ->
  exists me, means (pump_component closest np_std bump name cs margin) me /\ pump_means cs margin me.
Proof. exact pump_component_proof. Qed.
Print Assumptions C110_pump.
(** C110: a system of pumps with falling curves works wherever the densities are positive. *)
Theorem C110_pump_system : forall closest np_std bump, (forall pts x y, (0 <= fst (closest pts x y))%Qc) -> (forall x, (x <= bump x)%Qc) ->
  forall pumps : list (string * list curve * Qc), (forall name cs margin, In (name, cs, margin) pumps -> usable_chart cs /\ falling_chart cs) ->
  exists mes, Forall2 means (map (fun p => pump_component closest np_std bump (fst (fst p)) (snd (fst p)) (snd p)) pumps) mes /\
    Forall2 (fun p me => pump_means (snd (fst p)) (snd p) me) pumps mes /\
    forall pow vars n g m k,
      (forall s xs ss ds rhos rho, In s (sy_settings m) -> setting_at pow vars n g m s k xs ss ds rhos -> In rho rhos -> (0 < rho)%Qc) ->
      system_works pow vars n g m mes k.
Proof. exact pump_system_proof. Qed.
Print Assumptions C110_pump_system.

(** C111: the largest rate of a compressor with a turbine is that of the compressor unless the turbine is too weak for it; then it is
    a smaller rate for which the turbine is strong enough. *)
Theorem C111_largest_rate : forall root t c own s d top m, stays root -> own s d = Ok (Some top) -> (0 <= top)%Qc ->
  turbine_max_rate root t false c own s d = Ok (Some m) ->
  (0 <= m /\ m <= top)%Qc /\
  (co_has_power c = false -> m = top) /\
  (forall w, co_has_power c = true -> needs c top s d w -> w = None \/ (exists p, w = Some p /\ p <= turbine_capacity t)%Qc -> m = top) /\
  (forall p, co_has_power c = true -> finds (qc 1 1000) root -> needs c m s d (Some p) -> (p <= turbine_capacity t)%Qc).
Proof. exact turbine_rate_proof. Qed.
Print Assumptions C111_largest_rate.
(** C111: at this rate the turbine is not overloaded, if nothing is adjusted... *)
Theorem C111_load : forall root t c own s d top m out, stays root -> finds (qc 1 1000) root -> own s d = Ok (Some top) -> (0 <= top)%Qc ->
  co_has_power c = true -> tu_factor t = 1%Qc -> tu_constant t = 0%Qc -> (0 <= tu_maximum_load t)%Qc ->
  turbine_max_rate root t false c own s d = Ok (Some m) ->
  forall pt o, operated_at false m s d 1 pt -> co_run c pt = Ok o -> mc_run (turbine_machine t 1 0 c) pt = Ok out ->
  mo_valid out = compressor_valid (mo_energy out) true o.
Proof. exact turbine_load_proof. Qed.
Print Assumptions C111_load.

Definition sy_pump_a : consumer := pump_component eq_closest eq_std eq_bump "a" [eq_slow; eq_fast] 0%Qc.
Definition sy_pump_b : consumer := pump_component eq_closest eq_std eq_bump "b" [eq_slow; eq_fast] 0%Qc.
Definition sy_rate : expression_input := IText [TRef "x"; TOp "{*}"; TNum (qz 150)].
(** the first setting: everything to the first pump; the second: what it cannot take goes to the second *)
Definition sy_alone : system_setting := mkSystemSetting (Some [sy_rate; INumber (qz 0)]) None (Some (INumber (qz 5))) None (Some (INumber (qz 15))) None None None.
Definition sy_shared : system_setting := mkSystemSetting (Some [sy_rate; INumber (qz 0)]) None (Some (INumber (qz 5))) None None (Some [INumber (qz 15); INumber (qz 15)]) (Some [INumber (qz 1000); INumber (qz 1000)]) (Some [2; 0]%Z).
Definition sy_two : system_model := mkSystem true [(sy_pump_a, POWER); (sy_pump_b, POWER)] None (Some (INumber (qz 1000))) [sy_alone; sy_shared] (mkCommon None None (Some (INumber (qc 1 5)))).
(** fractions of a total, not in use in the third period *)
Definition sy_parts : system_setting := mkSystemSetting None (Some [INumber (qc 1 4); INumber (qc 3 4)]) (Some (INumber (qz 5))) None (Some (INumber (qz 15))) None None None.
Definition sy_total_rate : system_model := mkSystem true [(sy_pump_a, POWER); (sy_pump_b, POWER)] (Some (INumber (qz 600))) (Some (INumber (qz 1000))) [sy_parts] (mkCommon (Some (IText [TRef "on"])) None None).
Definition sy_data : temporal_data system_model := TDDates (86400%Z, sy_two) [(172800%Z, sy_total_rate)].
Lemma sy_chart : usable_chart [eq_slow; eq_fast] /\ falling_chart [eq_slow; eq_fast].
Proof.
  split; [exact eq_chart|]. intros fast E. injection E as <-. intros a ya b yb Ha Hb L. cbn in Ha, Hb.
  destruct Ha as [Ha|[Ha|[]]], Hb as [Hb|[Hb|[]]]; injection Ha as <- <-; injection Hb as <- <-; try (vm_compute in L; discriminate L); reflexivity.
Qed.
Lemma sy_described : forall m, In m (data_models sy_data) -> well_described m.
Proof. intros m I. apply (proj1 (description_proof m)). destruct I as [<-|[<-|[]]]; vm_compute; reflexivity. Qed.
Lemma sy_ok : forall m, In m (data_models sy_data) -> system_ok eq_pow cn_vars 3 m.
Proof.
  intros m I. pose proof (sy_described m I) as W. destruct I as [<-|[<-|[]]]; (split; [discriminate|]); (split; [discriminate|]); (split; [exact W|]); split.
  - split; [discriminate|]. split; [discriminate|]. intros e E. injection E as <-. exact Logic.I.
  - assert (evaluable eq_pow cn_vars 3 sy_rate) as Hr by (eexists; vm_compute; reflexivity).
    intros s [<-|[<-|[]]]; unfold setting_ok; cbn [ss_fractions ss_rates sy_alone sy_shared ss_suction ss_suctions ss_discharge ss_discharges ss_densities ss_cross sy_two sy_pumps sy_density sy_consumers List.length].
    + split; [split; [discriminate|]; intros es e E I; injection E as <-; destruct I as [<-|[<-|[]]]; [exact Hr|exact Logic.I]|].
      split; [exact Logic.I|]. split; [intros es e E; discriminate E|]. split; [exact Logic.I|]. split; [intros es e E; discriminate E|]. split; [|intros z E; discriminate E].
      intros _. split; [intros es e E; discriminate E|]. intros _. split; [discriminate|exact Logic.I].
    + split; [split; [discriminate|]; intros es e E I; injection E as <-; destruct I as [<-|[<-|[]]]; [exact Hr|exact Logic.I]|].
      split; [exact Logic.I|]. split; [intros es e E; discriminate E|]. split; [exact Logic.I|]. split; [intros es e E I; injection E as <-; destruct I as [<-|[<-|[]]]; exact Logic.I|]. split.
      * intros _. split; [intros es e E I; injection E as <-; destruct I as [<-|[<-|[]]]; exact Logic.I|]. intros E. discriminate E.
      * intros z E _. injection E as <-. split; [reflexivity|]. intros z [<-|[<-|[]]]; vm_compute; split; discriminate.
  - split; [|split; discriminate]. intros e E. injection E as <-. split; [eexists; vm_compute; reflexivity|]. split; [reflexivity|]. split; discriminate.
  - intros s [<-|[]]; unfold setting_ok; cbn [ss_fractions ss_rates sy_parts ss_suction ss_suctions ss_discharge ss_discharges ss_densities ss_cross sy_total_rate sy_total sy_pumps sy_density sy_consumers List.length].
    split; [split; [eexists; split; [reflexivity|]; split; [exact Logic.I|]; intros q E; injection E as <-; discriminate|]; intros e [<-|[<-|[]]]; (split; [exact Logic.I|]; intros q E; injection E as <-; discriminate)|].
    split; [exact Logic.I|]. split; [intros es e E; discriminate E|]. split; [exact Logic.I|]. split; [intros es e E; discriminate E|]. split; [|intros z E; discriminate E].
    intros _. split; [intros es e E; discriminate E|]. intros _. split; [discriminate|exact Logic.I].
Qed.
Lemma sy_density_at : forall k m s xs ss ds rhos rho, In m (data_models sy_data) -> In s (sy_settings m) -> setting_at eq_pow cn_vars 3 [qc 1 2; qc 1 2; qc 1 2] m s k xs ss ds rhos -> In rho rhos -> (0 < rho)%Qc.
Proof.
  assert (forall k rhos rho, each eq_pow cn_vars 3 2 (Some (INumber (qz 1000))) None k rhos -> In rho rhos -> (0 < rho)%Qc) as A.
  { intros k rhos rho (e & v & E & V & ->) I. injection E as <-. cbn in V. apply repeat_spec in I. subst. reflexivity. }
  intros k m s xs ss ds rhos rho Im Is (_ & _ & _ & H) I. destruct Im as [<-|[<-|[]]]; cbn [sy_two sy_total_rate sy_settings] in Is.
  - destruct Is as [<-|[<-|[]]]; [now apply (A k rhos)|]. cbn in H. inversion H as [|? a ? l E1 H2]; subst. inversion H2 as [|? b ? l' E2 H3]; subst. inversion H3; subst. cbn in E1, E2. destruct I as [<-|[<-|[]]]; [rewrite E1|rewrite E2]; reflexivity.
  - destruct Is as [<-|[]]. now apply (A k rhos).
Qed.
Example C109_system_case : consumer_setting eq_pow cn_head cn_rest cn_vars cn_regularity sy_data (whole_of cn_head cn_rest) /\
  regularity_values eq_pow cn_regularity (whole_of cn_head cn_rest) cn_vm = Ok [qc 1 2; qc 1 2; qc 1 2] /\
  (exists mes, forall m, In m (data_models sy_data) -> system_ok eq_pow cn_vars 3 m /\ Forall2 means (map fst (sy_consumers m)) mes /\
     forall k, system_works eq_pow cn_vars 3 [qc 1 2; qc 1 2; qc 1 2] m mes k) /\
  in_force_at cn_periods sy_data (whole_of cn_head cn_rest) 1 sy_two /\
  system_acceptable eq_pow cn_vars 3 [qc 1 2; qc 1 2; qc 1 2] POWER sy_two 1 /\
  eq_shown (evaluate_consumer eq_pow (system_evaluate eq_pow POWER) cn_regularity cn_vm sy_data (whole_of cn_head cn_rest)) =
    Some ([Some (this 0%Qc); Some (this (qc 5 96)); Some (this 0%Qc)], [true; true; true]).
Proof.
  split; [apply cn_dates|]. split; [vm_compute; reflexivity|]. split.
  { destruct (pump_system_proof eq_closest eq_std eq_bump) with (pumps := [("a"%string, [eq_slow; eq_fast], 0%Qc); ("b"%string, [eq_slow; eq_fast], 0%Qc)]) as (mes & F & _ & W).
    - intros pts x y. apply Qcle_refl.
    - intros x. apply Qcle_refl.
    - intros name cs margin [E|[E|[]]]; injection E as <- <- <-; exact sy_chart.
    - exists mes. intros m I. split; [now apply sy_ok|]. split; [destruct I as [<-|[<-|[]]]; exact F|]. intros k. apply W. intros s xs ss ds rhos rho Is H Ir. exact (sy_density_at k m s xs ss ds rhos rho I Is H Ir). }
  split; [apply eq_force|]. split; [|vm_compute; reflexivity].
  split; [reflexivity|]. intros s Is xs ss ds rhos i x p d gk (Ha & Hs & Hd & _) Eg Ex Ep Ed. cbn in Eg. injection Eg as <-.
  assert (0 <= x)%Qc as Hx.
  { assert (Forall2 (fun e x => exists y, input_at eq_pow cn_vars 3 e 1 y /\ producing_rate eq_pow cn_vars 3 [qc 1 2; qc 1 2; qc 1 2] (sy_common sy_two) 1 y x) [sy_rate; INumber (qz 0)] xs) as F.
    { destruct Is as [<-|[<-|[]]]; destruct Ha as (rates & E & F); injection E as <-; exact F. }
    inversion F as [|? a ? l (y & Ey & b & g' & _ & Eg' & M) F2]; subst. inversion F2 as [|? a2 ? l2 (y2 & Ey2 & b2 & g2 & _ & Eg2 & M2) F3]; subst. inversion F3; subst.
    cbn [nth_error] in Eg', Eg2. injection Eg' as <-. injection Eg2 as <-. destruct i as [|[|i]]; cbn in Ex; [injection Ex as <-|injection Ex as <-|destruct i; discriminate Ex].
    - apply (eq_rate y b a M). destruct Ey as (l & El & En). vm_compute in El. injection El as <-. cbn [nth_error] in En. injection En as <-. discriminate.
    - apply (eq_rate y2 b2 a2 M2). cbn in Ey2. subst y2. discriminate. }
  split; [exact Hx|]. intros _.
  assert (p = qz 5) as ->.
  { assert (exists e v, Some (INumber (qz 5)) = Some e /\ input_at eq_pow cn_vars 3 e 1 v /\ ss = repeat v 2) as (e & v & E & V & ->) by (destruct Is as [<-|[<-|[]]]; exact Hs). injection E as <-. cbn in V. subst v. destruct i as [|[|i]]; cbn in Ep; [congruence|congruence|destruct i; discriminate Ep]. }
  assert (d = qz 15) as ->.
  { destruct Is as [<-|[<-|[]]]; cbn in Hd.
    - destruct Hd as (e & v & E & V & ->). injection E as <-. cbn in V. subst v. destruct i as [|[|i]]; cbn in Ed; [congruence|congruence|destruct i; discriminate Ed].
    - inversion Hd as [|? a ? l E1 H2]; subst. inversion H2 as [|? b ? l' E2 H3]; subst. inversion H3; subst. destruct i as [|[|i]]; cbn in Ed; [congruence|congruence|destruct i; discriminate Ed]. }
  split; [reflexivity|vm_compute; discriminate].
Qed.
(** a system in which no setting has the capacity for everything is reported as invalid *)
Definition sy_weak : system_model := mkSystem true [(sy_pump_a, POWER); (sy_pump_b, POWER)] None (Some (INumber (qz 1000))) [sy_alone] (mkCommon None None None).
Example C109_invalid_case :
  eq_shown (evaluate_consumer eq_pow (system_evaluate eq_pow POWER) cn_regularity cn_vm (TDDates (86400%Z, sy_weak) [(172800%Z, sy_total_rate)]) (whole_of cn_head cn_rest)) =
    Some ([Some (this 0%Qc); Some (this (qc 1 24)); Some (this 0%Qc)], [true; false; true]).
Proof. vm_compute. reflexivity. Qed.
Example C109_refused_case : check_description (mkSystem true [(sy_pump_a, POWER); (sy_pump_a, POWER)] None None [sy_alone] (mkCommon None None None)) = Err ValidationError /\
  check_description (mkSystem true [(sy_pump_a, POWER)] None None [sy_alone] (mkCommon None None None)) = Err ValidationError /\
  evaluate_consumer eq_pow (system_evaluate eq_pow FUEL) cn_regularity cn_vm sy_data (whole_of cn_head cn_rest) = Err ValidationError.
Proof. repeat split; vm_compute; reflexivity. Qed.

(** ** What the description does not rule out *)
(** a setting need not have rates *)
Definition sy_no_rates : system_model := mkSystem true [(sy_pump_a, POWER)] None (Some (INumber (qz 1000))) [mkSystemSetting None None (Some (INumber (qz 5))) None (Some (INumber (qz 15))) None None None] (mkCommon None None None).
Theorem C109_rates_refuted : exists m, well_described m /\ sy_settings m <> [] /\
  evaluate_consumer eq_pow (system_evaluate eq_pow POWER) cn_regularity cn_vm (TDDates (86400%Z, m) [(172800%Z, m)]) (whole_of cn_head cn_rest) = Err TypeError.
Proof. exists sy_no_rates. split; [apply (proj1 (description_proof _)); vm_compute; reflexivity|]. split; [discriminate|vm_compute; reflexivity]. Qed.
Print Assumptions C109_rates_refuted.
(** there need not be a total for the fractions *)
Definition sy_no_total : system_model := mkSystem true [(sy_pump_a, POWER)] None (Some (INumber (qz 1000))) [mkSystemSetting None (Some [INumber 1%Qc]) (Some (INumber (qz 5))) None (Some (INumber (qz 15))) None None None] (mkCommon None None None).
Theorem C109_total_refuted : exists m, well_described m /\ sy_settings m <> [] /\
  evaluate_consumer eq_pow (system_evaluate eq_pow POWER) cn_regularity cn_vm (TDDates (86400%Z, m) [(172800%Z, m)]) (whole_of cn_head cn_rest) = Err AssertionError.
Proof. exists sy_no_total. split; [apply (proj1 (description_proof _)); vm_compute; reflexivity|]. split; [discriminate|vm_compute; reflexivity]. Qed.
Print Assumptions C109_total_refuted.
(** a system of pumps that is not in use is refused for its pressures; the same system of compressors is not *)
Definition sy_off (pumps : bool) : system_model := mkSystem pumps [(sy_pump_a, POWER)] None (Some (INumber (qz 1000))) [mkSystemSetting (Some [INumber (qz 600)]) None (Some (INumber (qz 5))) None (Some (INumber (qz 0))) None None None] (mkCommon (Some (IText [TNum (qz 0)])) None None).
Definition sy_none (pumps : bool) : temporal_data system_model := TDDates (86400%Z, sy_off pumps) [(172800%Z, sy_off pumps)].
Theorem C109_not_in_use_refuted :
  (forall pumps k, ~ in_use eq_pow cn_vars 3 (sy_common (sy_off pumps)) k true) /\
  evaluate_consumer eq_pow (system_evaluate eq_pow POWER) cn_regularity cn_vm (sy_none true) (whole_of cn_head cn_rest) = Err ValidationError /\
  eq_shown (evaluate_consumer eq_pow (system_evaluate eq_pow POWER) cn_regularity cn_vm (sy_none false) (whole_of cn_head cn_rest)) =
    Some ([Some (this 0%Qc); Some (this 0%Qc); Some (this 0%Qc)], [true; true; true]).
Proof.
  split; [|split; vm_compute; reflexivity]. intros pumps k U. cbn [sy_off sy_common] in U. unfold in_use in U. cbn [cl_condition cl_conditions] in U.
  destruct U as (x & (l & El & En) & H). vm_compute in El. injection El as <-. assert (x = 0%Qc) as -> by (destruct k as [|[|[|k]]]; cbn [nth_error] in En; [injection En as <-; apply Qc_is_canon; reflexivity..|destruct k; discriminate En]).
  destruct H as [_ H]. discriminate (H eq_refl).
Qed.
Print Assumptions C109_not_in_use_refuted.

Example C110_pump_case : usable_chart [eq_slow; eq_fast] /\ falling_chart [eq_slow; eq_fast] /\
  match c_max_rate sy_pump_a [Some (qz 5); Some (qz 5)] [Some (qz 15); Some (qz 20)] (Per [Some (qz 1000); Some (qz 1000)]) with Ok l => map (option_map this) l | Err _ => [] end = [Some (this (qz 1440)); Some (this (qz 960))] /\
  match c_evaluate sy_pump_a [Some (qz 1200); Some (qz 1200)] [Some (qz 5); Some (qz 5)] [Some (qz 15); Some (qz 20)] (Per [Some (qz 1000); Some (qz 1000)]) with Ok r => (map (option_map this) (er_energy r), er_valid r) | Err _ => ([], []) end =
    ([Some (this (qc 1 36)); Some (this (qc 1 24))], [true; false]).
Proof. split; [apply sy_chart|]. split; [apply sy_chart|]. split; vm_compute; reflexivity. Qed.

(** a root finder with one guess *)
Definition sy_root (guess : Qc) (lower upper : Qc) (f : Qc -> result num) : result Qc :=
  if Qcleb lower guess && Qcleb guess upper
  then match f guess with Ok (Some y) => if Qcleb (- qc 1 1000)%Qc y && Qcleb y (qc 1 1000) then Ok guess else Err ValueError | _ => Err ValueError end
  else Err ValueError.
Lemma sy_root_stays : forall guess, stays (sy_root guess).
Proof.
  intros guess lower upper f x _ E. unfold sy_root in E. destruct (Qcleb lower guess) eqn:E1; [|discriminate E]. destruct (Qcleb guess upper) eqn:E2; [|discriminate E]. cbn [andb] in E.
  destruct (f guess) as [[y|]|]; try discriminate E. destruct (_ && _); [|discriminate E]. injection E as <-. split; now apply Qcleb_le.
Qed.
Lemma sy_root_finds : forall guess, finds (qc 1 1000) (sy_root guess).
Proof.
  intros guess lower upper f x E. unfold sy_root in E. destruct (_ && _); [|discriminate E]. destruct (f guess) as [[y|]|] eqn:Ef; try discriminate E.
  destruct (Qcleb (- qc 1 1000)%Qc y) eqn:E1; [|discriminate E]. destruct (Qcleb y (qc 1 1000)) eqn:E2; [|discriminate E]. cbn [andb] in E. injection E as <-. exists y. split; [exact Ef|]. split; now apply Qcleb_le.
Qed.
(** a compressor that takes 5000 Sm3/day and needs 50 MW for it, with a turbine of 20 MW *)
Definition sy_own (s d : Qc) : result num := Ok (Some (qz 5000)).
Example C111_largest_rate_case : exists t m, eq_turbine = Ok t /\ tu_factor t = 1%Qc /\ tu_constant t = 0%Qc /\ (0 <= tu_maximum_load t)%Qc /\
  turbine_max_rate (sy_root (qz 2000)) t false eq_train sy_own (qz 5) (qz 15) = Ok (Some m) /\ this m = this (qz 2000) /\
  needs eq_train (qz 5000) (qz 5) (qz 15) (Some (qz 50)) /\ this (turbine_capacity t) = this (qz 20).
Proof.
  eexists. eexists. split; [vm_compute; reflexivity|]. split; [reflexivity|]. split; [reflexivity|]. split; [vm_compute; discriminate|]. split; [vm_compute; reflexivity|]. split; [vm_compute; reflexivity|]. split; [|vm_compute; reflexivity].
  exists (Equipment_Model.mkPoint [qz 5000] (Some (qz 5)) (Some (qz 15)) None None). eexists. split; [repeat split|]. split; [reflexivity|]. cbn [co_power op_rates fold_right]. f_equal. apply Qc_is_canon. vm_compute. reflexivity.
Qed.
(** ... but not otherwise: the adjustment of the energy usage is left out when the largest rate is found *)
Theorem C111_adjusted_refuted : exists root t factor m out, stays root /\ finds (qc 1 1000) root /\ eq_turbine = Ok t /\ tu_factor t = 1%Qc /\ tu_constant t = 0%Qc /\
  turbine_max_rate root t false eq_train sy_own (qz 5) (qz 15) = Ok (Some m) /\
  mc_run (turbine_machine t factor 0 eq_train) (Equipment_Model.mkPoint [m] (Some (qz 5)) (Some (qz 15)) None None) = Ok out /\ mo_valid out = false.
Proof.
  exists (sy_root (qz 2000)). eexists. exists (qz 2), (qz 2000). eexists. split; [apply sy_root_stays|]. split; [apply sy_root_finds|]. split; [vm_compute; reflexivity|]. split; [reflexivity|]. split; [reflexivity|].
  split; [vm_compute; reflexivity|]. split; [reflexivity|]. vm_compute. reflexivity.
Qed.
Print Assumptions C111_adjusted_refuted.
(** and a sampled compressor with a turbine has no largest rate at all *)
Theorem C111_sampled_refuted : forall root t c own s d top, own s d = Ok top -> turbine_max_rate root t true c own s d = Err OtherError.
Proof. exact sampled_turbine_proof. Qed.
Print Assumptions C111_sampled_refuted.

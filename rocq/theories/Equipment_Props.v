(** C106 to C108: pump and compressor consumers. *)
From Coq Require Import PeanoNat String.
From Verif Require Import QcTac Num Base BaseLemmas Time_Model Time_Spec Time_Proofs Expr_Model Expr_Spec Vars_Model Vars_Proofs Units_Model Rates_Model Input_Model Interp_Model Interp_Spec Energy_Model Energy_Proofs2 Emitters_Spec
  Consumer_Model Consumer_Spec Consumer_Props Chart_Model Chart_Spec Pump_Model Pump_Spec Equipment_Model Equipment_Spec Equipment_Proofs Equipment_Proofs2 Equipment_Proofs3 Equipment_Proofs4 Equipment_Proofs5.
Local Open Scope list_scope.
Local Open Scope nat_scope.

(** C106: pressures are accepted exactly if, wherever they are to be checked, they are positive and in order. *)
Theorem C106_pressures : forall mask suction discharge intermediate,
  List.length mask = List.length suction -> List.length discharge = List.length suction ->
  (forall l, intermediate = Some l -> List.length l = List.length suction) ->
  let fine := forall k s d, nth_error mask k = Some true -> nth_error suction k = Some s -> nth_error discharge k = Some d ->
    (0 < s)%Qc /\ (s <= d)%Qc /\ forall l i, intermediate = Some l -> nth_error l k = Some i -> (s <= i)%Qc /\ (i <= d)%Qc in
  (validate_pressures mask suction discharge intermediate = Ok tt /\ fine) \/
  (validate_pressures mask suction discharge intermediate = Err ValidationError /\ ~ fine).
Proof. exact validate_pressures_proof. Qed.
Print Assumptions C106_pressures.
Example C106_accepted_case : validate_pressures [true; false] [qz 1; qz 5] [qz 3; qz 4] (Some [qz 2; qz 9]) = Ok tt.
Proof. vm_compute. reflexivity. Qed.
Example C106_refused_case : validate_pressures [true; true] [qz 1; qz 5] [qz 3; qz 4] None = Err ValidationError /\
  validate_pressures [true] [qz 1] [qz 3] (Some [qz 4]) = Err ValidationError /\ validate_pressures [true] [qz 0] [qz 3] None = Err ValidationError.
Proof. repeat split; vm_compute; reflexivity. Qed.

(** C107: a consumer with pump models reports, in each period, the power of the pump in force there for the rate, pressures
    and density of its expressions, with the losses added, and zero where none is; negative rates, and pressures that are not positive or
    not in order where something flows, are refused, and so is a pump as a consumer of fuel. *)
Theorem C107_pump : forall pow closest np_std bump, (forall pts x y, (0 <= fst (closest pts x y))%Qc) -> (forall x, (x <= bump x)%Qc) ->
  forall first rest vars vm input g data target,
  make_variables_map (first :: rest) vars = Ok vm -> consumer_setting pow first rest vars input data target ->
  regularity_values pow input (whole_of first rest) vm = Ok g ->
  let ps := first :: rest in let n := List.length ps in
  (forall m, In m (data_models data) -> pump_ok pow vars n m) ->
  (forall k m rate s d rho, in_force_at ps data target k m -> pump_at pow vars n g m k rate s d rho -> (0 < rate -> 0 < rho)%Qc) ->
  let run := fun consumes => evaluate_consumer pow (pump_evaluate_model pow closest np_std bump consumes) input vm data target in
  ((exists k m, in_force_at ps data target k m) -> (forall k m, in_force_at ps data target k m -> pump_acceptable pow vars n g m k) ->
   exists s, run POWER = Ok (Some s) /\
     equipment_result ps POWER data target (pump_energy pow vars n g) (fun m k w => exists v, pump_energy pow vars n g m k w v) (fun _ => true) s) /\
  ((exists k m, in_force_at ps data target k m /\ ~ pump_acceptable pow vars n g m k) -> run POWER = Err ValidationError) /\
  ((exists k m, in_force_at ps data target k m) -> run FUEL = Err ValidationError) /\
  (forall consumes, (forall k m, ~ in_force_at ps data target k m) -> run consumes = Ok None).
Proof. exact pump_consumer_proof. Qed.
Print Assumptions C107_pump.

Definition eq_slow : curve := mkCurve [(qz 10, qz 500, qc 1 2); (qz 30, qz 300, qc 1 2)] (qz 1000).
Definition eq_fast : curve := mkCurve [(qz 20, qz 2000, qc 1 2); (qz 60, qz 1000, qc 1 2)] (qz 2000).
Definition eq_closest (pts : list (Qc * Qc)) (x y : Qc) : Qc * (Qc * Qc) := (0%Qc, (x, y)).
Definition eq_std (l : list Qc) : Qc := 1%Qc.
Definition eq_bump (x : Qc) : Qc := x.
Definition eq_pow (x y : Qc) : Qc := x.
(** the second period: 6 * 100 / 0.5 Sm3/day; the third: not in use *)
Definition eq_pump : pump_model := mkPump [eq_slow; eq_fast] 0%Qc (IText [TRef "x"; TOp "{*}"; TNum (qz 100)]) (INumber (qz 1000)) (INumber (qz 5)) (INumber (qz 15)) (mkCommon None None (Some (INumber (qc 1 5)))).
Definition eq_idle : pump_model := mkPump [eq_slow; eq_fast] 0%Qc (INumber (qz 600)) (INumber (qz 1000)) (INumber (qz 5)) (INumber (qz 0)) (mkCommon (Some (IText [TRef "on"])) None None).
Definition eq_pumps : temporal_data pump_model := TDDates (86400%Z, eq_pump) [(172800%Z, eq_idle)].
Definition eq_upside_down : pump_model := mkPump [eq_slow; eq_fast] 0%Qc (INumber (qz 600)) (INumber (qz 1000)) (INumber (qz 5)) (INumber (qz 4)) (mkCommon None None None).
Definition eq_shown (r : result (option consumer_series)) : option (list (option Q) * list bool) :=
  match r with Ok (Some s) => Some (map (option_map this) (s_values (cs_energy s)), s_values (cs_valid s)) | _ => None end.
Lemma eq_chart : usable_chart [eq_slow; eq_fast].
Proof.
  split; [discriminate|]. split; [|split].
  - apply Forall_forall. intros c Hc. split; [destruct Hc as [<-|[<-|[]]]; cbn; lia|]. split.
    + destruct Hc as [<-|[<-|[]]]; cbn; (constructor; [constructor; [constructor|constructor]|constructor; [discriminate|constructor]]).
    + destruct Hc as [<-|[<-|[]]]; cbn; intros e [<-|[<-|[]]]; split; discriminate.
  - intros c e [<-|[<-|[]]]; cbn; intros [<-|[<-|[]]]; reflexivity.
  - intros fast E. injection E as <-. cbn. constructor; [intros [E|[]]; discriminate E|constructor; [intros []|constructor]].
Qed.
Lemma eq_force : forall M (a b : M), in_force_at cn_periods (TDDates (86400%Z, a) [(172800%Z, b)]) (whole_of cn_head cn_rest) 1 a.
Proof.
  intros M a b. exists (mkPeriod 86400 172800), 86400%Z. split; [reflexivity|]. unfold In_period. cbn [p_start p_end whole_of cn_head cn_rest last]. split; [lia|]. split; [lia|].
  split; [unfold DT_MAX; lia|]. exists 86400%Z. split; [now left|]. split; [lia|]. intros k m [E|[E|[]]] L; injection E as <- <-; lia.
Qed.
Lemma eq_rate : forall x b w, stream_rate_means CALENDAR_DAY x b (qc 1 2) w -> (0 <= x)%Qc -> (0 <= w)%Qc.
Proof.
  intros x b w M H. unfold stream_rate_means in M. destruct b; [|rewrite M; discriminate]. destruct M as [[_ M]|[E _]]; [|discriminate E].
  assert (qc 1 2 + qc 1 2 = 1)%Qc as E by (apply Qc_is_canon; reflexivity). replace w with (w * (qc 1 2 + qc 1 2))%Qc by (rewrite E; ring). replace (w * (qc 1 2 + qc 1 2))%Qc with (x + x)%Qc by (rewrite <- M; ring). qc_lra.
Qed.
Lemma eq_models : forall M (a b : M) ps target k m, in_force_at ps (TDDates (86400%Z, a) [(172800%Z, b)]) target k m -> m = a \/ m = b.
Proof. intros M a b ps target k m (p & d & _ & _ & _ & F). cbn [data_in_force] in F. destruct F as [_ (t & [E|[E|[]]] & _)]; injection E as <- <-; auto. Qed.
Example C107_pump_case : consumer_setting eq_pow cn_head cn_rest cn_vars cn_regularity eq_pumps (whole_of cn_head cn_rest) /\
  make_variables_map (cn_head :: cn_rest) cn_vars = Ok cn_vm /\
  regularity_values eq_pow cn_regularity (whole_of cn_head cn_rest) cn_vm = Ok [qc 1 2; qc 1 2; qc 1 2] /\
  (forall m, In m (data_models eq_pumps) -> pump_ok eq_pow cn_vars 3 m) /\
  (forall k m rate s d rho, in_force_at cn_periods eq_pumps (whole_of cn_head cn_rest) k m -> pump_at eq_pow cn_vars 3 [qc 1 2; qc 1 2; qc 1 2] m k rate s d rho -> (0 < rate -> 0 < rho)%Qc) /\
  in_force_at cn_periods eq_pumps (whole_of cn_head cn_rest) 1 eq_pump /\
  pump_acceptable eq_pow cn_vars 3 [qc 1 2; qc 1 2; qc 1 2] eq_pump 1 /\
  eq_shown (evaluate_consumer eq_pow (pump_evaluate_model eq_pow eq_closest eq_std eq_bump POWER) cn_regularity cn_vm eq_pumps (whole_of cn_head cn_rest)) =
    Some ([Some (this 0%Qc); Some (this (qc 5 144)); Some (this 0%Qc)], [true; true; true]).
Proof.
  split; [apply cn_dates|]. split; [reflexivity|]. split; [vm_compute; reflexivity|]. split.
  { intros m [<-|[<-|[]]]; (split; [cbn; try exact I; eexists; vm_compute; reflexivity|]); (split; [exact I|]); (split; [exact I|]); (split; [exact I|]); (split; [|exact eq_chart]).
    - split; [discriminate|]. split; [discriminate|]. intros e E. injection E as <-. exact I.
    - split; [|split; discriminate]. intros e E. injection E as <-. split; [eexists; vm_compute; reflexivity|]. split; [reflexivity|]. split; discriminate. }
  split. { intros k m rate s d rho F (_ & _ & _ & R) _. apply eq_models in F as [-> | ->]; cbn in R; rewrite R; reflexivity. }
  split; [apply eq_force|]. split.
  { intros rate s d rho gk (R & Es & Ed & _) Eg. cbn in Es, Ed. subst s d. split; [|intros _; split; [reflexivity|vm_compute; discriminate]].
    destruct R as (x & b & g' & Ex & _ & Eg' & M). cbn [nth_error] in Eg'. injection Eg' as <-. apply (eq_rate x b rate M). destruct Ex as (l & El & En). vm_compute in El. injection El as <-. cbn [nth_error] in En. injection En as <-. discriminate. }
  vm_compute. reflexivity.
Qed.
(** refused: a discharge pressure below the suction pressure *)
Example C107_refused_case : ~ pump_acceptable eq_pow cn_vars 3 [qc 1 2; qc 1 2; qc 1 2] eq_upside_down 1 /\
  evaluate_consumer eq_pow (pump_evaluate_model eq_pow eq_closest eq_std eq_bump POWER) cn_regularity cn_vm (TDDates (86400%Z, eq_upside_down) [(172800%Z, eq_idle)]) (whole_of cn_head cn_rest) = Err ValidationError.
Proof.
  split; [|vm_compute; reflexivity]. intros A. destruct (A (qz 1200) (qz 5) (qz 4) (qz 1000) (qc 1 2)) as [_ B]; [|reflexivity|].
  - split; [|cbn; auto]. exists (qz 600), true, (qc 1 2). split; [reflexivity|]. split; [split; [discriminate|intros (es & e & E & _); discriminate E]|]. split; [reflexivity|]. left. split; [discriminate|apply Qc_is_canon; reflexivity].
  - destruct (B ltac:(reflexivity)) as [_ L]. vm_compute in L. now apply L.
Qed.

(** C108: the same for a compressor (train) with one stream. Only a sampled compressor can do without a pressure. *)
Theorem C108_one_stream : forall pow consumes first rest vars vm input g data target,
  make_variables_map (first :: rest) vars = Ok vm -> consumer_setting pow first rest vars input data target ->
  regularity_values pow input (whole_of first rest) vm = Ok g ->
  let ps := first :: rest in let n := List.length ps in
  (forall m, In m (data_models data) -> plan_ok pow vars n (compressor_plan m) /\
     (cm_sampled m = true \/ (cm_suction m <> None /\ cm_discharge m <> None))) ->
  (forall k m, in_force_at ps data target k m -> plan_works pow vars n g (compressor_plan m) k) ->
  let run := evaluate_consumer pow (compressor_evaluate pow consumes) input vm data target in
  ((exists k m, in_force_at ps data target k m) ->
   (forall k m, in_force_at ps data target k m -> plan_acceptable pow vars n g consumes (compressor_plan m) k) ->
   exists s, run = Ok (Some s) /\
     equipment_result ps consumes data target (fun m => plan_energy pow vars n g (compressor_plan m))
       (fun m => plan_power pow vars n g (compressor_plan m)) (fun m => mc_has_power (cm_machine m)) s) /\
  ((exists k m, in_force_at ps data target k m /\ ~ plan_acceptable pow vars n g consumes (compressor_plan m) k) ->
   run = Err ValidationError) /\
  ((forall k m, ~ in_force_at ps data target k m) -> run = Ok None).
Proof. exact compressor_consumer_proof. Qed.
Print Assumptions C108_one_stream.
(** C108: the same for a train with several streams. *)
Theorem C108_several_streams : forall pow consumes first rest vars vm input g data target,
  make_variables_map (first :: rest) vars = Ok vm -> consumer_setting pow first rest vars input data target ->
  regularity_values pow input (whole_of first rest) vm = Ok g ->
  let ps := first :: rest in let n := List.length ps in
  (forall m, In m (data_models data) -> plan_ok pow vars n (streams_plan m)) ->
  (forall k m, in_force_at ps data target k m -> plan_works pow vars n g (streams_plan m) k) ->
  let run := evaluate_consumer pow (streams_evaluate pow consumes) input vm data target in
  ((exists k m, in_force_at ps data target k m) ->
   (forall k m, in_force_at ps data target k m -> plan_acceptable pow vars n g consumes (streams_plan m) k) ->
   exists s, run = Ok (Some s) /\
     equipment_result ps consumes data target (fun m => plan_energy pow vars n g (streams_plan m))
       (fun m => plan_power pow vars n g (streams_plan m)) (fun m => mc_has_power (sm_machine m)) s) /\
  ((exists k m, in_force_at ps data target k m /\ ~ plan_acceptable pow vars n g consumes (streams_plan m) k) ->
   run = Err ValidationError) /\
  ((forall k m, ~ in_force_at ps data target k m) -> run = Ok None).
Proof. exact streams_consumer_proof. Qed.
Print Assumptions C108_several_streams.
(** C108: a compressor driven by a turbine uses the fuel the turbine needs for the adjusted power of the compressor; it is valid if the
    compressor is, and the adjusted power is within the table of the turbine. *)
Theorem C108_turbine : forall loads efficiencies lhv a b t factor constant c pt o p,
  make_turbine loads efficiencies lhv a b = Ok t -> NoDup loads -> (0 < a)%Qc ->
  co_has_power c = true -> co_run c pt = Ok o -> co_power o = Some p ->
  exists out load m, mc_run (turbine_machine t factor constant c) pt = Ok out /\ adjusted factor constant p load /\ maximum_of loads m /\
    ((0 < load)%Qc -> in_range (combine loads efficiencies) ((load + b) / a) -> (0 < lhv)%Qc ->
       exists e, interpolates (combine loads efficiencies) ((load + b) / a)%Qc e /\ mo_power out = Some ((load + b) / a)%Qc /\
         (e <> 0%Qc -> exists u, mo_energy out = Some u /\ (u * e * lhv = (load + b) / a * qz 86400)%Qc)) /\
    ((forall l, In l loads -> (0 <= l)%Qc) -> (load <= 0)%Qc -> mo_energy out = Some 0%Qc) /\
    (mo_valid out = true <-> co_no_failure o = true /\ (load <= m)%Qc /\
       match co_stages o with Some b => b = true | None => mo_energy out <> None end).
Proof. exact turbine_machine_proof. Qed.
Print Assumptions C108_turbine.
(** C108: a compressor that is not a sampled one is never evaluated without its pressures... *)
Theorem C108_missing_pressure : forall pow consumes m g vm r, cm_sampled m = false -> cm_suction m = None \/ cm_discharge m = None ->
  compressor_evaluate pow consumes m g vm <> Ok r.
Proof. exact missing_pressure_proof. Qed.
Print Assumptions C108_missing_pressure.

Definition eq_train : compressor := mkCompressor POWER true (fun p => let w := Some (fold_right Qcplus 0%Qc (op_rates p) / qz 100)%Qc in Ok (mkCO w w true (Some true))).
Definition eq_turbine : result turbine := make_turbine [qz 0; qz 10; qz 20] [0%Qc; qc 1 5; qc 2 5] (qz 40) 1%Qc 0%Qc.
Definition eq_driven : machine := match eq_turbine with Ok t => turbine_machine t (qz 2) 1%Qc eq_train | Err _ => compressor_machine eq_train end.
Definition eq_compressor : compressor_model := mkCompressorModel eq_driven false (IText [TRef "x"; TOp "{*}"; TNum (qz 25)]) (Some (INumber (qz 5))) (Some (INumber (qz 15))) (mkCommon None None None).
Definition eq_sampled : compressor_model := mkCompressorModel (compressor_machine (mkCompressor FUEL false (fun _ => Ok (mkCO (Some (qz 7)) None true None)))) true (IText [TRef "x"]) None None (mkCommon None None None).
Definition eq_compressors : temporal_data compressor_model := TDDates (86400%Z, eq_compressor) [(172800%Z, eq_sampled)].
Lemma eq_compressors_ok : forall m, In m (data_models eq_compressors) -> plan_ok eq_pow cn_vars 3 (compressor_plan m) /\
  (cm_sampled m = true \/ (cm_suction m <> None /\ cm_discharge m <> None)).
Proof.
  intros m [<-|[<-|[]]]; (split; [split; [discriminate|]; split; [intros e [<-|[]]; eexists; vm_compute; reflexivity|]|]).
  - split; [exact I|]. split; [exact I|]. split; [exact I|]. split; [exact I|]. split; [split; [discriminate|]; split; discriminate|]. intros H. now elim H.
  - right. split; discriminate.
  - split; [exact I|]. split; [exact I|]. split; [exact I|]. split; [exact I|]. split; [split; [discriminate|]; split; discriminate|]. intros H. now elim H.
  - now left.
Qed.
Example C108_one_stream_case : consumer_setting eq_pow cn_head cn_rest cn_vars cn_regularity eq_compressors (whole_of cn_head cn_rest) /\
  (forall m, In m (data_models eq_compressors) -> plan_ok eq_pow cn_vars 3 (compressor_plan m) /\ (cm_sampled m = true \/ (cm_suction m <> None /\ cm_discharge m <> None))) /\
  (forall k m, in_force_at cn_periods eq_compressors (whole_of cn_head cn_rest) k m -> plan_works eq_pow cn_vars 3 [qc 1 2; qc 1 2; qc 1 2] (compressor_plan m) k) /\
  in_force_at cn_periods eq_compressors (whole_of cn_head cn_rest) 1 eq_compressor /\
  plan_acceptable eq_pow cn_vars 3 [qc 1 2; qc 1 2; qc 1 2] FUEL (compressor_plan eq_compressor) 1 /\
  eq_shown (evaluate_consumer eq_pow (compressor_evaluate eq_pow FUEL) cn_regularity cn_vm eq_compressors (whole_of cn_head cn_rest)) =
    Some ([Some (this 0%Qc); Some (this (qz 108000)); Some (this (qz 7))], [true; true; true]).
Proof.
  split; [apply cn_dates|]. split; [exact eq_compressors_ok|]. split.
  { intros k m F pt _. apply eq_models in F as [-> | ->]; cbn; eexists; reflexivity. }
  split; [apply eq_force|]. split.
  { split; [reflexivity|]. intros [r s d i rho] (R & Es & Ed & Ei & _). cbn [op_rates op_suction op_discharge op_intermediate] in *. cbn [compressor_plan pl_rates pl_suction pl_discharge pl_intermediate optional_at eq_compressor cm_rate cm_suction cm_discharge] in *.
    destruct Es as (sv & -> & Es). destruct Ed as (dv & -> & Ed). cbn [input_at] in Es, Ed. subst sv dv i. split.
    - intros w Iw. inversion R as [|? w0 ? l' R1 R2]; subst. inversion R2; subst. destruct Iw as [<-|[]]. destruct R1 as (x & b & g' & Ex & _ & Eg' & M). cbn [nth_error] in Eg'. injection Eg' as <-. apply (eq_rate x b w0 M). destruct Ex as (l & El & En). vm_compute in El. injection El as <-. cbn [nth_error] in En. injection En as <-. discriminate.
    - intros _. split; [intros x [E|[E|E]]; try discriminate E; injection E as <-; discriminate|]. intros sv dv E1 E2. injection E1 as <-. injection E2 as <-. split; [reflexivity|]. split; [vm_compute; discriminate|]. intros i E. discriminate E. }
  vm_compute. reflexivity.
Qed.
Definition eq_streams : streams_model := mkStreams (compressor_machine eq_train) [IText [TRef "x"]; INumber (qz 50)] (INumber (qz 5)) (INumber (qz 15)) (Some (INumber (qz 10))) (mkCommon None None (Some (INumber (qc 1 2)))).
Definition eq_streams2 : streams_model := mkStreams (compressor_machine eq_train) [INumber (qz 100)] (INumber (qz 5)) (INumber (qz 15)) (Some (INumber (qz 20))) (mkCommon (Some (IText [TRef "on"])) None None).
Example C108_several_streams_case :
  eq_shown (evaluate_consumer eq_pow (streams_evaluate eq_pow POWER) cn_regularity cn_vm (TDDates (86400%Z, eq_streams) [(172800%Z, eq_streams2)]) (whole_of cn_head cn_rest)) =
    Some ([Some (this 0%Qc); Some (this (qc 56 25)); Some (this 0%Qc)], [true; true; true]) /\
  (* an intermediate pressure above the discharge pressure *)
  evaluate_consumer eq_pow (streams_evaluate eq_pow POWER) cn_regularity cn_vm (TDDates (86400%Z, eq_streams2) [(172800%Z, eq_streams)]) (whole_of cn_head cn_rest) = Err ValidationError.
Proof. split; vm_compute; reflexivity. Qed.
Example C108_several_streams_ok : plan_ok eq_pow cn_vars 3 (streams_plan eq_streams) /\ (forall g k, plan_works eq_pow cn_vars 3 g (streams_plan eq_streams) k).
Proof.
  split; [|intros g k pt _; cbn; eexists; reflexivity]. split; [discriminate|]. split; [intros e [<-|[<-|[]]]; [eexists; vm_compute; reflexivity|exact I]|]. split; [exact I|]. split; [exact I|]. split; [exact I|]. split; [exact I|].
  split; [split; [discriminate|]; split; [discriminate|]; intros e E; injection E as <-; exact I|]. intros _. split; discriminate.
Qed.
Example C108_turbine_case : exists t, eq_turbine = Ok t /\ NoDup [qz 0; qz 10; qz 20] /\
  exists out, mc_run (turbine_machine t (qz 2) 1%Qc eq_train) (mkPoint [qz 300] (Some (qz 5)) (Some (qz 15)) None None) = Ok out /\ option_map this (mo_power out) = Some (this (qz 7)) /\ option_map this (mo_energy out) = Some (this (qz 108000)) /\ mo_valid out = true.
Proof.
  eexists. split; [vm_compute; reflexivity|]. split; [repeat constructor; cbn; intuition discriminate|]. eexists. split; [vm_compute; reflexivity|]. split; [vm_compute; reflexivity|]. split; vm_compute; reflexivity.
Qed.

(** ... but the user is given no message about it. *)
Definition eq_no_pressure : compressor_model := mkCompressorModel eq_driven false (IText [TRef "x"]) None (Some (INumber (qz 15))) (mkCommon None None None).
Theorem C108_message_refuted : exists m, cm_sampled m = false /\ cm_suction m = None /\ plan_ok eq_pow cn_vars 3 (compressor_plan m) /\
  evaluate_consumer eq_pow (compressor_evaluate eq_pow FUEL) cn_regularity cn_vm (TDDates (86400%Z, m) [(172800%Z, m)]) (whole_of cn_head cn_rest) = Err AssertionError.
Proof.
  exists eq_no_pressure. split; [reflexivity|]. split; [reflexivity|]. split; [|vm_compute; reflexivity]. split; [discriminate|]. split; [intros e [<-|[]]; eexists; vm_compute; reflexivity|].
  split; [exact I|]. split; [exact I|]. split; [exact I|]. split; [exact I|]. split; [split; [discriminate|]; split; discriminate|]. intros H. now elim H.
Qed.
Print Assumptions C108_message_refuted.

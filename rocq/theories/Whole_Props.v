(** C117: whole models with all kinds of consumers. *)
From Coq Require Import PeanoNat String Lia.
From Verif Require Import Train_Model Train_Props.
From Verif Require Import QcTac Num Base BaseLemmas Time_Model Time_Spec Time_Proofs Expr_Model Expr_Spec Vars_Model Units_Model Rates_Model Input_Model Interp_Model Energy_Model Emitters_Model
  Sampled_Model Sampled_Spec Sampled_Proofs8 Sampled_Props Consumer_Model Consumer_Props Chart_Model Pump_Model Equipment_Model Equipment_Props System_Model Systems_Model Systems_Props
  Machines_Model Machines_Props Graph_Model Asset_Model Asset_Props Asset_Spec Report_Spec Report_Props Whole_Model Whole_Proofs.
Local Open Scope list_scope.
Local Open Scope Z_scope.

(** C117: the result of a consumer, whatever its models: power in MW for a consumer of electricity, fuel in Sm3 per day for
    a consumer of fuel, a value in every period, and always a power for a consumer of electricity. *)
Theorem C117_units : forall np_pow nd closest np_std bump vm target consumes i data r,
  alone np_pow (usage_of np_pow nd closest np_std bump) vm target consumes i data r ->
  s_periods (re_energy r) = vm_periods vm /\ List.length (s_values (re_energy r)) = List.length (vm_periods vm) /\
  s_unit (re_energy r) = (match consumes with POWER => MEGA_WATT | FUEL => STANDARD_CUBIC_METER_PER_DAY end) /\
  (consumes = POWER -> exists power, re_power r = Some power) /\
  (forall power, re_power r = Some power -> s_periods power = vm_periods vm /\ List.length (s_values power) = List.length (vm_periods vm) /\ s_unit power = MEGA_WATT).
Proof. exact whole_units_proof. Qed.
Print Assumptions C117_units.

(** an asset with all kinds of consumers *)
Definition wh_common : conditions_and_loss := mkCommon None None None.
Definition wh_usage := usage_of (fun x _ => x) (fun _ _ => None) eq_closest eq_std eq_bump.
Definition wh_turbine : turbine := match eq_turbine as r return match r with Ok _ => turbine | Err _ => unit end with Ok t => t | Err _ => tt end.
Definition wh_sampled : sampled := match make_sampled triangles C89_samples as r return match r with Ok _ => sampled | Err _ => unit end with Ok m => m | Err _ => tt end.
Definition wh_tables : list (string * tabular_data) := ("huge"%string, mkTable ["POWER"%string; "FUEL"%string] [[qz 0; qz 50]; [qz 0; qz 5000]]) :: as_tables.
Definition wh_set : yaml_generator_set energy_usage_model :=
  mkYG "genset" None (TDDates (0, "small"%string) [(86400, "huge"%string)])
    [mkYE "base" (TDPlain (UDirect (as_power (INumber (qz 1)))));
     mkYE "table" (TDPlain (UTabulated cn_read));
     mkYE "pump" (TDPlain (UPump eq_pump));
     mkYE "pumps" (TDDates (86400, USystem sy_two) []);
     mkYE "compressor" (TDDates (86400, UCompressor (KElectric (KSampled wh_sampled)) (INumber (qz 3 + tiny)%Qc) (Some (INumber (qz 5))) None wh_common) [])].
Definition wh_site : yaml_installation energy_usage_model :=
  mkYI "site" (Some (TDPlain "gas"%string)) None None [wh_set]
    [mkYF "turbine" None (TDPlain (UCompressor (KTurbine wh_turbine 1%Qc 0%Qc (KTrain mc_train)) (INumber (qz 18000)) (Some (INumber (qz 30))) (Some (INumber (qz 33))) wh_common));
     mkYF "streams" None (TDDates (86400, UStreams (Some (wh_turbine, 1%Qc, 0%Qc)) mc_train [INumber (qz 18000)] (INumber (qz 30)) (INumber (qz 42)) None wh_common) []);
     mkYF "flare" None (TDPlain (UDirect (as_fuel (INumber (qz 5)))))] [].
Definition wh_seen (installations : list (yaml_installation energy_usage_model)) : result (list (list (option Q)) * (list (option Q) * option (list (option Q)) * option (list (option Q)))) :=
  do am <- map_model (fun x _ => x) as_vm as_run as_fuels wh_tables "asset" installations;
  do results <- evaluate_energy_usage (fun x _ => x) wh_usage as_vm as_run (mp_registered (snd am));
  do t <- report (fun x _ => x) as_vm (fst am) results;
  Ok (map (fun e => map (option_map this) (s_values (re_energy (snd e)))) results,
      (as_shows (r_values (Totals_Model.t_energy t)), option_map (fun r => as_shows (r_values r)) (Totals_Model.t_electrical t),
       option_map (fun r => as_shows (r_values r)) (Totals_Model.t_mechanical t))).
Lemma wh_written : forall i, In i [wh_site] -> installation_written as_periods i.
Proof.
  intros i [<-|[]]. split; [intros f E; injection E as <-; split; [exact I|intros e es; discriminate]|]. split.
  - intros g [<-|[]]. split; [split; [cbn; split; [lia|intros k [<-|[<-|[]]]; unfold DT_MAX; lia]|intros e es; discriminate]|].
    split; [intros t [<-|[<-|[]]]; intros p [<-|[<-|[<-|[]]]]; cbn; lia|]. split; [intros f E; discriminate|].
    intros c [<-|[<-|[<-|[<-|[<-|[]]]]]]; (split; [try exact I|intros e es; discriminate]); (split; [exact (conj I I)|intros k [<-|[]]; cbn [fst]; unfold DT_MAX; lia]).
  - intros c [<-|[<-|[<-|[]]]]; (split; [split; [try exact I|intros e es; discriminate]|]); try (intros f E; discriminate).
    split; [exact (conj I I)|intros k [<-|[]]; cbn [fst]; unfold DT_MAX; lia].
Qed.
Example C117_units_case :
  match wh_seen [wh_site] with Ok (l, _) => Some l | Err _ => None end =
    Some [[Some 1; Some 1; Some 1]; [Some (7 # 5); Some (8 # 5); Some (9 # 5)]; [Some (5 # 432); Some (5 # 288); Some (5 # 216)]; [Some 0; Some (5 # 192); Some (5 # 144)];
          [Some 0; Some 30; Some 30]; [Some (5209 # 1080); Some (470065 # 144); Some (354865 # 108)];
          [Some 108000; Some 108000; Some 108000]; [Some 0; Some 108000; Some 108000]; [Some 5; Some 5; Some 5]]%Q.
Proof. vm_compute. reflexivity. Qed.

(** C117: when the evaluation of an accepted text fails, a consumer fails by itself with the same error, or no consumer of a
    generator set runs. *)
Theorem C117_fails : forall np_pow nd closest np_std bump first rest vars vm target fuels tables name installations a mp e,
  let ps := first :: rest in
  make_variables_map ps vars = Ok vm -> run_setting ps target -> (forall i, In i installations -> installation_written ps i) ->
  map_model np_pow vm target fuels tables name installations = Ok (a, mp) ->
  evaluate_energy_usage np_pow (usage_of np_pow nd closest np_std bump) vm target (mp_registered mp) = Err e ->
  exists i, In i installations /\
    ((exists g c, In g (yi_generator_sets i) /\ In c (yg_consumers g) /\ fails_alone np_pow (usage_of np_pow nd closest np_std bump) vm target POWER i (ye_model c) e) \/
     (exists c, In c (yi_fuel_consumers i) /\ fails_alone np_pow (usage_of np_pow nd closest np_std bump) vm target FUEL i (yf_model c) e) \/
     (e = OtherError /\ exists g, In g (yi_generator_sets i) /\ forall c, In c (yg_consumers g) -> ~ in_run target (ye_model c))).
Proof. exact whole_fails_proof. Qed.
Print Assumptions C117_fails.

(** a pump whose discharge pressure is the lower one *)
Definition wh_wrong : yaml_installation energy_usage_model :=
  mkYI "wrong" (Some (TDPlain "gas"%string)) None None [mkYG "genset" None (TDPlain "large"%string) [mkYE "pump" (TDPlain (UPump eq_upside_down))]] [] [].
Definition wh_idle : yaml_installation energy_usage_model :=
  mkYI "idle" (Some (TDPlain "gas"%string)) None None
    [mkYG "genset" None (TDPlain "large"%string) [mkYE "later" (TDDates (500000, UDirect (as_power (INumber (qz 1)))) [])]] [] [].
Example C117_fails_case :
  match map_model (fun x _ => x) as_vm as_run as_fuels wh_tables "asset" [wh_site; wh_wrong], map_model (fun x _ => x) as_vm as_run as_fuels wh_tables "asset" [wh_site; wh_idle] with
  | Ok _, Ok _ => true | _, _ => false end = true /\
  wh_seen [wh_site; wh_wrong] = Err ValidationError /\ wh_seen [wh_site; wh_idle] = Err OtherError.
Proof. repeat split; vm_compute; reflexivity. Qed.

(** C117: the totals of an asset with any consumers are those of C114. *)
Theorem C117_totals : forall np_pow nd closest np_std bump first rest vars vm target fuels tables name installations a mp results,
  let ps := first :: rest in
  make_variables_map ps vars = Ok vm -> run_setting ps target -> (forall i, In i installations -> installation_written ps i) ->
  report_setting np_pow ps vars fuels installations ->
  map_model np_pow vm target fuels tables name installations = Ok (a, mp) ->
  evaluate_energy_usage np_pow (usage_of np_pow nd closest np_std bump) vm target (mp_registered mp) = Ok results ->
  exists g root below t, build (map fst (mp_registered mp)) = Ok g /\ get_root g = Ok root /\
    shows (mp_registered mp) g results root (Shown name None None below) /\
    Forall2 (installation_shown np_pow (usage_of np_pow nd closest np_std bump) vm target fuels tables) installations below /\
    report np_pow vm a results = Ok t /\ totals_reported np_pow ps vars vm target installations below t.
Proof. exact whole_totals_proof. Qed.
Print Assumptions C117_totals.

Lemma wh_report_setting : report_setting (fun x _ => x) as_periods as_vars as_fuels [wh_site].
Proof.
  destruct as_report_setting as (_ & B & C & _). split; [discriminate|]. split; [exact B|]. split; [exact C|]. intros i [<-|[]]. split.
  - intros data [E|[(y & [<-|[]] & E)|(y & [<-|[<-|[<-|[]]]] & E)]]; try discriminate E; injection E as <-; intros t I; destruct I.
  - intros y [].
Qed.
(** the fuel, the electrical power of what the generator set supplies and the mechanical power of the turbines *)
Example C117_totals_case : make_variables_map as_periods as_vars = Ok as_vm /\ run_setting as_periods as_run /\
  (forall i, In i [wh_site] -> installation_written as_periods i) /\ report_setting (fun x _ => x) as_periods as_vars as_fuels [wh_site] /\
  match wh_seen [wh_site] with Ok (_, t) => Some t | Err _ => None end =
    Some ([Some (116650609 # 1080); Some (31574785 # 144); Some (23683405 # 108)], Some [Some (5209 # 2160); Some (94013 # 2880); Some (70973 # 2160)],
          Some [Some (3007 # 3000); Some (6031 # 3000); Some (6031 # 3000)])%Q.
Proof. split; [reflexivity|]. split; [exact as_setting|]. split; [exact wh_written|]. split; [exact wh_report_setting|]. vm_compute. reflexivity. Qed.

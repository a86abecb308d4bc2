(** C112 and C113: a whole model, from its text to the results of its components. *)
From Coq Require Import PeanoNat String.
From Verif Require Import QcTac Num Base BaseLemmas Time_Model Time_Spec Time_Proofs Expr_Model Expr_Spec Vars_Model Units_Model Rates_Model Input_Model Interp_Model Energy_Model Emitters_Model
  Consumer_Model Graph_Model Asset_Model Asset_Spec Asset_Proofs5 Asset_Proofs6 Asset_Proofs7.
Local Open Scope list_scope.
Local Open Scope Z_scope.

(** C112: the energy model of an accepted text has one root, the asset, and below it the installations, their generator
    sets, consumers and venting emitters as they are written (those that run); each consumer has the result it has by
    itself, each generator set the result of its tables at the sum of the powers of its consumers, each user of fuel the
    fuel written for it.  When the evaluation fails, a consumer that runs fails by itself with the same error, or the
    consumers of a generator set have no power. *)
Theorem C112_model : forall M np_pow (usage : energy_usage_type -> M -> list Qc -> variables_map -> result function_result)
    first rest vars vm target fuels tables name installations a mp,
  let ps := first :: rest in
  make_variables_map ps vars = Ok vm -> run_setting ps target -> (forall i, In i installations -> installation_written ps i) ->
  map_model np_pow vm target fuels tables name installations = Ok (a, mp) ->
  exists g root, build (map fst (mp_registered mp)) = Ok g /\ get_root g = Ok root /\
    match evaluate_energy_usage np_pow usage vm target (mp_registered mp) with
    | Ok results => exists below, shows (mp_registered mp) g results root (Shown name None None below) /\
        Forall2 (installation_shown np_pow usage vm target fuels tables) installations below
    | Err e => exists i, In i installations /\ fails np_pow usage vm target i e
    end.
Proof. exact asset_proof. Qed.
Print Assumptions C112_model.

Definition as_periods : list period := [mkPeriod 0 86400; mkPeriod 86400 172800; mkPeriod 172800 259200].
Definition as_vars : variables_dict := [("x"%string, [qz 4; qz 6; qz 8]); ("on"%string, [qz 1; qz 1; qz 0])].
Definition as_vm : variables_map := mkVM as_periods [0; 86400; 172800; 259200] as_vars.
Definition as_run : period := mkPeriod 0 259200.
Definition as_power (value : expression_input) : direct_model := mkDirect POWER value None (mkCommon None None None).
Definition as_fuel (value : expression_input) : direct_model := mkDirect FUEL value None (mkCommon None None None).
Definition as_table : tabular_data := mkTable ["POWER"%string; "FUEL"%string] [[qz 0; qz 10; qz 20]; [qz 0; qz 100; qz 400]].
Definition as_small : tabular_data := mkTable ["POWER"%string; "FUEL"%string] [[qz 0; qz 5]; [qz 0; qz 10]].
Definition as_tables : list (string * tabular_data) := [("large"%string, as_table); ("small"%string, as_small)].
Definition as_fuels : list (string * fuel_type) :=
  [("gas"%string, [make_emission "CO2" [TNum (qz 2000)]]); ("diesel"%string, [make_emission "CO2" [TRef "x"]; make_emission "NOX" [TNum (qz 500)]])].
(** two consumers run, the third only after the run *)
Definition as_set : yaml_generator_set direct_model :=
  mkYG "genset" None (TDDates (0, "small"%string) [(86400, "large"%string)])
    [mkYE "base" (TDPlain (as_power (INumber (qz 4)))); mkYE "load" (TDDates (86400, as_power (IText [TRef "x"])) [(172800, as_power (INumber (qz 7)))]);
     mkYE "later" (TDDates (500000, as_power (INumber (qz 1))) [])].
Definition as_site : yaml_installation direct_model :=
  mkYI "site" (Some (TDPlain "gas"%string)) (Some (TDPlain (INumber (qc 1 2)))) (Some (TDPlain (IText [TRef "x"])))
    [as_set] [mkYF "flare" None (TDPlain (as_fuel (INumber (qz 5)))); mkYF "boiler" (Some (TDDates (0, "gas"%string) [(172800, "diesel"%string)])) (TDPlain (as_fuel (IText [TRef "x"])))]
    [mkYV "vent" (DirectEmitter [("CH4"%string, mkRateInput [TRef "x"] None KILO_PER_DAY STREAM_DAY)])].
Definition as_remote : yaml_installation direct_model :=
  mkYI "remote" (Some (TDPlain "diesel"%string)) None None [] [mkYF "engine" None (TDPlain (as_fuel (INumber (qz 1))))] [].
(** what is seen of the results, in the order of the identities *)
Definition as_seen (r : result (asset direct_model * mapping direct_model)) : option (list (list (option Q) * list bool)) :=
  match r with
  | Ok (_, mp) =>
      match evaluate_energy_usage (fun x _ => x) (direct_evaluate (fun x _ => x)) as_vm as_run (mp_registered mp) with
      | Ok results => Some (map (fun e => (map (option_map this) (s_values (re_energy (snd e))), s_values (re_valid (snd e)))) results)
      | Err _ => None
      end
  | Err _ => None
  end.
Definition as_names (r : result (asset direct_model * mapping direct_model)) : list string :=
  match r with Ok (_, mp) => map (fun e => get_name (snd e)) (mp_registered mp) | Err _ => [] end.
Lemma as_setting : run_setting as_periods as_run.
Proof.
  split; [cbn; unfold nonempty; cbn; lia|]. split; [unfold nonempty; cbn; lia|]. split; [cbn; unfold DT_MAX; lia|].
  split; intros p [<-|[<-|[<-|[]]]]; cbn; lia.
Qed.
Lemma as_written : forall i, In i [as_site; as_remote] -> installation_written as_periods i.
Proof.
  intros i [<-|[<-|[]]]; (split; [intros f E; injection E as <-; split; [exact I|intros e es; discriminate]|]); split.
  - intros g [<-|[]]. split; [split; [cbn; split; [lia|intros k [<-|[<-|[]]]; unfold DT_MAX; lia]|intros e es; discriminate]|].
    split; [intros t [<-|[<-|[]]]; intros p [<-|[<-|[<-|[]]]]; cbn; lia|]. split; [intros f E; discriminate|].
    intros c [<-|[<-|[<-|[]]]]; (split; [cbn; try exact I|intros e es; discriminate]).
    + split; [lia|intros k [<-|[<-|[]]]; unfold DT_MAX; lia].
    + split; [exact (conj I I)|intros k [<-|[]]; unfold DT_MAX; lia].
  - intros c [<-|[<-|[]]]; (split; [split; [exact I|intros e es; discriminate]|]); intros f E; [discriminate|]. injection E as <-.
    split; [cbn; split; [lia|intros k [<-|[<-|[]]]; unfold DT_MAX; lia]|intros e es; discriminate].
  - intros g [].
  - intros c [<-|[]]. split; [split; [exact I|intros e es; discriminate]|]. intros f E; discriminate.
Qed.
(** the set needs 4, 10 and 11 MW: 8 from the small table, 100 and 130 from the large one *)
Example C112_model_case : make_variables_map as_periods as_vars = Ok as_vm /\ run_setting as_periods as_run /\
  (forall i, In i [as_site; as_remote] -> installation_written as_periods i) /\
  as_names (map_model (fun x _ => x) as_vm as_run as_fuels as_tables "asset" [as_site; as_remote]) =
    ["base"; "load"; "genset"; "flare"; "boiler"; "vent"; "site"; "engine"; "remote"; "asset"]%string /\
  as_seen (map_model (fun x _ => x) as_vm as_run as_fuels as_tables "asset" [as_site; as_remote]) =
    Some (map (fun v => (map (fun x => Some (this (qz x))) v, [true; true; true])) [[4; 4; 4]; [0; 6; 7]; [8; 100; 130]; [5; 5; 5]; [4; 6; 8]; [1; 1; 1]]).
Proof. split; [reflexivity|]. split; [exact as_setting|]. split; [exact as_written|]. split; vm_compute; reflexivity. Qed.
(** the evaluation fails: the only consumer of the set runs after the run *)
Definition as_idle : yaml_installation direct_model :=
  mkYI "idle" (Some (TDPlain "gas"%string)) None None
    [mkYG "genset" None (TDPlain "large"%string) [mkYE "later" (TDDates (500000, as_power (INumber (qz 1))) [])]] [] [].
Example C112_fails_case :
  match map_model (fun x _ => x) as_vm as_run as_fuels as_tables "asset" [as_idle] with
  | Ok (_, mp) => match evaluate_energy_usage (fun x _ => x) (direct_evaluate (fun x _ => x)) as_vm as_run (mp_registered mp) with Err OtherError => true | _ => false end
  | Err _ => false
  end = true.
Proof. vm_compute. reflexivity. Qed.

(** C113: which texts are accepted. *)
Theorem C113_accepted : forall M np_pow ps vm target fuels tables name (installations : list (yaml_installation M)),
  run_setting ps target -> (forall i, In i installations -> installation_written ps i) ->
  (exists a mp, map_model np_pow vm target fuels tables name installations = Ok (a, mp)) <->
  (forall i, In i installations -> installation_accepted np_pow vm target fuels tables i).
Proof. exact accepted_proof. Qed.
Print Assumptions C113_accepted.

(** C113: a generator set whose tables apply only outside the run is refused, not left out as a consumer is, and with
    IndexError instead of a message that says what is wrong. *)
Theorem C113_outside_refuted : ~ (forall (M : Type) np_pow ps vm target fuels tables name (installations : list (yaml_installation M)) e,
       run_setting ps target -> (forall i, In i installations -> installation_written ps i) ->
       map_model np_pow vm target fuels tables name installations = Err e -> e = ValidationError).
Proof. exact outside_refuted_proof. Qed.
Print Assumptions C113_outside_refuted.

Example C113_accepted_case : run_setting as_periods as_run /\ (forall i, In i [as_site; as_remote] -> installation_written as_periods i) /\
  (exists a mp, map_model (fun x _ => x) as_vm as_run as_fuels as_tables "asset" [as_site; as_remote] = Ok (a, mp)) /\
  (* a fuel that is not there at all times, an unknown table, a fuel nobody knows *)
  (forall i, In i [mkYI "i" None None None [] [mkYF "flare" (Some (TDDates (86400, "gas"%string) [])) (TDPlain (as_fuel (INumber (qz 5))))] [];
                   mkYI "i" (Some (TDPlain "gas"%string)) None None [mkYG "set" None (TDPlain "other"%string) []] [] [];
                   mkYI "i" (Some (TDPlain "peat"%string)) None None [] [mkYF "flare" None (TDPlain (as_fuel (INumber (qz 5))))] [];
                   mkYI "i" None None None [] [mkYF "flare" None (TDPlain (as_fuel (INumber (qz 5))))] []] ->
     match map_model (fun x _ => x) as_vm as_run as_fuels as_tables "asset" [as_site; i] with Ok _ => False | Err _ => True end).
Proof.
  split; [exact as_setting|]. split; [exact as_written|]. split.
  - destruct (map_model (fun x _ => x) as_vm as_run as_fuels as_tables "asset" [as_site; as_remote]) as [[a mp]|e] eqn:E; [exists a, mp; reflexivity|].
    assert (X : match map_model (fun x _ => x) as_vm as_run as_fuels as_tables "asset" [as_site; as_remote] with Ok _ => true | Err _ => false end = true) by (vm_compute; reflexivity).
    rewrite E in X. discriminate X.
  - intros i [<-|[<-|[<-|[<-|[]]]]]; vm_compute; exact I.
Qed.

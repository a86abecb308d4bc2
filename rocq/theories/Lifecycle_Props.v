(** C115: repeated calls on one model. *)
From Coq Require Import PeanoNat String.
From Verif Require Import QcTac Num Base BaseLemmas Time_Model Time_Spec Time_Proofs Expr_Model Expr_Spec Vars_Model Units_Model Rates_Model Input_Model Interp_Model Energy_Model Emitters_Model
  Consumer_Model Graph_Model Asset_Model Asset_Props Lifecycle_Model Lifecycle_Spec Lifecycle_Proofs3.
Local Open Scope list_scope.
Local Open Scope Z_scope.

(** C115: a text that is accepted: whatever has been called before, in any order and any number of times, validation
    succeeds, the periods and the energy model are those of the text, evaluating succeeds or fails as it does on a fresh
    model, and once it has been called the results are those of a fresh model. *)
Theorem C115_accepted : forall M np_pow (usage : energy_usage_type -> M -> list Qc -> variables_map -> result function_result)
    vm target fuels tables name installations a mp h,
  map_model np_pow vm target fuels tables name installations = Ok (a, mp) ->
  let answer := answer_after np_pow usage target fuels tables name installations (Ok tt) (Ok vm) h in
  answer ValidateForRun = Ok Done /\ answer GetPeriods = Ok (Periods (vm_periods vm)) /\
  (exists g, build (map fst (mp_registered mp)) = Ok g /\ answer GetEnergyModel = Ok (Model g (mp_registered mp))) /\
  (~ In EvaluateEnergyUsage h -> forall id, answer (GetContainerResult id) = Err KeyError) /\
  match evaluate_energy_usage np_pow usage vm target (mp_registered mp) with
  | Ok results => answer EvaluateEnergyUsage = Ok Done /\
      (In EvaluateEnergyUsage h -> forall id, answer (GetContainerResult id) = do r <- get_container_result results id; Ok (Result r))
  | Err e => answer EvaluateEnergyUsage = Err e
  end.
Proof. exact lifecycle_accepted_proof. Qed.
Print Assumptions C115_accepted.

(** what is seen of the result of the generator set *)
Definition lc_energy (r : result (answer direct_model)) : option (list (option Q)) :=
  match r with Ok (Result r) => Some (map (option_map this) (s_values (re_energy r))) | _ => None end.
Example C115_accepted_case :
  (exists a mp, map_model (fun x _ => x) as_vm as_run as_fuels as_tables "asset" [as_site; as_remote] = Ok (a, mp)) /\
  let answer := answer_after (fun x _ => x) (direct_evaluate (fun x _ => x)) as_run as_fuels as_tables "asset" [as_site; as_remote] (Ok tt) (Ok as_vm) in
  let ids := map NUuid [0; 1; 2; 3; 4; 5; 6; 7]%nat in
  map (fun id => lc_energy (answer [] (GetContainerResult id))) ids = map (fun _ => None) ids /\
  map (fun id => lc_energy (answer [EvaluateEnergyUsage; GetPeriods; GetEnergyModel; EvaluateEnergyUsage; ValidateForRun] (GetContainerResult id))) ids =
  map (fun id => lc_energy (answer [EvaluateEnergyUsage] (GetContainerResult id))) ids /\
  existsb (fun id => match lc_energy (answer [EvaluateEnergyUsage] (GetContainerResult id)) with
                     | Some [Some x; Some y; Some z] => Qeq_bool x 8 && Qeq_bool y 100 && Qeq_bool z 130 | _ => false end)%bool ids = true.
Proof. split; [exact (proj1 (proj2 (proj2 C113_accepted_case)))|]. split; [|split]; vm_compute; reflexivity. Qed.

(** C115: a text whose resources, configuration, time or variables are refused is refused by every call, with the same
    error, whatever has been called before. *)
Theorem C115_refused_early : forall M np_pow (usage : energy_usage_type -> M -> list Qc -> variables_map -> result function_result)
    target fuels tables name installations checks variables e h,
  checks = Err e \/ (checks = Ok tt /\ variables = Err e) ->
  let answer := answer_after np_pow usage target fuels tables name installations checks variables h in
  (forall c, needs_model c -> answer c = Err e) /\ forall id, answer (GetContainerResult id) = Err KeyError.
Proof. exact lifecycle_early_proof. Qed.
Print Assumptions C115_refused_early.

Example C115_refused_early_case :
  let answer := answer_after (fun x _ => x) (direct_evaluate (fun x _ => x)) as_run as_fuels as_tables "asset" [as_site] (Ok tt) (Err ValueError) in
  answer [ValidateForRun; EvaluateEnergyUsage; GetContainerResult (NUuid 3)] GetEnergyModel = Err ValueError.
Proof. reflexivity. Qed.

(** C115: a text whose components are refused is refused by the first call.  Afterwards validation succeeds and there are
    never results: the energy model is either refused (ValueError) every time, or empty. *)
Theorem C115_refused_late : forall M np_pow (usage : energy_usage_type -> M -> list Qc -> variables_map -> result function_result)
    vm target fuels tables name installations e,
  map_model np_pow vm target fuels tables name installations = Err e ->
  let answer := answer_after np_pow usage target fuels tables name installations (Ok tt) (Ok vm) in
  (forall h c, ~ used h -> needs_model c -> answer h c = Err e) /\
  (forall h id, answer h (GetContainerResult id) = Err KeyError) /\
  (forall h, used h -> answer h ValidateForRun = Ok Done /\ answer h GetPeriods = Ok (Periods (vm_periods vm))) /\
  ((forall h, used h -> answer h GetEnergyModel = Err ValueError /\ answer h EvaluateEnergyUsage = Err ValueError) \/
   (forall h, used h -> answer h GetEnergyModel = Ok (Model empty_graph []) /\ answer h EvaluateEnergyUsage = Ok Done)).
Proof. exact lifecycle_late_proof. Qed.
Print Assumptions C115_refused_late.

(** an installation is complete before the one that is refused: no energy model; nothing is complete: an empty one *)
Definition lc_unknown : yaml_installation direct_model :=
  mkYI "other" (Some (TDPlain "peat"%string)) None None [] [mkYF "flare" None (TDPlain (as_fuel (INumber (qz 5))))] [].
Example C115_refused_late_case :
  match map_model (fun x _ => x) as_vm as_run as_fuels as_tables "asset" [as_site; lc_unknown] with Err ValidationError => true | _ => false end = true /\
  match map_model (fun x _ => x) as_vm as_run as_fuels as_tables "asset" [lc_unknown; as_site] with Err ValidationError => true | _ => false end = true /\
  (let answer := answer_after (fun x _ => x) (direct_evaluate (fun x _ => x)) as_run as_fuels as_tables "asset" [as_site; lc_unknown] (Ok tt) (Ok as_vm) in
   answer [GetPeriods] ValidateForRun = Ok Done /\ answer [ValidateForRun] GetEnergyModel = Err ValueError) /\
  (let answer := answer_after (fun x _ => x) (direct_evaluate (fun x _ => x)) as_run as_fuels as_tables "asset" [lc_unknown; as_site] (Ok tt) (Ok as_vm) in
   answer [ValidateForRun] EvaluateEnergyUsage = Ok Done /\ answer [ValidateForRun; EvaluateEnergyUsage] (GetContainerResult (NUuid 3)) = Err KeyError).
Proof. repeat split; vm_compute; reflexivity. Qed.

(** C115: a text that is refused is not refused again: validate_for_run marks the model as validated before its
    components are mapped, so the second call, and evaluating after it, report no error. *)
Theorem C115_again_refuted : ~ (forall vm target fuels tables name (installations : list (yaml_installation direct_model)) e h,
  map_model (fun x _ => x) vm target fuels tables name installations = Err e ->
  answer_after (fun x _ => x) (direct_evaluate (fun x _ => x)) target fuels tables name installations (Ok tt) (Ok vm) h ValidateForRun = Err e /\
  answer_after (fun x _ => x) (direct_evaluate (fun x _ => x)) target fuels tables name installations (Ok tt) (Ok vm) h EvaluateEnergyUsage = Err e).
Proof. exact lifecycle_again_refuted_proof. Qed.
Print Assumptions C115_again_refuted.

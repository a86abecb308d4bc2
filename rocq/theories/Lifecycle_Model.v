(** Model of YamlModel as an object: what its methods do one after the other (presentation/yaml/model.py). *)
From Coq Require Import PeanoNat String.
From Verif Require Import QcTac Base Num Time_Model Expr_Model Vars_Model Units_Model Rates_Model Input_Model Interp_Model
  Energy_Model Emitters_Model Consumer_Model Graph_Model Asset_Model.
Local Open Scope list_scope.

(** 137-156, the attributes that change: _is_validated, _variables (with _global_periods), _mapping_context, _input,
    the cached property _energy_model, _consumer_results *)
Record yaml_model (M : Type) : Type := mkYM {
  ym_validated : bool; ym_variables : option variables_map; ym_mapping : mapping M; ym_input : option (asset M);
  ym_energy_model : option graph; ym_results : list (node_id * component_result) }.
Arguments mkYM {M}. Arguments ym_validated {M}. Arguments ym_variables {M}. Arguments ym_mapping {M}. Arguments ym_input {M}.
Arguments ym_energy_model {M}. Arguments ym_results {M}.
(** __init__; the id of the model is the first id *)
Definition new_model {M} : yaml_model M := mkYM false None (mkMapping 1 []) None None [].

(** the methods, and what they return *)
Inductive call : Type :=
| ValidateForRun | GetPeriods | GetEnergyModel | EvaluateEnergyUsage | GetContainerResult (id : node_id).
Inductive answer (M : Type) : Type :=
| Done | Periods (ps : list period) | Model (g : graph) (containers : list (node_id * option node_id * component M)) | Result (r : component_result).
Arguments Done {M}. Arguments Periods {M}. Arguments Model {M}. Arguments Result {M}.

Section Methods.
  Context {M : Type}.
  Variable np_pow : Qc -> Qc -> Qc.
  Variable usage : energy_usage_type -> M -> list Qc -> variables_map -> result function_result.
  Variable target : period.
  Variable fuels : list (string * fuel_type).
  Variable tables : list (string * tabular_data).
  Variable name : string.
  Variable installations : list (yaml_installation M).
  (** 369-409, reading the resources, the time series and validating the configuration; 411-416, the periods and the
      variables.  The text and the resources do not change, so these have the same outcome every time. *)
  Variable checks : result unit.
  Variable variables : result variables_map.

  (** 365-444, validate_for_run: _is_validated is set before the components are mapped *)
  Definition validate_for_run (st : yaml_model M) : result unit * yaml_model M :=
    if ym_validated st then (Ok tt, st)
    else
      match checks with
      | Err e => (Err e, st)
      | Ok _ =>
          match variables with
          | Err e => (Err e, st)
          | Ok vm =>
              match map_asset np_pow vm target fuels tables (NUuid 0) name installations (ym_mapping st) with
              | inl (a, mp) => (Ok tt, mkYM true (Some vm) mp (Some a) (ym_energy_model st) (ym_results st))
              | inr (e, mp) => (Err e, mkYM true (Some vm) mp (ym_input st) (ym_energy_model st) (ym_results st))
              end
          end
      end.

  (** 204-209, get_periods; an attribute that is not there is an AttributeError *)
  Definition get_periods (st : yaml_model M) : result (list period) * yaml_model M :=
    match validate_for_run st with
    | (Ok _, st) => (do vm <- of_option OtherError (ym_variables st); Ok (vm_periods vm), st)
    | (Err e, st) => (Err e, st)
    end.

  (** 250-256, _energy_model and get_energy_model: a property that is kept once it has been computed *)
  Definition get_energy_model (st : yaml_model M) : result graph * yaml_model M :=
    match ym_energy_model st with
    | Some g => (Ok g, st)
    | None =>
        match validate_for_run st with
        | (Err e, st) => (Err e, st)
        | (Ok _, st) =>
            match build (map fst (mp_registered (ym_mapping st))) with
            | Ok g => (Ok g, mkYM (ym_validated st) (ym_variables st) (ym_mapping st) (ym_input st) (Some g) (ym_results st))
            | Err e => (Err e, st)
            end
        end
    end.

  (** 469-482, the loop of evaluate_energy_usage: the results stay where they are when a component fails.  (The code
      evaluates pumps and compressors before the loop: when one of them fails no result is stored.) *)
  Fixpoint evaluate_kept (vm : variables_map) (l : list (node_id * option node_id * component M)) (g : graph) (ids : list node_id)
      (results : list (node_id * component_result)) : result unit * list (node_id * component_result) :=
    match ids with
    | [] => (Ok tt, results)
    | id :: rest =>
        match (do c <- get_energy_container l id; do r <- evaluate_component np_pow usage vm target g results c; Ok (c, r)) with
        | Err e => (Err e, results)
        | Ok (c, r) => evaluate_kept vm l g rest (match r with Some r => dict_set node_eqb (get_id c) r results | None => results end)
        end
    end.
  (** 453-482, evaluate_energy_usage; 337-341, variables *)
  Definition evaluate_model (st : yaml_model M) : result unit * yaml_model M :=
    match get_energy_model st with
    | (Err e, st) => (Err e, st)
    | (Ok g, st) =>
        match ym_variables st with
        | None => (Err AssertionError, st)
        | Some vm =>
            let (r, results) := evaluate_kept vm (mp_registered (ym_mapping st)) g (get_energy_containers g) (ym_results st) in
            (r, mkYM (ym_validated st) (ym_variables st) (ym_mapping st) (ym_input st) (ym_energy_model st) results)
        end
    end.

  Definition do_call (c : call) (st : yaml_model M) : result (answer M) * yaml_model M :=
    match c with
    | ValidateForRun => let (r, st) := validate_for_run st in (do _ <- r; Ok Done, st)
    | GetPeriods => let (r, st) := get_periods st in (do ps <- r; Ok (Periods ps), st)
    | GetEnergyModel => let (r, st) := get_energy_model st in (do g <- r; Ok (Model g (mp_registered (ym_mapping st))), st)
    | EvaluateEnergyUsage => let (r, st) := evaluate_model st in (do _ <- r; Ok Done, st)
    | GetContainerResult id => (do r <- get_container_result (ym_results st) id; Ok (Result r), st)
    end.
  Fixpoint do_calls (cs : list call) (st : yaml_model M) : yaml_model M :=
    match cs with [] => st | c :: cs => do_calls cs (snd (do_call c st)) end.
  (** what the call [c] returns on a model on which [before] has been called *)
  Definition answer_after (before : list call) (c : call) : result (answer M) := fst (do_call c (do_calls before new_model)).
End Methods.

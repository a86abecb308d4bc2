(** Model of src/libecalc/presentation/yaml/energy_model_validation.py: the types of the energy usage models of a consumer over time. *)
From Coq Require Import PeanoNat String.
From Verif Require Import Base.
Local Open Scope list_scope.

(** a model, or a dict from times to models; a model by its type *)
Inductive energy_usage_model : Type := Single (type : string) | OverTime (models : list (Z * string)).
(** 14-18, the loop *)
Fixpoint collect_types (models : list (Z * string)) (types : list string) : list string :=
  match models with
  | [] => types
  | (_, t) :: rest => collect_types rest (if existsb (String.eqb t) types then types else types ++ [t])
  end.
(** 9-25, validate_energy_usage_models; the ValueError by the types it lists *)
Definition validate_energy_usage_models (model : energy_usage_model) : option (list string) :=
  match model with
  | Single _ => None
  | OverTime models => let types := collect_types models [] in if Nat.ltb 1 (List.length types) then Some types else None
  end.

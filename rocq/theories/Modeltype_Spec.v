(** Vocabulary for the types of energy usage models. *)
From Coq Require Import PeanoNat String.
From Verif Require Import Base Modeltype_Model.
Local Open Scope list_scope.

(** the model has the type [t] at some time *)
Definition has_type (model : energy_usage_model) (t : string) : Prop := match model with Single s => t = s | OverTime models => exists time, In (time, t) models end.

(** Property C155: the type of the energy usage model of a consumer does not change. *)
From Coq Require Import PeanoNat String.
From Verif Require Import Base Modeltype_Model Modeltype_Spec Modeltype_Proofs.
Local Open Scope list_scope.

(** A consumer is accepted exactly when its model has the same type at all times. *)
Theorem C155_accepted : forall model, validate_energy_usage_models model = None <-> forall t t', has_type model t -> has_type model t' -> t = t'.
Proof. exact accepted_same_type. Qed.
Print Assumptions C155_accepted.

(** The error lists the types that occur, each once, and at least two. *)
Theorem C155_listed : forall model types, validate_energy_usage_models model = Some types -> NoDup types /\ (2 <= List.length types)%nat /\ forall t, In t types <-> has_type model t.
Proof. exact types_listed. Qed.
Print Assumptions C155_listed.

(** ** Cases *)
Example C155_case : validate_energy_usage_models (OverTime [(1, "DIRECT"); (2, "DIRECT")]%Z%string) = None /\ validate_energy_usage_models (Single "PUMP") = None /\ validate_energy_usage_models (OverTime []) = None /\
  validate_energy_usage_models (OverTime [(1, "DIRECT"); (2, "PUMP"); (3, "DIRECT"); (4, "COMPRESSOR")]%Z%string) = Some ["DIRECT"; "PUMP"; "COMPRESSOR"]%string.
Proof. repeat split. Qed.

(** Vocabulary for the histories of the service for NeqSim. *)
From Coq Require Import PeanoNat.
From Verif Require Import Base Gateway_Model.
Local Open Scope list_scope.

(** no Java process fails to close *)
Definition closes_well (op : operation) : Prop := match op with Shutdown _ closes | Exit _ closes => closes = true | _ => True end.
(** the service [s] is in use: it is the current one, and its Java process runs if it has one of its own *)
Definition alive (st : state) (s : service) : Prop := current st = Some s /\ match s with Py4J n => In n (running st) | JPype => True end.

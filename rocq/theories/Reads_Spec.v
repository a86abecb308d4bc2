(** What C143 says: reads that do not disturb each other. *)
From Coq Require Import String.
From Verif Require Import Base Document_Model Reads_Model.
Local Open Scope list_scope.

(** No include at or below the node. *)
Inductive has_include : raw -> Prop :=
| include_here name : has_include (RInclude name)
| include_value m entries k v : In (k, v) entries -> has_include v -> has_include (RMap m entries)
| include_item items v : In v items -> has_include v -> has_include (RSeq items).
(** The read is allowed to include files of a directory. *)
Definition includes_from (c : read_call) (d : directory) : Prop := rc_enable c = true /\ rc_base c = Some d.

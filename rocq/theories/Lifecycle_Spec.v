(** Vocabulary for C115. *)
From Coq Require Import String.
From Verif Require Import QcTac Base Num Time_Model Graph_Model Asset_Model Lifecycle_Model.
Local Open Scope list_scope.

(** the calls that need a valid model: all but asking for a result *)
Definition needs_model (c : call) : Prop := match c with GetContainerResult _ => False | _ => True end.
(** something that needs a valid model has been called *)
Definition used (h : list call) : Prop := exists c, In c h /\ needs_model c.

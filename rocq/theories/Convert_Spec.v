(** Vocabulary for expressions that change at dates. *)
From Coq Require Import PeanoNat Sorted.
From Verif Require Import Base Time_Model.
Local Open Scope list_scope.

(** [t] is in the period [p] *)
Definition during (p : period) (t : datetime) : Prop := p_start p <= t < p_end p.
(** [r] is given at the last date that is not after [t] *)
Definition in_force {raw} (items : list (datetime * raw)) (t : datetime) (r : raw) : Prop :=
  exists d, In (d, r) items /\ d <= t /\ forall d' r', In (d', r') items -> d' <= t -> d' <= d.
Definition in_order {raw} (items : list (datetime * raw)) : Prop := StronglySorted Z.lt (map fst items).

(** Vocabulary for the difference of two dicts. *)
From Coq Require Import PeanoNat QArith.Qcanon.
From Verif Require Import Base.
Local Open Scope list_scope.

(** a dict has each key once *)
Definition dict {K V} (d : list (K * V)) : Prop := NoDup (map fst d).
Definition same_keys {K V} (d d' : list (K * V)) : Prop := forall k, In k (map fst d) <-> In k (map fst d').

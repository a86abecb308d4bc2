(** Vocabulary for power from shore. *)
From Coq Require Import PeanoNat.
From Verif Require Import QcTac Base Time_Model Shore_Model.
Local Open Scope list_scope.

(** the categories that a generator set is given, at any time *)
Definition has_category (d : temporal_data category) (c : category) : Prop :=
  match d with
  | TDPlain x => c = x
  | TDDates x rest => exists t, In (t, c) (x :: rest)
  | TDPeriods x rest => exists p, In (p, c) (x :: rest)
  end.

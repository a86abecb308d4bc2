(** Vocabulary for the files of a model. *)
From Coq Require Import PeanoNat String.
From Verif Require Import Base Sources_Model.
Local Open Scope list_scope.

(** the file with this name is a text that can, or cannot, be read as a resource *)
Definition good {text R problem} (disk : string -> file text) (parse : text -> R + problem) (n : string) (r : R) : Prop :=
  exists t, disk n = FileText t /\ parse t = inl r.
Definition broken {text R problem} (disk : string -> file text) (parse : text -> R + problem) (n : string) (p : problem) : Prop :=
  exists t, disk n = FileText t /\ parse t = inr p.
(** one report for each time a broken file is named, in that order *)
Inductive reported {text R problem} (disk : string -> file text) (parse : text -> R + problem) : list string -> list (string * problem) -> Prop :=
| reported_none : reported disk parse [] []
| reported_broken : forall n p names reports, broken disk parse n p -> reported disk parse names reports -> reported disk parse (n :: names) ((n, p) :: reports)
| reported_other : forall n names reports, (forall p, ~ broken disk parse n p) -> reported disk parse names reports -> reported disk parse (n :: names) reports.
(** how a file with time series is read *)
Definition series_reader {text resource series problem : Type} (from_string : bool -> text -> resource + problem) (to_series : resource -> series + problem) (t : text) : series + problem :=
  match from_string true t with inl r => to_series r | inr p => inr p end.

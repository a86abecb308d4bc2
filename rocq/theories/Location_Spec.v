(** Vocabulary for the places of errors. *)
From Coq Require Import PeanoNat String Ascii.
From Verif Require Import Base Location_Model.
Local Open Scope list_scope.

(** a character that separates keys *)
Definition separator (c : ascii) : Prop := c = "."%char \/ c = "["%char.
(** a date of the calendar has such a year, month and day *)
Definition proper_day (d : day) : Prop := (1000 <= d_year d < 100 * 100 /\ d_month d < 100 /\ d_day d < 100)%nat.
(** a name that is not empty, has no separator and is not the text of a date *)
Definition proper (k : key) : Prop :=
  match k with
  | Name s => s <> [] /\ (forall c, In c s -> ~ separator c) /\ forall d, proper_day d -> s <> date_to_string d
  | Position _ => True
  | Date d => proper_day d
  end.

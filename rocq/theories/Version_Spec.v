(** Vocabulary for versions. *)
From Coq Require Import PeanoNat NArith Ascii.
From Verif Require Import Base Version_Model.
Local Open Scope list_scope.
Local Open Scope N_scope.

(** the character of a digit *)
Definition is_digit (c : ascii) (d : N) : Prop := d < 10 /\ N_of_ascii c = 48 + d.
(** the text is the number written with decimal digits (zeros may lead) *)
Inductive written : text -> N -> Prop :=
| written_digit : forall c d, is_digit c d -> written [c] d
| written_more : forall ds n c d, written ds n -> is_digit c d -> written (ds ++ [c]) (10 * n + d).
(** a further number after a dot, 0 if it is left out *)
Inductive further : text -> N -> Prop :=
| further_none : further [] 0
| further_number : forall ds n, written ds n -> further ("."%char :: ds) n.

(** the text is a version: perhaps a v, then one to three numbers with dots between them, perhaps a newline *)
Definition version_parts (t a b c : text) : Prop :=
  exists v newline, t = v ++ a ++ b ++ c ++ newline /\ (v = [] \/ v = ["v"%char] \/ v = ["V"%char]) /\ (newline = [] \/ newline = ["010"%char]) /\ (b = [] -> c = []).
Definition is_version (t : text) (v : version) : Prop :=
  exists a b c, version_parts t a b c /\ written a (major v) /\ further b (minor v) /\ further c (patch v).

(** the order of versions: the first number that differs decides *)
Definition older (v w : version) : Prop :=
  major v < major w \/ (major v = major w /\ minor v < minor w) \/ (major v = major w /\ minor v = minor w /\ patch v < patch w).

(** Model of Location in src/libecalc/presentation/yaml/validation_errors.py: how the place of an error is shown. *)
From Coq Require Import PeanoNat String Ascii DecimalString ZArith.
From Verif Require Import Base.
Local Open Scope list_scope.

Definition text : Type := list ascii.
Record day : Type := mkDay { d_year : nat; d_month : nat; d_day : nat }.
(** 30, the keys: names of fields, positions in lists, and dates *)
Inductive key : Type := Name (s : text) | Position (i : Z) | Date (d : day).

Definition digit (n : nat) : ascii := ascii_of_nat (48 + n).
Definition two_digits (n : nat) : text := [digit (n / 10); digit (n mod 10)].
(** 50-52, _date_to_string, for years of four digits *)
Definition date_to_string (d : day) : text := two_digits (d_year d / 100) ++ two_digits (d_year d mod 100) ++ ["-"%char] ++ two_digits (d_month d) ++ ["-"%char] ++ two_digits (d_day d).
(** str of an int *)
Definition show_int (i : Z) : text := list_ascii_of_string (NilEmpty.string_of_int (Z.to_int i)).

(** 35-48, as_dot_separated; [first] is i = 0 *)
Fixpoint path (first : bool) (keys : list key) : text :=
  match keys with
  | [] => []
  | Name s :: rest => (if first then [] else ["."%char]) ++ s ++ path false rest
  | Position i :: rest => ["["%char] ++ show_int i ++ ["]"%char] ++ path false rest
  | Date d :: rest => ["."%char] ++ date_to_string d ++ path false rest
  end.
Definition as_dot_separated (keys : list key) : text := path true keys.

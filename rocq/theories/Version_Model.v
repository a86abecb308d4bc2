(** Model of src/libecalc/common/version.py. *)
From Coq Require Import PeanoNat NArith Ascii.
From Verif Require Import Base.
Local Open Scope list_scope.
Local Open Scope N_scope.

(** Texts.  Simplified: characters are ASCII (in Python \d also matches the digits of other scripts). *)
Definition text := list ascii.
(** 10-24, Version.  Simplified: the numbers are not negative; from_string never makes a negative one. *)
Record version : Type := mkVersion { major : N; minor : N; patch : N }.
Definition zero_version : version := mkVersion 0 0 0.

(** \d *)
Definition digit_of (c : ascii) : option N :=
  let n := N_of_ascii c in if (48 <=? n) && (n <=? 57) then Some (n - 48) else None.
(** the digits at the start of a text, as many as there are *)
Fixpoint leading_digits (t : text) : text * text :=
  match t with
  | [] => ([], [])
  | c :: r => match digit_of c with Some _ => let (ds, rest) := leading_digits r in (c :: ds, rest) | None => ([], t) end
  end.
(** (\.\d+)? with the digits after the dot *)
Definition dotted (t : text) : option text * text :=
  match t with
  | c :: r => if Ascii.eqb c "."%char then match leading_digits r with ([], _) => (None, t) | (ds, rest) => (Some ds, rest) end else (None, t)
  | [] => (None, t)
  end.
(** $ is the end of the text or before a newline at the end *)
Definition at_end (t : text) : bool := match t with [] => true | [c] => Ascii.eqb c "010"%char | _ => false end.
(** 7 and 39-40: VERSION_FORMAT and pattern.match.  Backtracking never finds another match: what follows the digits is no digit. *)
Definition match_version (t : text) : option (text * option text * option text) :=
  match leading_digits t with
  | ([], _) => None
  | (a, r1) => let (b, r2) := dotted r1 in let (c, r3) := dotted r2 in if at_end r3 then Some (a, b, c) else None
  end.

(** int of a text of digits, and str of a number: Python refuses more than 4300 digits (sys.int_info.default_max_str_digits) *)
Definition max_digits : nat := 4300.
Definition number_of (ds : text) : N := fold_left (fun n c => 10 * n + match digit_of c with Some d => d | None => 0 end) ds 0.
Definition int_of (ds : text) : result N := if (max_digits <? List.length ds)%nat then Err ValueError else Ok (number_of ds).
Definition digit_char (d : N) : ascii := ascii_of_N (48 + d).
Fixpoint digits_of (fuel : nat) (n : N) : text :=
  match fuel with
  | O => [digit_char (n mod 10)]
  | S fuel => if n <? 10 then [digit_char n] else digits_of fuel (n / 10) ++ [digit_char (n mod 10)]
  end.
Definition str_of (n : N) : result text :=
  let ds := digits_of (N.size_nat n) n in if (max_digits <? List.length ds)%nat then Err ValueError else Ok ds.

(** 45-47 *)
Definition int_or_zero (g : option text) : result N := match g with Some ds => int_of ds | None => Ok 0 end.
(** 26-51, from_string (52-54 cannot be reached: there are always three groups) *)
Definition from_string (t : option text) : result version :=
  match t with
  | None => Ok zero_version
  | Some t =>
      let t := match t with c :: r => if Ascii.eqb c "v"%char || Ascii.eqb c "V"%char then r else t | [] => t end in
      match match_version t with
      | None => Ok zero_version
      | Some (a, b, c) => do x <- int_of a; do y <- int_or_zero b; do z <- int_or_zero c; Ok (mkVersion x y z)
      end
  end.
(** 56-57, __str__ *)
Definition to_string (v : version) : result text :=
  do a <- str_of (major v); do b <- str_of (minor v); do c <- str_of (patch v); Ok (a ++ "."%char :: b ++ "."%char :: c).

(** 62-101: the comparisons are those of the tuples *)
Definition compare (v w : version) : comparison :=
  match major v ?= major w with
  | Eq => match minor v ?= minor w with Eq => patch v ?= patch w | o => o end
  | o => o
  end.
Definition gt (v w : version) : bool := match compare v w with Gt => true | _ => false end.
Definition ge (v w : version) : bool := match compare v w with Lt => false | _ => true end.
Definition lt (v w : version) : bool := match compare v w with Lt => true | _ => false end.
Definition le (v w : version) : bool := match compare v w with Gt => false | _ => true end.
Definition eq (v w : version) : bool := match compare v w with Eq => true | _ => false end.
Definition ne (v w : version) : bool := match compare v w with Eq => false | _ => true end.

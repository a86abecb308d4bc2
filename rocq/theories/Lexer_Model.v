(** Model of reading and writing the text of an expression:
    src/libecalc/expression/expression_evaluator.py (lex, lexer) and
    src/libecalc/expression/expression.py (validate, _expression_as_number_if_number, __str__).

    Text is a list of ASCII characters.  Numbers are exact rationals: rounding to doubles, the
    overflow of huge literals to infinity and the literals "inf" and "nan" are not modelled. *)
From Coq Require Import Ascii String.
From Verif Require Import QcTac Base Expr_Model.
Local Open Scope char_scope.
Local Open Scope string_scope.
Local Open Scope list_scope.
Local Open Scope nat_scope.

Definition text : Type := list ascii.
Definition chars (s : string) : text := list_ascii_of_string s.

(** ** Character classes of the regular expressions (expression_evaluator.py:71-98) *)
Definition between (lo hi c : ascii) : bool :=
  Nat.leb (nat_of_ascii lo) (nat_of_ascii c) && Nat.leb (nat_of_ascii c) (nat_of_ascii hi).
Definition one_of (s : string) (c : ascii) : bool := existsb (Ascii.eqb c) (chars s).
Definition newline : ascii := ascii_of_nat 10.
Definition tab : ascii := ascii_of_nat 9.

(* [0-9] *)
Definition is_digit (c : ascii) : bool := between "0" "9" c.
(* [A-Za-z] *)
Definition is_letter (c : ascii) : bool := between "A" "Z" c || between "a" "z" c.
(* [ \n\t] *)
Definition is_blank (c : ascii) : bool := Ascii.eqb c " " || Ascii.eqb c newline || Ascii.eqb c tab.
(* [0-9.] *)
Definition is_number_char (c : ascii) : bool := is_digit c || Ascii.eqb c ".".
(* [A-Za-z0-9._;:+*/-] *)
Definition is_name_char (c : ascii) : bool := is_letter c || is_digit c || one_of "._;:+*/-" c.
(* [A-Za-z0-9_] *)
Definition is_var_char (c : ascii) : bool := is_letter c || is_digit c || Ascii.eqb c "_".

(** ** Regular expressions: what a pattern matches at the start of a text, and the rest *)
Definition matched : Type := option (text * text).

(** the longest prefix whose characters are all in the class ("class*", greedy) *)
Fixpoint take_while (p : ascii -> bool) (t : text) : text * text :=
  match t with
  | [] => ([], [])
  | c :: t' =>
      if p c then let r := take_while p t' in (c :: fst r, snd r) else ([], t)
  end.

(* "class+" *)
Definition match_plus (p : ascii -> bool) (t : text) : matched :=
  match take_while p t with
  | ([], _) => None
  | r => Some r
  end.

(* a fixed text *)
Fixpoint match_literal (l t : text) : matched :=
  match l, t with
  | [], _ => Some ([], t)
  | a :: l', c :: t' =>
      if Ascii.eqb a c then
        match match_literal l' t' with Some r => Some (c :: fst r, snd r) | None => None end
      else None
  | _ :: _, [] => None
  end.

(* one pattern after the other; none of the patterns used needs to give characters back *)
Definition match_then (m1 m2 : text -> matched) (t : text) : matched :=
  match m1 t with
  | Some (a, rest) => match m2 rest with Some (b, rest') => Some (a ++ b, rest') | None => None end
  | None => None
  end.
(* "(...)?" *)
Definition match_optional (m : text -> matched) (t : text) : matched :=
  match m t with Some r => Some r | None => Some ([], t) end.
(* one character of the class *)
Definition match_one (p : ascii -> bool) (t : text) : matched :=
  match t with c :: t' => if p c then Some ([c], t') else None | [] => None end.
(* "class*" *)
Definition match_star (p : ascii -> bool) (t : text) : matched := Some (take_while p t).

(* [0-9](\.[0-9]+)?e[-+]?[0-9]+ *)
Definition match_scientific : text -> matched :=
  match_then (match_one is_digit)
   (match_then (match_optional (match_then (match_literal (chars ".")) (match_plus is_digit)))
     (match_then (match_literal (chars "e"))
       (match_then (match_optional (match_one (one_of "-+"))) (match_plus is_digit)))).

(* [A-Za-z][A-Za-z0-9._;:+*/-]* *)
Definition match_name : text -> matched :=
  match_then (match_one is_letter) (match_star is_name_char).

(* \$var\.[A-Za-z][A-Za-z0-9_]* *)
Definition match_var : text -> matched :=
  match_then (match_literal (chars "$var."))
    (match_then (match_one is_letter) (match_star is_var_char)).

(* #[^\n]* *)
Definition match_comment : text -> matched :=
  match_then (match_literal (chars "#")) (match_star (fun c => negb (Ascii.eqb c newline))).

(** ** float(text) for decimal literals

    Python's float() and pydantic's conversion of text to float: surrounding white space is
    ignored, then an optional sign, digits (single underscores allowed between digits), an
    optional fraction and an optional exponent. *)
Definition is_space (c : ascii) : bool :=
  Ascii.eqb c " " || between (ascii_of_nat 9) (ascii_of_nat 13) c || between (ascii_of_nat 28) (ascii_of_nat 31) c.

Definition strip_left (t : text) : text := snd (take_while is_space t).
Definition strip (t : text) : text := rev (strip_left (rev (strip_left t))).

Definition digit_of (c : ascii) : Z := (Z.of_nat (nat_of_ascii c) - 48)%Z.

(** a run of digits with single underscores between them: its value and number of digits, and
    the rest of the text *)
Fixpoint read_digits (acc : Z) (count : nat) (t : text) : (Z * nat) * text :=
  match t with
  | c :: t' =>
      if is_digit c then read_digits (acc * 10 + digit_of c)%Z (S count) t'
      else if Ascii.eqb c "_" && Nat.ltb 0 count then
        match t' with
        | d :: _ => if is_digit d then read_digits acc count t' else ((acc, count), t)
        | [] => ((acc, count), t)
        end
      else ((acc, count), t)
  | [] => ((acc, count), t)
  end.

Definition power10 (n : nat) : Qc := qz (10 ^ Z.of_nat n).
Definition scale10 (e : Z) (v : Qc) : Qc :=
  if Z.leb 0 e then (v * power10 (Z.to_nat e))%Qc else (v / power10 (Z.to_nat (- e)))%Qc.

Definition read_sign (t : text) : bool * text :=
  match t with
  | c :: t' =>
      if Ascii.eqb c "-" then (true, t') else if Ascii.eqb c "+" then (false, t') else (false, t)
  | [] => (false, t)
  end.

(** the exponent: nothing, or e/E, an optional sign and digits up to the end *)
Definition read_exponent (t : text) : option Z :=
  match t with
  | [] => Some 0%Z
  | c :: t' =>
      if one_of "eE" c then
        let s := read_sign t' in
        match read_digits 0 0 (snd s) with
        | ((e, S _), []) => Some (if fst s then (- e)%Z else e)
        | _ => None
        end
      else None
  end.

Definition read_unsigned (t : text) : option Qc :=
  let whole := read_digits 0 0 t in
  let w := fst (fst whole) in
  let nw := snd (fst whole) in
  match snd whole with
  | c :: t' =>
      if Ascii.eqb c "." then
        (* an underscore may not follow the point: the count restarts at 0 *)
        let fraction := read_digits 0 0 t' in
        let f := fst (fst fraction) in
        let nf := snd (fst fraction) in
        match Nat.add nw nf, read_exponent (snd fraction) with
        | S _, Some e => Some (scale10 e (qz w + qz f / power10 nf)%Qc)
        | _, _ => None
        end
      else
        match nw, read_exponent (snd whole) with
        | S _, Some e => Some (scale10 e (qz w))
        | _, _ => None
        end
  | [] => match nw with S _ => Some (qz w) | O => None end
  end.

Definition python_float (t : text) : option Qc :=
  let s := read_sign (strip t) in
  match read_unsigned (snd s) with
  | Some v => Some (if fst s then (- v)%Qc else v)
  | None => None
  end.

(** ** Tokens (expression_evaluator.py:103-116) *)
Inductive tag : Type := Reference | Operator | Numeric.

(** Token(tag, value): the value is converted to a float when the text is one, and stays text
    otherwise.  An operator or a reference is never the text of a decimal literal. *)
Definition make_token (g : tag) (t : text) : token :=
  match g with
  | Reference => TRef (string_of_list_ascii t)
  | Operator => TOp (string_of_list_ascii t)
  | Numeric => match python_float t with Some v => TNum v | None => TNumText (string_of_list_ascii t) end
  end.

(** expression_evaluator.py:71-98, token_exprs, in order *)
Definition token_exprs : list ((text -> matched) * option tag) :=
  [(match_plus is_blank, None);
   (match_comment, None);
   (match_literal (chars ":="), Some Operator);
   (match_literal (chars "("), Some Operator);
   (match_literal (chars ")"), Some Operator);
   (match_literal (chars ";"), Some Operator);
   (match_literal (chars "{+}"), Some Operator);
   (match_literal (chars "{-}"), Some Operator);
   (match_literal (chars "{*}"), Some Operator);
   (match_literal (chars "{/}"), Some Operator);
   (match_literal (chars "{^}"), Some Operator);
   (match_literal (chars "<="), Some Operator);
   (match_literal (chars "<"), Some Operator);
   (match_literal (chars ">="), Some Operator);
   (match_literal (chars ">"), Some Operator);
   (match_literal (chars "=="), Some Operator);
   (match_literal (chars "!="), Some Operator);
   (match_scientific, Some Numeric);
   (match_plus is_number_char, Some Numeric);
   (match_name, Some Reference);
   (match_var, Some Reference)].

(** the first pattern that matches (lines 43-56) *)
Fixpoint first_match (exprs : list ((text -> matched) * option tag)) (t : text)
  : option (option tag * (text * text)) :=
  match exprs with
  | [] => None
  | (m, g) :: rest => match m t with Some r => Some (g, r) | None => first_match rest t end
  end.

(** lines 37-65, lex.  [fuel] bounds the number of rounds; every pattern takes at least one
    character, so the length of the text is enough (the outcome for 0 is shown never to occur). *)
Fixpoint lex_loop (fuel : nat) (t : text) : result (list token) :=
  match t with
  | [] => Ok []
  | _ =>
      match fuel with
      | O => Err OtherError
      | S fuel' =>
          match first_match token_exprs t with
          | None => Err KeyError
          | Some (g, (m, rest)) =>
              do ts <- lex_loop fuel' rest;
              Ok (match g with Some g' => make_token g' m :: ts | None => ts end)
          end
      end
  end.

Definition lexer (t : text) : result (list token) := lex_loop (List.length t) t.

(** what is given as an expression: text or a number *)
Inductive expression_input : Type := InText (t : text) | InNumber (v : Qc).

(** expression.py:84-97 with 160-174, validate: a text that is a number is that number; KeyError
    and ValueError become InvalidExpressionError *)
Definition validate (i : expression_input) : result (list token) :=
  match i with
  | InNumber v => Ok [TNum v]
  | InText t =>
      match python_float t with
      | Some v => Ok [TNum v]
      | None =>
          match lexer t with
          | Err KeyError => Err ValidationError
          | Err ValueError => Err ValidationError
          | r => r
          end
      end
  end.

(** expression.py:48-54 and 148-155: reading an expression and evaluating it *)
Definition evaluate_input (np_pow : Qc -> Qc -> Qc) (i : expression_input)
    (variables : variables_dict) (fill_length : nat) : result (list Qc) :=
  do ts <- validate i;
  evaluate np_pow ts variables fill_length.

(** ** Writing an expression (expression.py:56-60, __str__) *)

(** str.replace of a two-character text by a one-character text *)
Fixpoint replace2 (a b r : ascii) (t : text) : text :=
  match t with
  | c :: t' =>
      match t' with
      | d :: t'' =>
          if Ascii.eqb c a && Ascii.eqb d b then r :: replace2 a b r t'' else c :: replace2 a b r t'
      | [] => t
      end
  | [] => []
  end.

Section Write.
  (** str() of a float *)
  Variable float_str : Qc -> text.

  Definition token_str (t : token) : text :=
    match t with
    | TNum v => float_str v
    | TNumText s => chars s
    | TRef s => chars s
    | TOp s => chars s
    end.

  Fixpoint join_spaces (l : list text) : text :=
    match l with
    | [] => []
    | [a] => a
    | a :: rest => a ++ " "%char :: join_spaces rest
    end.

  Definition expression_str (ts : list token) : text :=
    replace2 "(" " " "(" (replace2 " " ")" ")" (join_spaces (map token_str ts))).
End Write.

(** Model of src/libecalc/expression/{expression_evaluator,expression_tree,expression}.py.

    Numbers are exact rationals; NaN in variables, rounding and overflow are not modelled.
    Text is ASCII. *)
From Coq Require Import Ascii String.
From Verif Require Import QcTac Base.
Local Open Scope string_scope.
Local Open Scope list_scope.
Local Open Scope Z_scope.

(** ** Tokens (expression_evaluator.py:103-116)

    A token has a tag and a value; for a numeric token the text is converted to a number when it
    is one (pydantic [float | int | str], left to right) and stays text otherwise.
    Not modelled: a reference spelled like a float literal ("nan", "inf") is also converted. *)
Inductive token : Type :=
| TNum (v : Qc)              (* tag numeric, value a number *)
| TNumText (s : string)      (* tag numeric, text that is not a number, e.g. "1.2.3" *)
| TRef (name : string)       (* tag reference *)
| TOp (s : string).          (* tag operator *)

(** ** Operators (expression_tree.py:142-161) *)
Inductive assoc : Type := LEFT | RIGHT.
Inductive operation : Type :=
| OpPow | OpMul | OpDiv | OpAdd | OpSub | OpEq | OpNe | OpLt | OpGt | OpLe | OpGe.
Record operator : Type := mkOperator { op_function : operation; op_precedence : Z; op_associativity : assoc }.

Definition OPERATORS : list (string * operator) :=
  [("{^}", mkOperator OpPow 24 RIGHT);
   ("{*}", mkOperator OpMul 23 LEFT);
   ("{/}", mkOperator OpDiv 23 LEFT);
   ("{+}", mkOperator OpAdd 22 LEFT);
   ("{-}", mkOperator OpSub 22 LEFT);
   ("==", mkOperator OpEq 16 LEFT);
   ("!=", mkOperator OpNe 15 LEFT);
   ("<", mkOperator OpLt 14 LEFT);
   (">", mkOperator OpGt 13 LEFT);
   ("<=", mkOperator OpLe 12 LEFT);
   (">=", mkOperator OpGe 11 LEFT)].

(** expression_tree.py:16-21, get_operator *)
Definition get_operator (s : string) : result operator :=
  of_option ValueError (dict_get String.eqb s OPERATORS).

(** ** Infix to postfix (expression_tree.py:36-94, get_postfix)

    The stack holds operator texts, top first; the output is kept in order. *)

(** does the operator [o2] on the stack go to the output before [o1] is pushed (lines 61-67) *)
Definition pops (o1 o2 : string) : result bool :=
  do r2 <- get_operator o2;
  do r1 <- get_operator o1;
  Ok ((op_precedence r1 <? op_precedence r2)
      || ((op_precedence r1 =? op_precedence r2)
          && match op_associativity r1 with LEFT => true | RIGHT => false end)).

(** lines 54-69 *)
Fixpoint pop_operators (o1 : string) (stack : list string) (out : list token)
  : result (list string * list token) :=
  match stack with
  | [] => Ok ([], out)
  | o2 :: stack' =>
      if String.eqb o2 "(" then Ok (stack, out)
      else
        do b <- pops o1 o2;
        if b then pop_operators o1 stack' (out ++ [TOp o2]) else Ok (stack, out)
  end.

(** lines 74-87 *)
Fixpoint pop_to_parenthesis (stack : list string) (out : list token)
  : result (list string * list token) :=
  match stack with
  | [] => Err ValueError
  | o2 :: stack' =>
      if String.eqb o2 "(" then Ok (stack', out)
      else pop_to_parenthesis stack' (out ++ [TOp o2])
  end.

(** lines 89-93 *)
Fixpoint pop_all (stack : list string) (out : list token) : result (list token) :=
  match stack with
  | [] => Ok out
  | o2 :: stack' => if String.eqb o2 "(" then Err ValueError else pop_all stack' (out ++ [TOp o2])
  end.

(** lines 48-88 *)
Fixpoint postfix_loop (tokens : list token) (stack : list string) (out : list token)
  : result (list token) :=
  match tokens with
  | [] => pop_all stack out
  | TOp s :: rest =>
      if String.eqb s "(" then postfix_loop rest (s :: stack) out
      else if String.eqb s ")" then
        do r <- pop_to_parenthesis stack out; postfix_loop rest (fst r) (snd r)
      else
        do r <- pop_operators s stack out; postfix_loop rest (s :: fst r) (snd r)
  | t :: rest => postfix_loop rest stack (out ++ [t])
  end.

Definition get_postfix (tokens : list token) : result (list token) := postfix_loop tokens [] [].

(** ** Expression tree (expression_tree.py:97-139) *)
Inductive node : Type :=
| Leaf (t : token)
| Bin (op : string) (lft rgt : node).

(** lines 122-139, get_tree.  A missing operand raises ValueError; taking the root of an empty
    stack (no tokens at all) raises IndexError. *)
Fixpoint tree_loop (tokens : list token) (stack : list node) : result node :=
  match tokens with
  | [] => match stack with n :: _ => Ok n | [] => Err IndexError end
  | TOp s :: rest =>
      match stack with
      | rgt :: lft :: stack' => tree_loop rest (Bin s lft rgt :: stack')
      | _ => Err ValueError
      end
  | t :: rest => tree_loop rest (Leaf t :: stack)
  end.
Definition get_tree (tokens : list token) : result node := tree_loop tokens [].

(** expression.py:37-46, Expression.__init__: ValueError becomes InvalidExpressionError
    ([ValidationError] here), other exceptions pass *)
Definition make_expression (tokens : list token) : result node :=
  match (do p <- get_postfix tokens; get_tree p) with
  | Err ValueError => Err ValidationError
  | r => r
  end.

(** ** Evaluation (expression_tree.py:103-119, Node.evaluate)

    [np_pow] is numpy's power followed by nan_to_num. *)

(** the largest double; np.nan_to_num maps infinity to it *)
Definition FLOAT_MAX : Qc := qz (2 ^ 1024 - 2 ^ 971).

(** numpy true division followed by nan_to_num: 0/0 is NaN and becomes 0, x/0 is infinite *)
Definition np_div (a b : Qc) : Qc :=
  if Qceqb b 0 then
    (if Qceqb a 0 then 0 else if Qcltb 0 a then FLOAT_MAX else - FLOAT_MAX)%Qc
  else (a / b)%Qc.

Definition of_bool (b : bool) : Qc := if b then 1%Qc else 0%Qc.

Section Evaluate.
  Variable np_pow : Qc -> Qc -> Qc.

  Definition apply_operation (o : operation) (a b : Qc) : Qc :=
    match o with
    | OpPow => np_pow a b
    | OpMul => (a * b)%Qc
    | OpDiv => np_div a b
    | OpAdd => (a + b)%Qc
    | OpSub => (a - b)%Qc
    | OpEq => of_bool (Qceqb a b)
    | OpNe => of_bool (negb (Qceqb a b))
    | OpLt => of_bool (Qcltb a b)
    | OpGt => of_bool (Qcltb b a)
    | OpLe => of_bool (Qcleb a b)
    | OpGe => of_bool (Qcleb b a)
    end.

  (** numpy broadcasting of two one-dimensional arrays *)
  Definition broadcast (f : Qc -> Qc -> Qc) (l m : list Qc) : result (list Qc) :=
    if Nat.eqb (List.length l) (List.length m) then Ok (map2 f l m)
    else match l, m with
         | [a], _ => Ok (map (f a) m)
         | _, [b] => Ok (map (fun a => f a b) l)
         | _, _ => Err ValueError
         end.

  Definition variables_dict : Type := list (string * list Qc).

  Fixpoint eval_node (n : node) (variables : variables_dict) (fill_length : nat) : result (list Qc) :=
    match n with
    | Bin s lft rgt =>
        do o <- get_operator s;
        do a <- eval_node lft variables fill_length;
        do b <- eval_node rgt variables fill_length;
        broadcast (apply_operation (op_function o)) a b
    | Leaf (TNum v) => Ok (repeat v fill_length)
    | Leaf (TNumText _) => Err AssertionError
    | Leaf (TRef r) => of_option AssertionError (dict_get String.eqb r variables)
    | Leaf (TOp _) => Err AssertionError (* unreachable: get_tree makes no such leaf *)
    end.

  (** expression.py:62-64, Expression.variables *)
  Definition token_references (tokens : list token) : list string :=
    flat_map (fun t => match t with TRef r => [r] | _ => [] end) tokens.

  (** expression.py:148-155, Expression.evaluate *)
  Definition evaluate (tokens : list token) (variables : variables_dict) (fill_length : nat)
    : result (list Qc) :=
    do tree <- make_expression tokens;
    if existsb (fun r => match dict_get String.eqb r variables with None => true | _ => false end)
               (token_references tokens)
    then Err ValidationError
    else eval_node tree variables fill_length.
End Evaluate.

(** expression.py:66-82, Expression.multiply *)
Definition multiply_tokens (tokens1 tokens2 : list token) : list token :=
  [TOp "("] ++ tokens1 ++ [TOp ")"] ++ [TOp "{*}"] ++ [TOp "("] ++ tokens2 ++ [TOp ")"].

(** What expressions mean, independently of the parser: abstract expressions, their value, and
    the ways of writing them as a token sequence. *)
From Coq Require Import Ascii String.
From Verif Require Import QcTac Base Expr_Model.
Local Open Scope string_scope.
Local Open Scope list_scope.
Local Open Scope Z_scope.

Inductive binop : Type := Pow | Mul | Div | Add | Sub | Eq | Ne | Lt | Gt | Le | Ge.

Inductive expr : Type :=
| ENum (v : Qc)
| ERef (name : string)
| EBin (o : binop) (a b : expr).

(** how an operator is written *)
Definition symbol (o : binop) : string :=
  match o with
  | Pow => "{^}" | Mul => "{*}" | Div => "{/}" | Add => "{+}" | Sub => "{-}"
  | Eq => "==" | Ne => "!=" | Lt => "<" | Gt => ">" | Le => "<=" | Ge => ">="
  end.

(** binding strength: powers bind tighter than products, products tighter than sums, sums tighter
    than comparisons; among the comparisons, in this order from tight to loose: == != < > <= >= *)
Definition strength (o : binop) : nat :=
  match o with
  | Pow => 9 | Mul => 8 | Div => 8 | Add => 7 | Sub => 7
  | Eq => 6 | Ne => 5 | Lt => 4 | Gt => 3 | Le => 2 | Ge => 1
  end.

(** powers associate to the right, everything else to the left *)
Definition right_assoc (o : binop) : bool := match o with Pow => true | _ => false end.

(** [writes k ts e]: the token sequence [ts] is a way of writing [e], using operators weaker than
    [k] only inside parentheses *)
Inductive writes : nat -> list token -> expr -> Prop :=
| W_num : forall k v, writes k [TNum v] (ENum v)
| W_ref : forall k r, writes k [TRef r] (ERef r)
| W_paren : forall k ts e, writes 0 ts e -> writes k (TOp "(" :: ts ++ [TOp ")"]) e
| W_left : forall k o ts1 ts2 a b,
    right_assoc o = false -> (k <= strength o)%nat ->
    writes (strength o) ts1 a -> writes (S (strength o)) ts2 b ->
    writes k (ts1 ++ TOp (symbol o) :: ts2) (EBin o a b)
| W_right : forall k o ts1 ts2 a b,
    right_assoc o = true -> (k <= strength o)%nat ->
    writes (S (strength o)) ts1 a -> writes (strength o) ts2 b ->
    writes k (ts1 ++ TOp (symbol o) :: ts2) (EBin o a b).

(** the canonical way of writing an expression: parentheses only where needed *)
Fixpoint print (k : nat) (e : expr) : list token :=
  match e with
  | ENum v => [TNum v]
  | ERef r => [TRef r]
  | EBin o a b =>
      let body :=
        if right_assoc o
        then print (S (strength o)) a ++ TOp (symbol o) :: print (strength o) b
        else print (strength o) a ++ TOp (symbol o) :: print (S (strength o)) b in
      if (k <=? strength o)%nat then body else TOp "(" :: body ++ [TOp ")"]
  end.

(** the value of an expression; [pow] is the power function; a quotient with divisor 0 is 0 for
    0/0 and plus or minus the largest float otherwise; comparisons give 1 or 0 *)
Definition binop_value (pow : Qc -> Qc -> Qc) (o : binop) (x y : Qc) : Qc :=
  match o with
  | Pow => pow x y
  | Mul => (x * y)%Qc
  | Div => if Qc_eq_dec y 0 then
             (if Qc_eq_dec x 0 then 0 else if Qclt_le_dec 0 x then FLOAT_MAX else - FLOAT_MAX)%Qc
           else (x / y)%Qc
  | Add => (x + y)%Qc
  | Sub => (x - y)%Qc
  | Eq => if Qc_eq_dec x y then 1%Qc else 0%Qc
  | Ne => if Qc_eq_dec x y then 0%Qc else 1%Qc
  | Lt => if Qclt_le_dec x y then 1%Qc else 0%Qc
  | Gt => if Qclt_le_dec y x then 1%Qc else 0%Qc
  | Le => if Qclt_le_dec y x then 0%Qc else 1%Qc
  | Ge => if Qclt_le_dec x y then 0%Qc else 1%Qc
  end.

Fixpoint value (pow : Qc -> Qc -> Qc) (env : string -> Qc) (e : expr) : Qc :=
  match e with
  | ENum v => v
  | ERef r => env r
  | EBin o a b => binop_value pow o (value pow env a) (value pow env b)
  end.

Fixpoint references (e : expr) : list string :=
  match e with
  | ENum _ => []
  | ERef r => [r]
  | EBin _ a b => references a ++ references b
  end.

(** number of operands / operators of a token sequence, and its parenthesis depth *)
Definition is_operand (t : token) : bool := match t with TOp _ => false | _ => true end.
Definition is_operator (t : token) : bool :=
  match t with TOp s => negb (String.eqb s "(" || String.eqb s ")") | _ => false end.
(** after every prefix there are at least as many "(" as ")", and at the end equally many *)
Fixpoint balanced (depth : nat) (ts : list token) : Prop :=
  match ts with
  | [] => depth = 0%nat
  | TOp s :: rest =>
      if String.eqb s "(" then balanced (S depth) rest
      else if String.eqb s ")" then match depth with O => False | S d => balanced d rest end
      else balanced depth rest
  | _ :: rest => balanced depth rest
  end.

(** two operands stand side by side: an operand or a closing parenthesis is directly followed by
    an operand or an opening parenthesis *)
Definition side_by_side (ts : list token) : Prop :=
  exists before a b after, ts = before ++ a :: b :: after /\
    (is_operand a = true \/ a = TOp ")") /\ (is_operand b = true \/ b = TOp "(").

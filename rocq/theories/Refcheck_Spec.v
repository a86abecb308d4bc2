(** Vocabulary for the check of an expression. *)
From Coq Require Import PeanoNat String QArith.Qcanon.
From Verif Require Import Base Expr_Model Lexer_Model.
Local Open Scope list_scope.

(** [r] is a reference in the expression [i] *)
Definition refers (i : expression_input) (r : string) : Prop := exists tokens, validate i = Ok tokens /\ In (TRef r) tokens.
(** every name of [names] has a series of [n] values *)
Definition provides (variables : variables_dict) (names : list string) (n : nat) : Prop :=
  forall r, In r names -> exists l, dict_get String.eqb r variables = Some l /\ List.length l = n.
(** no other name has *)
Definition only (variables : variables_dict) (names : list string) : Prop := forall r l, dict_get String.eqb r variables = Some l -> In r names.

(** Model of src/libecalc/presentation/yaml/yaml_types/components/yaml_expression_type.py: the check of an expression in a model. *)
From Coq Require Import PeanoNat String QArith.Qcanon.
From Verif Require Import Base Expr_Model Lexer_Model.
Local Open Scope list_scope.

(** the value is given back, the error expression_reference_not_found with the references, or another exception *)
Inductive outcome : Type := Accepted | UnknownReferences (names : list string) | Failed (e : error).

(** model.py:340-345, _get_token_references *)
Definition available_references (time_series variables : list string) : list string := time_series ++ map (fun v => ("$var." ++ v)%string) variables.

(** 30-32: the references that are not available *)
Fixpoint unknown_tokens (available : list string) (tokens : list token) : list string :=
  match tokens with
  | [] => []
  | TRef r :: rest => if existsb (String.eqb r) available then unknown_tokens available rest else r :: unknown_tokens available rest
  | _ :: rest => unknown_tokens available rest
  end.
(** 21-47, validate_expression; [context] is None without a context or without expression_tokens in it.  The text of errors is not modelled. *)
Definition validate_expression (context : option (list string)) (value : expression_input) : outcome :=
  match context with
  | None => Accepted
  | Some available =>
      match validate value with
      | Ok tokens => match unknown_tokens available tokens with [] => Accepted | names => UnknownReferences names end
      | Err ValidationError => Failed ValueError
      | Err e => Failed e
      end
  end.

(** Property C153: the check of the expressions of a model. *)
From Coq Require Import PeanoNat String QArith.Qcanon Ascii.
From Verif Require Import Base Num Expr_Model Expr_Spec Expr_Proofs Lexer_Model Refcheck_Model Refcheck_Spec Refcheck_Proofs.
Local Open Scope list_scope.

(** In a model an expression is accepted exactly when it can be read and refers only to time series and variables of the model. *)
Theorem C153_accepted : forall time_series vars i, validate_expression (Some (available_references time_series vars)) i = Accepted <->
  (exists tokens, validate i = Ok tokens) /\ forall r, refers i r -> In r time_series \/ exists v, In v vars /\ r = ("$var." ++ v)%string.
Proof. exact accepted_in_model. Qed.
Print Assumptions C153_accepted.

(** The error names exactly the references that are not available. *)
Theorem C153_reported : forall available i names, validate_expression (Some available) i = UnknownReferences names ->
  names <> [] /\ forall r, In r names <-> refers i r /\ ~ In r available.
Proof. exact unknown_reported. Qed.
Print Assumptions C153_reported.

(** A well-formed expression that is accepted evaluates wherever the available references have values. *)
Theorem C153_evaluates : forall pow available i tokens e variables n, validate_expression (Some available) i = Accepted ->
  validate i = Ok tokens -> writes 0 tokens e -> provides variables available n -> exists vec, evaluate_input pow i variables n = Ok vec.
Proof. exact accepted_evaluates. Qed.
Print Assumptions C153_evaluates.

(** An expression that is not accepted could not be evaluated anyway. *)
Theorem C153_refused : forall pow available i variables n, validate_expression (Some available) i <> Accepted -> only variables available -> exists e, evaluate_input pow i variables n = Err e.
Proof. exact refused_fails. Qed.
Print Assumptions C153_refused.

(** An expression is accepted although it can never be evaluated: only its symbols are checked, not its syntax. *)
Theorem C153_syntax_refuted : exists i, (forall available, validate_expression (Some available) i = Accepted) /\ forall pow variables n, evaluate_input pow i variables n = Err ValidationError.
Proof. exact syntax_refuted. Qed.
Print Assumptions C153_syntax_refuted.

(** ** Cases *)
Definition C153_expression : expression_input := InText (chars "SIM;OIL {*} $var.factor").
Definition C153_names : list string := available_references ["SIM;OIL"; "SIM;GAS"]%string ["factor"]%string.
Example C153_case : validate_expression (Some C153_names) C153_expression = Accepted /\
  validate_expression (Some ["SIM;GAS"]%string) C153_expression = UnknownReferences ["SIM;OIL"; "$var.factor"]%string /\
  validate_expression None C153_expression = Accepted.
Proof. repeat split. Qed.
Example C153_case_read : validate C153_expression = Ok [TRef "SIM;OIL"; TOp "{*}"; TRef "$var.factor"].
Proof. reflexivity. Qed.
Example C153_case_writes : writes 0 [TRef "SIM;OIL"; TOp "{*}"; TRef "$var.factor"] (EBin Mul (ERef "SIM;OIL") (ERef "$var.factor")).
Proof. exact (print_writes (EBin Mul (ERef "SIM;OIL") (ERef "$var.factor")) 0). Qed.
Example C153_case_provides : provides [("SIM;OIL", [1%Qc]); ("SIM;GAS", [1%Qc]); ("$var.factor", [1%Qc])]%string C153_names 1.
Proof. intros r [<-|[<-|[<-|[]]]]; exists [1%Qc]; split; reflexivity. Qed.
Example C153_case_only : only [("SIM;GAS", [1%Qc])]%string ["SIM;GAS"]%string.
Proof. intros r l. cbn. destruct (String.eqb r "SIM;GAS") eqn:E; [|discriminate]. apply String.eqb_eq in E. auto. Qed.

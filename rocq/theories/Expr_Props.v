(** Properties C19-C21: expressions.
    Model: Expr_Model.v.  Specification (grammar, meaning): Expr_Spec.v. *)
From Coq Require Import Ascii String.
From Verif Require Import QcTac Base BaseLemmas Expr_Model Expr_Spec Expr_Proofs Expr_Proofs2.
Local Open Scope string_scope.
Local Open Scope list_scope.
Local Open Scope nat_scope.

(** C19: every way of writing an expression in infix notation, with the usual precedence and
    associativity, evaluates in every period to the value of the expression there. *)
Theorem C19_evaluate_written_expression :
  forall (pow : Qc -> Qc -> Qc) k ts e variables n,
    writes k ts e ->
    (forall r, In r (references e) -> exists l, dict_get String.eqb r variables = Some l /\ length l = n) ->
    exists vec, evaluate pow ts variables n = Ok vec /\ length vec = n /\
      forall i, i < n ->
        nth i vec 0%Qc =
        value pow (fun r => match dict_get String.eqb r variables with Some l => nth i l 0%Qc | None => 0%Qc end) e.
Proof. exact evaluate_writes_proof. Qed.
Print Assumptions C19_evaluate_written_expression.

(** C19: every expression has a way of being written with only the needed parentheses. *)
Theorem C19_every_expression_can_be_written : forall e k, writes k (print k e) e.
Proof. exact print_writes. Qed.
Print Assumptions C19_every_expression_can_be_written.

(* a {-} b {-} 1 {+} 2 {*} 3 {^} 2 {^} 1, with a = [10, 20], b = [1, 2] *)
Definition C19_tokens : list token :=
  [TRef "a"; TOp "{-}"; TRef "b"; TOp "{-}"; TNum (qz 1); TOp "{+}"; TNum (qz 2); TOp "{*}";
   TNum (qz 3); TOp "{^}"; TNum (qz 2); TOp "{^}"; TNum (qz 1)].
Definition C19_expr : expr :=
  EBin Add (EBin Sub (EBin Sub (ERef "a") (ERef "b")) (ENum (qz 1)))
           (EBin Mul (ENum (qz 2)) (EBin Pow (ENum (qz 3)) (EBin Pow (ENum (qz 2)) (ENum (qz 1))))).
Example C19_case :
  writes 0 C19_tokens C19_expr /\
  evaluate (fun x y => (x * x + y - y)%Qc) C19_tokens
    [("a", [qz 10; qz 20]); ("b", [qz 1; qz 2])] 2 = Ok [qz 26; qz 35].
Proof.
  split; [exact (print_writes C19_expr 0)|]. qc_compute.
Qed.

(** C19: a reference that is not a variable is an error. *)
Theorem C19_missing_reference :
  forall (pow : Qc -> Qc -> Qc) k ts e variables n,
    writes k ts e ->
    (exists r, In r (references e) /\ dict_get String.eqb r variables = None) ->
    evaluate pow ts variables n = Err ValidationError.
Proof. exact evaluate_missing_proof. Qed.
Print Assumptions C19_missing_reference.

(** C19: Expression.multiply is a way of writing the product. *)
Theorem C19_multiply : forall k1 k2 ts1 ts2 e1 e2, writes k1 ts1 e1 -> writes k2 ts2 e2 ->
  writes 0 (multiply_tokens ts1 ts2) (EBin Mul e1 e2).
Proof. exact multiply_proof. Qed.
Print Assumptions C19_multiply.

(** C20: for any token sequence that evaluates (all variables having one value per period): the
    result has one value per period, and the value in a period depends only on the values of the
    variables in that period. *)
Theorem C20_elementwise : forall (pow : Qc -> Qc -> Qc) ts v n vec,
  (forall r l, dict_get String.eqb r v = Some l -> length l = n) ->
  evaluate pow ts v n = Ok vec ->
  length vec = n /\
  forall v' n' i j vec',
    (forall r l, dict_get String.eqb r v' = Some l -> length l = n') ->
    i < n -> j < n' ->
    (forall r, match dict_get String.eqb r v, dict_get String.eqb r v' with
               | Some l, Some l' => nth_error l i = nth_error l' j
               | None, None => True
               | _, _ => False end) ->
    evaluate pow ts v' n' = Ok vec' ->
    nth_error vec i = nth_error vec' j.
Proof. exact evaluate_elementwise_proof. Qed.
Print Assumptions C20_elementwise.
Example C20_case :
  evaluate (fun x _ => x) [TNum (qz 6); TOp "{/}"; TRef "a"] [("a", [qz 2; qz 0; qz 3])] 3 =
  Ok [qz 3; FLOAT_MAX; qz 2].
Proof. qc_compute. Qed.

(** C21: whatever the references stand for, a token sequence evaluates only if it is a well-formed
    infix expression or has two operands side by side. *)
Theorem C21_well_formed : forall (pow : Qc -> Qc -> Qc) ts variables n vec,
  ~ side_by_side ts -> evaluate pow ts variables n = Ok vec -> exists e, writes 0 ts e.
Proof. exact well_formed_proof. Qed.
Print Assumptions C21_well_formed.

(** C21: when the references are bound, the token sequences that evaluate and have no operands side
    by side are exactly the well-formed infix expressions. *)
Theorem C21_exactly_well_formed : forall (pow : Qc -> Qc -> Qc) ts variables n,
  (forall r, In (TRef r) ts -> exists l, dict_get String.eqb r variables = Some l /\ length l = n) ->
  ((exists vec, evaluate pow ts variables n = Ok vec) /\ ~ side_by_side ts <-> exists e, writes 0 ts e).
Proof. exact exactly_proof. Qed.
Print Assumptions C21_exactly_well_formed.

(* ( 1 {+} x ) {*} 2 is well formed; 1 {+} {*} 2 has nothing side by side and is rejected *)
Example C21_well_formed_case : forall pow,
  evaluate pow [TOp "("; TNum 1%Qc; TOp "{+}"; TRef "x"; TOp ")"; TOp "{*}"; TNum (qz 2)] [("x", [1%Qc])] 1
    = Ok [((1 + 1) * qz 2)%Qc] /\
  writes 0 [TOp "("; TNum 1%Qc; TOp "{+}"; TRef "x"; TOp ")"; TOp "{*}"; TNum (qz 2)]
    (EBin Mul (EBin Add (ENum 1%Qc) (ERef "x")) (ENum (qz 2))) /\
  evaluate pow [TNum 1%Qc; TOp "{+}"; TOp "{*}"; TNum (qz 2)] [] 1 = Err ValidationError.
Proof.
  intros pow. split; [reflexivity|]. split; [|reflexivity].
  apply (W_left 0 Mul [TOp "("; TNum 1%Qc; TOp "{+}"; TRef "x"; TOp ")"] [TNum (qz 2)]);
    [reflexivity|cbn; lia| |apply W_num].
  apply (W_paren 8 [TNum 1%Qc; TOp "{+}"; TRef "x"]).
  apply (W_left 0 Add [TNum 1%Qc] [TRef "x"]); [reflexivity|cbn; lia|apply W_num|apply W_ref].
Qed.

(** C21: an accepted token sequence has balanced parentheses and more operands than operators. *)
Theorem C21_accepted_shape : forall ts n, make_expression ts = Ok n ->
  balanced 0 ts /\ length (filter is_operator ts) + 1 <= length (filter is_operand ts).
Proof. exact accepted_shape_proof. Qed.
Print Assumptions C21_accepted_shape.
Example C21_case : make_expression [TOp "("; TNum 1%Qc; TOp "{+}"; TRef "x"; TOp ")"] =
                   Ok (Bin "{+}" (Leaf (TNum 1%Qc)) (Leaf (TRef "x"))) /\
  make_expression [TOp "("; TNum 1%Qc; TOp "{+}"; TRef "x"] = Err ValidationError /\
  make_expression [TNum 1%Qc; TOp "{+}"] = Err ValidationError.
Proof. repeat split. Qed.

(** C21 fails: two operands without an operator are accepted and the first is dropped. *)
Theorem C21_juxtaposition_refuted :
  exists ts, make_expression ts = Ok (Leaf (TNum 1%Qc)) /\ forall k e, ~ writes k ts e.
Proof. exact juxtaposition_refuted_proof. Qed.
Print Assumptions C21_juxtaposition_refuted.

(** C21 fails: an unsupported operator can be accepted and only fails when evaluated. *)
Theorem C21_unsupported_operator_refuted :
  exists ts n, make_expression ts = Ok n /\ forall pow vars k, evaluate pow ts vars k = Err ValueError.
Proof. exact unsupported_operator_refuted_proof. Qed.
Print Assumptions C21_unsupported_operator_refuted.

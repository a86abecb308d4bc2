(** The check of an expression against the references of the model. *)
From Coq Require Import PeanoNat String Lia QArith.Qcanon Ascii.
From Verif Require Import Base BaseLemmas Num Expr_Model Expr_Spec Expr_Proofs Expr_Proofs2 Lexer_Model Refcheck_Model Refcheck_Spec.
Local Open Scope list_scope.

Lemma unknown_in : forall available tokens r, In r (unknown_tokens available tokens) <-> In (TRef r) tokens /\ ~ In r available.
Proof.
  intros available tokens r. induction tokens as [|t tokens IH]; [cbn; tauto|].
  destruct t as [v|s|x|s]; cbn [unknown_tokens]; try (rewrite IH; cbn; split; [tauto|intros [[E|I] N]; [discriminate E|tauto]]).
  destruct (existsb (String.eqb x) available) eqn:E.
  - apply existsb_exists in E as (y & I & Y). apply String.eqb_eq in Y as <-. rewrite IH. cbn. split; [tauto|]. intros [[X|J] N]; [injection X as ->; contradiction|tauto].
  - assert (N : ~ In x available) by (intros I; assert (T : existsb (String.eqb x) available = true) by (apply existsb_exists; exists x; split; [exact I|apply String.eqb_refl]); congruence).
    cbn. rewrite IH. split; [intros [->|[J M]]; tauto|]. intros [[X|J] M]; [injection X as ->; tauto|tauto].
Qed.
Lemma unknown_reported : forall available i names, validate_expression (Some available) i = UnknownReferences names ->
  names <> [] /\ forall r, In r names <-> refers i r /\ ~ In r available.
Proof.
  intros available i names. unfold validate_expression. destruct (validate i) as [tokens|e] eqn:V; [|destruct e; discriminate].
  intros E. assert (X : names = unknown_tokens available tokens /\ names <> []) by (destruct (unknown_tokens available tokens); [discriminate|injection E as <-; split; [reflexivity|discriminate]]).
  destruct X as [-> X]. split; [exact X|]. intros r. rewrite unknown_in. unfold refers. rewrite V. split.
  - intros [I N]. split; [exists tokens; auto|exact N].
  - intros [(ts & T & I) N]. injection T as ->. auto.
Qed.
Lemma accepted_iff : forall available i, validate_expression (Some available) i = Accepted <-> (exists tokens, validate i = Ok tokens) /\ forall r, refers i r -> In r available.
Proof.
  intros available i. unfold validate_expression, refers. destruct (validate i) as [tokens|e] eqn:V.
  - pose proof (unknown_in available tokens) as U. destruct (unknown_tokens available tokens) as [|x l].
    + split; [|reflexivity]. intros _. split; [exists tokens; reflexivity|]. intros r (ts & T & I). injection T as ->. destruct (in_dec string_dec r available) as [J|J]; [exact J|]. destruct (proj2 (U r) (conj I J)).
    + split; [discriminate|]. intros [_ A]. destruct (proj1 (U x) (or_introl eq_refl)) as [I N]. destruct N. apply A. exists tokens. auto.
  - split; [destruct e; discriminate|]. intros [(ts & T) _]. discriminate T.
Qed.
Lemma accepted_evaluates : forall pow available i tokens e variables n, validate_expression (Some available) i = Accepted ->
  validate i = Ok tokens -> writes 0 tokens e -> provides variables available n -> exists vec, evaluate_input pow i variables n = Ok vec.
Proof.
  intros pow available i tokens e variables n A V W P. apply accepted_iff in A as [_ A]. unfold evaluate_input. rewrite V. cbn [bind].
  apply (exactly_proof pow tokens variables n); [|exists e; exact W]. intros r I. apply P, A. exists tokens. auto.
Qed.
Lemma refused_fails : forall pow available i variables n, validate_expression (Some available) i <> Accepted -> only variables available -> exists e, evaluate_input pow i variables n = Err e.
Proof.
  intros pow available i variables n R O. unfold evaluate_input. destruct (validate i) as [tokens|e] eqn:V; [|exists e; reflexivity]. cbn [bind]. unfold evaluate.
  destruct (make_expression tokens) as [tree|e]; [|exists e; reflexivity]. cbn [bind].
  destruct (existsb _ (token_references tokens)) eqn:E; [exists ValidationError; reflexivity|]. exfalso. apply R. apply accepted_iff. split; [exists tokens; exact V|].
  intros r (ts & T & I). rewrite V in T. injection T as <-. destruct (dict_get String.eqb r variables) as [l|] eqn:D; [exact (O r l D)|]. exfalso.
  assert (X : existsb (fun r => match dict_get String.eqb r variables with None => true | _ => false end) (token_references tokens) = true); [|congruence].
  apply existsb_exists. exists r. split; [|rewrite D; reflexivity]. apply in_flat_map. exists (TRef r). split; [exact I|left; reflexivity].
Qed.
Lemma without_context : forall i, validate_expression None i = Accepted.
Proof. reflexivity. Qed.
Lemma syntax_refuted : exists i, (forall available, validate_expression (Some available) i = Accepted) /\ forall pow variables n, evaluate_input pow i variables n = Err ValidationError.
Proof. exists (InText (list_ascii_of_string "1 {+}")). split; [intros available; reflexivity|intros pow variables n; reflexivity]. Qed.
Lemma accepted_in_model : forall time_series vars i, validate_expression (Some (available_references time_series vars)) i = Accepted <->
  (exists tokens, validate i = Ok tokens) /\ forall r, refers i r -> In r time_series \/ exists v, In v vars /\ r = ("$var." ++ v)%string.
Proof.
  intros time_series vars i. rewrite accepted_iff. unfold available_references. split; intros [V A]; (split; [exact V|]); intros r I; specialize (A r I).
  - apply in_app_or in A as [A|A]; [left; exact A|]. right. apply in_map_iff in A as (v & <- & J). exists v. auto.
  - apply in_or_app. destruct A as [A|(v & J & ->)]; [left; exact A|]. right. apply in_map_iff. exists v. auto.
Qed.

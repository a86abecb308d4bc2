(** Property C149: the references in the expressions of a model. *)
From Coq Require Import PeanoNat String.
From Verif Require Import Base Extract_Model Extract_Spec Extract_Proofs.
Local Open Scope list_scope.

(** The references are exactly those of the expressions of the model and the models in it. *)
Theorem C149_found : forall leaf (variables : leaf -> list string) m s, searched m -> (In s (references variables (Model m)) <-> exists x, uses m x /\ In s (variables x)).
Proof. exact expressions_found. Qed.
Print Assumptions C149_found.

(** Whatever the model: every reference is one of an expression of it. *)
Theorem C149_only : forall leaf (variables : leaf -> list string) m s, In s (references variables (Model m)) -> exists x, uses m x /\ In s (variables x).
Proof. exact only_expressions. Qed.
Print Assumptions C149_only.

(** A model in a field for an expression or a model is not searched. *)
Theorem C149_model_or_expression_refuted : exists (m : list (bool * annotation * value string)) x,
  (exists a n, m = [(false, Union [Expr; ModelClass], Model n)] /\ n = [(true, a, Leaf x)]) /\ uses m x /\ references (fun y => [y]) (Model m) = [].
Proof. exact model_or_expression_refuted. Qed.
Print Assumptions C149_model_or_expression_refuted.

(** Expressions in a tuple or set are not found. *)
Theorem C149_tuple_refuted : exists (m : list (bool * annotation * value string)) x,
  m = [(false, Generic [Expr], Sequence [Leaf x])] /\ uses m x /\ references (fun y => [y]) (Model m) = [].
Proof. exact tuple_refuted. Qed.
Print Assumptions C149_tuple_refuted.

(** ** A case: an expression in a field, in a list of models and by date in a dict; a text that is no expression *)
Definition C149_stage (t : string) : value string := Model [(true, Plain, Leaf t); (false, Plain, Leaf "name"%string)].
Definition C149_model : list (bool * annotation * value string) :=
  [(false, Union [Expr; DictOf [Plain; Expr]], Dict [Leaf "RATE"%string; Leaf "RATE2"%string]);
   (false, ListOf [ModelClass], Items [C149_stage "SUCTION"; C149_stage "DISCHARGE"]);
   (false, Union [Expr; Plain], Nothing); (false, Plain, Leaf "train"%string)].
Example C149_case : references (fun x => [x]) (Model C149_model) = ["RATE"; "RATE2"; "SUCTION"; "DISCHARGE"]%string.
Proof. reflexivity. Qed.
Lemma C149_stage_submodels : forall t n, submodel [(true, Plain, Leaf t); (false, Plain, Leaf "name"%string)] n -> n = [(true, Plain, Leaf t); (false, Plain, Leaf "name"%string)].
Proof. intros t n S. inversion S as [|? mk ak vk m' ? F W S']; subst; [reflexivity|]. destruct F as [F|[F|[]]]; injection F as <- <- <-; inversion W. Qed.
Example C149_case_searched : searched C149_model.
Proof.
  assert (T : forall (marked : bool) a v t, In (marked, a, v) [(true, Plain, Leaf t); (false, Plain, Leaf "name"%string)] -> searched_field marked a v).
  { intros marked a v t [F|[F|[]]]; injection F as <- <- <-; (split; [left; left; exact I|split; [intros _ n; discriminate|intros _ n W; inversion W]]). }
  intros n marked a v S F. inversion S as [|? mk ak vk m' ? F' W S']; subst.
  - destruct F as [F|[F|[F|[F|[]]]]]; injection F as <- <- <-.
    + split; [right; eexists; split; [reflexivity|]; intros x [<-|[<-|[]]]; left; exact I|]. split; [intros _ k; discriminate|]. intros N. destruct N. right. eapply mentions_union; [left; reflexivity|constructor].
    + split; [left; right; eexists; split; [reflexivity|]; intros x [<-|[<-|[]]]; exact I|]. split; [intros _ k; discriminate|]. intros _ k _. repeat constructor.
    + split; [left; left; exact I|]. split; [intros _ k; discriminate|intros _ k W; inversion W].
    + split; [left; left; exact I|]. split; [intros _ k; discriminate|intros _ k W; inversion W].
  - destruct F' as [F'|[F'|[F'|[F'|[]]]]]; injection F' as <- <- <-.
    + inversion W as [| |? y ? Y W'|]; subst. destruct Y as [<-|[<-|[]]]; inversion W'.
    + inversion W as [|? y ? Y W'| |]; subst. destruct Y as [<-|[<-|[]]]; inversion W'; subst; apply C149_stage_submodels in S'; subst n; eapply T; exact F.
    + inversion W.
    + inversion W.
Qed.

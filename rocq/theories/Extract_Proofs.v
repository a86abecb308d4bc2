(** The expressions in a model. *)
From Coq Require Import PeanoNat String Lia.
From Verif Require Import Base BaseLemmas Extract_Model Extract_Spec.
Local Open Scope list_scope.

Section Annotations.
  Variable P : annotation -> Prop.
  Hypothesis case_expr : P Expr.
  Hypothesis case_model : P ModelClass.
  Hypothesis case_plain : P Plain.
  Hypothesis case_union : forall args, (forall x, In x args -> P x) -> P (Union args).
  Hypothesis case_list : forall args, (forall x, In x args -> P x) -> P (ListOf args).
  Hypothesis case_dict : forall args, (forall x, In x args -> P x) -> P (DictOf args).
  Hypothesis case_annotated : forall x, P x -> P (Annotated x).
  Hypothesis case_generic : forall args, (forall x, In x args -> P x) -> P (Generic args).
  Fixpoint annotation_induct (a : annotation) : P a :=
    let go := fix go l : forall x, In x l -> P x :=
      match l with
      | [] => fun _ I => match I with end
      | y :: r => fun x I => match I with or_introl E => eq_ind y P (annotation_induct y) x E | or_intror I' => go r x I' end
      end in
    match a with
    | Expr => case_expr | ModelClass => case_model | Plain => case_plain
    | Union args => case_union args (go args) | ListOf args => case_list args (go args) | DictOf args => case_dict args (go args)
    | Annotated x => case_annotated x (annotation_induct x)
    | Generic args => case_generic args (go args)
    end.
End Annotations.
Section Values.
  Variable leaf : Type.
  Variable P : value leaf -> Prop.
  Hypothesis case_nothing : P Nothing.
  Hypothesis case_leaf : forall x, P (Leaf x).
  Hypothesis case_other : P Other.
  Hypothesis case_model : forall fields, (forall m a v, In (m, a, v) fields -> P v) -> P (Model fields).
  Hypothesis case_items : forall items, (forall v, In v items -> P v) -> P (Items items).
  Hypothesis case_dict : forall items, (forall v, In v items -> P v) -> P (Dict items).
  Hypothesis case_sequence : forall items, (forall v, In v items -> P v) -> P (Sequence items).
  Fixpoint value_induct (v : value leaf) : P v :=
    let go := fix go l : forall x, In x l -> P x :=
      match l with
      | [] => fun _ I => match I with end
      | y :: r => fun x I => match I with or_introl E => eq_ind y P (value_induct y) x E | or_intror I' => go r x I' end
      end in
    match v with
    | Nothing => case_nothing | Leaf x => case_leaf x | Other => case_other
    | Model fields => case_model fields
        ((fix gof l : forall m a v, In (m, a, v) l -> P v :=
            match l with
            | [] => fun _ _ _ I => match I with end
            | (m', a', v') :: r => fun m a v I => match I with or_introl E => eq_ind v' P (value_induct v') v (f_equal snd E) | or_intror I' => gof r m a v I' end
            end) fields)
    | Items items => case_items items (go items)
    | Dict items => case_dict items (go items)
    | Sequence items => case_sequence items (go items)
    end.
End Values.

Lemma contains_expression_iff : forall a, contains_expression a = true <-> mentions_expression a.
Proof.
  induction a as [| | |args IH|args IH|args IH|x IH|args IH] using annotation_induct; cbn [contains_expression].
  1: split; [constructor|reflexivity].
  1,2: split; [discriminate|intros M; inversion M].
  4: rewrite IH; split; [constructor; assumption|intros M; inversion M; assumption].
  all: rewrite existsb_exists; split;
    [intros (x & I & E); apply (IH x I) in E; econstructor; eassumption|intros M; inversion M as [|? x I E|? x I E|? x I E|? x I E|]; subst; exists x; split; [exact I|apply (IH x I); exact E]].
Qed.
Lemma expression_field_iff : forall marked a, marked || contains_expression a = true <-> expression_field marked a.
Proof. intros marked a. unfold expression_field. rewrite Bool.orb_true_iff, contains_expression_iff. reflexivity. Qed.
Lemma mentions_model_has : forall a, mentions_model a -> has_model_type a = true.
Proof.
  intros a M. induction M as [|args x I M IH|x M IH|args x I M IH|x M IH]; cbn [has_model_type]; auto; apply existsb_exists; eauto.
Qed.

(** one field *)
Definition item_values {leaf} (x : value leaf) : list leaf := match x with Leaf l => [l] | Model _ => collect x | _ => [] end.
Definition model_values {leaf} (x : value leaf) : list leaf := match x with Model _ => collect x | _ => [] end.
Definition field_values {leaf} (marked : bool) (a : annotation) (v : value leaf) : list leaf :=
  if marked || contains_expression a then
    match v with
    | Items items => flat_map item_values items
    | Dict values => flat_map (fun x => match x with Leaf l => [l] | Model _ => collect x | Items items => flat_map item_values items | _ => [] end) values
    | Leaf l => [l]
    | _ => []
    end
  else if has_model_type a then
    match v with
    | Model _ => collect v
    | Items items => flat_map model_values items
    | Dict values => flat_map (fun x => match x with Model _ => collect x | Items items => flat_map model_values items | _ => [] end) values
    | _ => []
    end
  else [].
Lemma collect_model : forall leaf (fields : list (bool * annotation * value leaf)), collect (Model fields) = flat_map (fun f => match f with (marked, a, v) => field_values marked a v end) fields.
Proof. reflexivity. Qed.
Lemma in_collect : forall leaf (fields : list (bool * annotation * value leaf)) x, In x (collect (Model fields)) <-> exists marked a v, In (marked, a, v) fields /\ In x (field_values marked a v).
Proof.
  intros leaf fields x. rewrite collect_model, in_flat_map. split.
  - intros ([[marked a] v] & I & X). exists marked, a, v. auto.
  - intros (marked & a & v & I & X). exists (marked, a, v). auto.
Qed.
Lemma in_item_values : forall leaf (v : value leaf) x, In x (item_values v) -> within v (Leaf x) \/ exists n, within v (Model n) /\ In x (collect (Model n)).
Proof.
  intros leaf v x I. destruct v; cbn [item_values] in I; try contradiction.
  - destruct I as [<-|[]]. left. constructor.
  - right. exists fields. split; [constructor|exact I].
Qed.
Lemma in_model_values : forall leaf (v : value leaf) x, In x (model_values v) -> exists n, within v (Model n) /\ In x (collect (Model n)).
Proof. intros leaf v x I. destruct v; cbn [model_values] in I; try contradiction. exists fields. split; [constructor|exact I]. Qed.
Lemma in_field_values : forall leaf marked a (v : value leaf) x, In x (field_values marked a v) ->
  (expression_field marked a /\ within v (Leaf x)) \/ exists n, within v (Model n) /\ In x (collect (Model n)).
Proof.
  intros leaf marked a v x I. unfold field_values in I. destruct (marked || contains_expression a) eqn:E.
  - apply expression_field_iff in E. destruct v as [|l|fields|items|values|items|]; try contradiction.
    + destruct I as [<-|[]]. left. split; [exact E|constructor].
    + apply in_flat_map in I as (y & Y & I). apply in_item_values in I as [I|(n & W & I)]; [left; split; [exact E|econstructor; eassumption]|right; exists n; split; [econstructor; eassumption|exact I]].
    + apply in_flat_map in I as (y & Y & I). destruct y as [|l|fields|items|vs|items|]; try contradiction.
      * destruct I as [<-|[]]. left. split; [exact E|]. econstructor; [exact Y|constructor].
      * right. exists fields. split; [econstructor; [exact Y|constructor]|exact I].
      * apply in_flat_map in I as (z & Z & I). apply in_item_values in I as [I|(n & W & I)]; [left; split; [exact E|]|right; exists n; split; [|exact I]]; (econstructor; [exact Y|]; econstructor; [exact Z|assumption]).
  - right. destruct (has_model_type a); [|contradiction]. destruct v as [|l|fields|items|values|items|]; try contradiction.
    + exists fields. split; [constructor|exact I].
    + apply in_flat_map in I as (y & Y & I). apply in_model_values in I as (n & W & I). exists n. split; [econstructor; eassumption|exact I].
    + apply in_flat_map in I as (y & Y & I). destruct y as [|l|fields|items|vs|items|]; try contradiction.
      * exists fields. split; [econstructor; [exact Y|constructor]|exact I].
      * apply in_flat_map in I as (z & Z & I). apply in_model_values in I as (n & W & I). exists n. split; [econstructor; [exact Y|]; econstructor; [exact Z|exact W]|exact I].
Qed.
(** only expressions *)
Lemma collected_used_within : forall leaf (v : value leaf) m x, within v (Model m) -> In x (collect (Model m)) -> uses m x.
Proof.
  intros leaf. induction v as [|y| |fields IH|items IH|items IH|items IH] using value_induct; intros m x W I; try (inversion W; fail).
  - assert (E : fields = m) by (inversion W; reflexivity). subst m. apply in_collect in I as (marked & a & v & F & I). apply in_field_values in I as [[E L]|(n & W' & I)].
    + exists fields, marked, a, v. split; [constructor|auto].
    + destruct (IH marked a v F n x W' I) as (k & mk & ak & vk & S & R). exists k, mk, ak, vk. split; [|exact R]. econstructor; eassumption.
  - inversion W as [|? v ? V W'| |]; subst. eapply IH; eassumption.
  - inversion W as [| |? v ? V W'|]; subst. eapply IH; eassumption.
  - inversion W as [| | |? v ? V W']; subst. eapply IH; eassumption.
Qed.
Lemma only_expressions : forall leaf (variables : leaf -> list string) m s, In s (references variables (Model m)) -> exists x, uses m x /\ In s (variables x).
Proof. intros leaf variables m s I. apply in_flat_map in I as (x & X & I). exists x. split; [|exact I]. eapply collected_used_within; [constructor|exact X]. Qed.

(** all expressions *)
Lemma within_no_container : forall leaf (v x : value leaf), no_container v -> within v x -> x = v.
Proof. intros leaf v x N W. destruct W; [reflexivity|destruct N..]. Qed.
Lemma leaf_in_field : forall leaf marked a (v : value leaf) x, searched_field marked a v -> expression_field marked a -> within v (Leaf x) -> In x (field_values marked a v).
Proof.
  intros leaf marked a v x (S & NM & _) E W. unfold field_values. apply expression_field_iff in E. rewrite E. destruct S as [[N|(items & -> & N)]|(values & -> & N)].
  - apply (within_no_container _ _ _ N) in W. subst v. left. reflexivity.
  - inversion W as [|? y ? Y W'| |]; subst. apply (within_no_container _ _ _ (N y Y)) in W'. subst y. apply in_flat_map. exists (Leaf x). split; [exact Y|left; reflexivity].
  - inversion W as [| |? y ? Y W'|]; subst. apply in_flat_map. exists y. split; [exact Y|]. destruct (N y Y) as [M|(items & -> & M)].
    + apply (within_no_container _ _ _ M) in W'. subst y. left. reflexivity.
    + inversion W' as [|? z ? Z W''| |]; subst. apply (within_no_container _ _ _ (M z Z)) in W''. subst z. apply in_flat_map. exists (Leaf x). split; [exact Z|left; reflexivity].
Qed.
Lemma model_in_field : forall leaf marked a (v : value leaf) n x, searched_field marked a v -> within v (Model n) -> In x (collect (Model n)) -> In x (field_values marked a v).
Proof.
  intros leaf marked a v n x (S & NM & MM) W I. unfold field_values. destruct (marked || contains_expression a) eqn:E.
  - apply expression_field_iff in E. destruct S as [[N|(items & -> & N)]|(values & -> & N)].
    + apply (within_no_container _ _ _ N) in W. subst v. destruct (NM E n eq_refl).
    + inversion W as [|? y ? Y W'| |]; subst. apply (within_no_container _ _ _ (N y Y)) in W'. subst y. apply in_flat_map. exists (Model n). split; [exact Y|exact I].
    + inversion W as [| |? y ? Y W'|]; subst. apply in_flat_map. exists y. split; [exact Y|]. destruct (N y Y) as [M|(items & -> & M)].
      * apply (within_no_container _ _ _ M) in W'. subst y. exact I.
      * inversion W' as [|? z ? Z W''| |]; subst. apply (within_no_container _ _ _ (M z Z)) in W''. subst z. apply in_flat_map. exists (Model n). split; [exact Z|exact I].
  - assert (NE : ~ expression_field marked a) by (intros X; apply expression_field_iff in X; congruence). rewrite (mentions_model_has a (MM NE n W)). destruct S as [[N|(items & -> & N)]|(values & -> & N)].
    + apply (within_no_container _ _ _ N) in W. subst v. exact I.
    + inversion W as [|? y ? Y W'| |]; subst. apply (within_no_container _ _ _ (N y Y)) in W'. subst y. apply in_flat_map. exists (Model n). split; [exact Y|exact I].
    + inversion W as [| |? y ? Y W'|]; subst. apply in_flat_map. exists y. split; [exact Y|]. destruct (N y Y) as [M|(items & -> & M)].
      * apply (within_no_container _ _ _ M) in W'. subst y. exact I.
      * inversion W' as [|? z ? Z W''| |]; subst. apply (within_no_container _ _ _ (M z Z)) in W''. subst z. apply in_flat_map. exists (Model n). split; [exact Z|exact I].
Qed.
Lemma submodel_collected : forall leaf (m n : list (bool * annotation * value leaf)), submodel m n -> searched m -> searched n /\ forall x, In x (collect (Model n)) -> In x (collect (Model m)).
Proof.
  intros leaf m n S. induction S as [m|m marked a v m' n F W S IH]; intros H; [auto|].
  assert (H' : searched m') by (intros k mk ak vk K; apply H; econstructor; eassumption). destruct (IH H') as [Hn C]. split; [exact Hn|]. intros x X. apply in_collect. exists marked, a, v. split; [exact F|].
  apply (model_in_field _ marked a v m' x); [eapply H; [constructor|exact F]|exact W|exact (C x X)].
Qed.
Lemma expressions_found : forall leaf (variables : leaf -> list string) m s, searched m -> (In s (references variables (Model m)) <-> exists x, uses m x /\ In s (variables x)).
Proof.
  intros leaf variables m s H. split; [apply only_expressions|]. intros (x & (n & marked & a & v & S & F & E & W) & V). destruct (submodel_collected leaf m n S H) as [Hn C]. apply in_flat_map. exists x. split; [|exact V]. apply C, in_collect. exists marked, a, v. split; [exact F|].
  apply leaf_in_field; [eapply Hn; [constructor|exact F]|exact E|exact W].
Qed.

(** what is not found *)
Lemma model_or_expression_refuted : exists (m : list (bool * annotation * value string)) x,
  (exists a n, m = [(false, Union [Expr; ModelClass], Model n)] /\ n = [(true, a, Leaf x)]) /\ uses m x /\ references (fun y => [y]) (Model m) = [].
Proof.
  exists [(false, Union [Expr; ModelClass], Model [(true, Plain, Leaf "SIM;RATE"%string)])], "SIM;RATE"%string. split; [|split; [|reflexivity]].
  - exists Plain, [(true, Plain, Leaf "SIM;RATE"%string)]. split; reflexivity.
  - exists [(true, Plain, Leaf "SIM;RATE"%string)], true, Plain, (Leaf "SIM;RATE"%string). split; [|split; [left; reflexivity|split; [left; reflexivity|constructor]]].
    eapply submodel_in; [left; reflexivity|constructor|constructor].
Qed.
Lemma tuple_refuted : exists (m : list (bool * annotation * value string)) x,
  m = [(false, Generic [Expr], Sequence [Leaf x])] /\ uses m x /\ references (fun y => [y]) (Model m) = [].
Proof.
  exists [(false, Generic [Expr], Sequence [Leaf "SIM;RATE"%string])], "SIM;RATE"%string. split; [reflexivity|]. split; [|reflexivity].
  exists [(false, Generic [Expr], Sequence [Leaf "SIM;RATE"%string])], false, (Generic [Expr]), (Sequence [Leaf "SIM;RATE"%string]). split; [constructor|]. split; [left; reflexivity|]. split.
  - right. eapply mentions_generic; [left; reflexivity|constructor].
  - eapply within_sequence; [left; reflexivity|constructor].
Qed.

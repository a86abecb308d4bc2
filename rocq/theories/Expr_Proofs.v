(** Proofs about expressions. *)
From Coq Require Import Ascii String PeanoNat.
From Verif Require Import QcTac Base BaseLemmas Expr_Model Expr_Spec.
Local Open Scope string_scope.
Local Open Scope list_scope.
Local Open Scope nat_scope.

Definition op_of (o : binop) : operation :=
  match o with
  | Pow => OpPow | Mul => OpMul | Div => OpDiv | Add => OpAdd | Sub => OpSub
  | Eq => OpEq | Ne => OpNe | Lt => OpLt | Gt => OpGt | Le => OpLe | Ge => OpGe
  end.

Definition popsb (o1 o2 : binop) : bool :=
  (strength o1 <? strength o2) || ((strength o1 =? strength o2) && negb (right_assoc o1)).

Lemma pops_symbol : forall o1 o2, pops (symbol o1) (symbol o2) = Ok (popsb o1 o2).
Proof. intros [] []; reflexivity. Qed.

Lemma symbol_not_paren : forall o, String.eqb (symbol o) "(" = false /\ String.eqb (symbol o) ")" = false.
Proof. intros []; split; reflexivity. Qed.

Lemma get_operator_symbol : forall o, exists r, get_operator (symbol o) = Ok r /\ op_function r = op_of o.
Proof. intros []; eexists; split; reflexivity. Qed.

Definition admits (k : nat) (stack : list string) : Prop :=
  match stack with
  | [] => True
  | s :: _ => s = "(" \/ exists o2, s = symbol o2 /\ forall o1, k <= strength o1 -> popsb o1 o2 = false
  end.

Lemma admits_mono : forall k k' stack, k <= k' -> admits k stack -> admits k' stack.
Proof.
  intros k k' [|s st] L H; auto. destruct H as [->|(o2 & -> & H)]; [now left|].
  right. exists o2; split; auto. intros o1 H1. apply H. lia.
Qed.

Fixpoint post (e : expr) : list token :=
  match e with
  | ENum v => [TNum v]
  | ERef r => [TRef r]
  | EBin o a b => post a ++ post b ++ [TOp (symbol o)]
  end.

Definition tops (S : list binop) : list token := map (fun o => TOp (symbol o)) S.

Lemma pop_operators_spec : forall o1 S stack out,
  (forall o, In o S -> popsb o1 o = true) -> admits (strength o1) stack ->
  pop_operators (symbol o1) (map symbol S ++ stack) out = Ok (stack, out ++ tops S).
Proof.
  induction S as [|o S IH]; intros stack out HS Hadm.
  - cbn [map app tops]. rewrite app_nil_r. destruct stack as [|s st]; [reflexivity|].
    cbn [pop_operators]. destruct Hadm as [->|(o2 & -> & H)]; [reflexivity|].
    destruct (symbol_not_paren o2) as [-> _]. rewrite pops_symbol. cbn [bind].
    now rewrite (H o1 (Nat.le_refl _)).
  - cbn [map app pop_operators]. destruct (symbol_not_paren o) as [-> _].
    rewrite pops_symbol. cbn [bind]. rewrite HS by now left.
    rewrite IH; auto; [|intros; apply HS; now right]. cbn [tops map]. now rewrite <- app_assoc.
Qed.

Lemma pop_to_parenthesis_spec : forall S stack out,
  pop_to_parenthesis (map symbol S ++ "(" :: stack) out = Ok (stack, out ++ tops S).
Proof.
  induction S as [|o S IH]; intros stack out.
  - cbn. now rewrite app_nil_r.
  - cbn [map app pop_to_parenthesis]. destruct (symbol_not_paren o) as [-> _]. rewrite IH. cbn [tops map].
    now rewrite <- app_assoc.
Qed.

Lemma pop_all_spec : forall S out, pop_all (map symbol S) out = Ok (out ++ tops S).
Proof.
  induction S as [|o S IH]; intros out.
  - cbn. now rewrite app_nil_r.
  - cbn [map pop_all]. destruct (symbol_not_paren o) as [-> _]. rewrite IH. cbn [tops map].
    now rewrite <- app_assoc.
Qed.

Lemma postfix_op : forall o rest stack out,
  postfix_loop (TOp (symbol o) :: rest) stack out =
  do r <- pop_operators (symbol o) stack out; postfix_loop rest (symbol o :: fst r) (snd r).
Proof. intros o rest stack out. cbn [postfix_loop]. destruct (symbol_not_paren o) as [-> ->]. reflexivity. Qed.

Lemma postfix_open : forall rest stack out,
  postfix_loop (TOp "(" :: rest) stack out = postfix_loop rest ("(" :: stack) out.
Proof. reflexivity. Qed.
Lemma postfix_close : forall rest stack out,
  postfix_loop (TOp ")" :: rest) stack out =
  do r <- pop_to_parenthesis stack out; postfix_loop rest (fst r) (snd r).
Proof. reflexivity. Qed.

Lemma popsb_left : forall o1 o, right_assoc o1 = false -> strength o1 <= strength o -> popsb o1 o = true.
Proof.
  intros o1 o Ha L. unfold popsb. rewrite Ha.
  destruct (Nat.ltb_spec (strength o1) (strength o)), (Nat.eqb_spec (strength o1) (strength o)); cbn; auto; lia.
Qed.
Lemma popsb_lt : forall o1 o, strength o1 < strength o -> popsb o1 o = true.
Proof. intros o1 o L. unfold popsb. destruct (Nat.ltb_spec (strength o1) (strength o)); cbn; auto; lia. Qed.
Lemma popsb_gt : forall o1 o, strength o < strength o1 -> popsb o1 o = false.
Proof.
  intros o1 o L. unfold popsb.
  destruct (Nat.ltb_spec (strength o1) (strength o)), (Nat.eqb_spec (strength o1) (strength o)); cbn; auto; lia.
Qed.
Lemma popsb_right_eq : forall o1 o, right_assoc o = true -> strength o <= strength o1 -> popsb o1 o = false.
Proof. intros [] []; cbn; intros; try discriminate; try lia; reflexivity. Qed.

Lemma writes_postfix : forall k ts e, writes k ts e ->
  forall stack out rest, admits k stack ->
  exists S out', postfix_loop (ts ++ rest) stack out = postfix_loop rest (map symbol S ++ stack) out' /\
    (forall o, In o S -> k <= strength o) /\ out' ++ tops S = out ++ post e.
Proof.
  induction 1 as [k v|k r|k ts e H IH|k o ts1 ts2 a b Ha Hk H1 IH1 H2 IH2|k o ts1 ts2 a b Ha Hk H1 IH1 H2 IH2];
    intros stack out rest Hadm.
  - exists [], (out ++ [TNum v]). repeat split; [intros o []|]. cbn. now rewrite app_nil_r.
  - exists [], (out ++ [TRef r]). repeat split; [intros o []|]. cbn. now rewrite app_nil_r.
  - cbn [app]. rewrite <- app_assoc. cbn [app]. rewrite postfix_open.
    destruct (IH ("(" :: stack) out (TOp ")" :: rest)) as (S & out' & E & HS & Hout); [now left|].
    rewrite E, postfix_close, pop_to_parenthesis_spec. cbn [bind fst snd]. rewrite Hout.
    exists [], (out ++ post e). repeat split; [intros o []|]. cbn. now rewrite app_nil_r.
  - rewrite <- app_assoc. cbn [app].
    destruct (IH1 stack out (TOp (symbol o) :: ts2 ++ rest)) as (S1 & out1 & E1 & HS1 & Hout1).
    { now apply (admits_mono k). }
    rewrite E1, postfix_op, pop_operators_spec.
    2:{ intros o' Ho'. apply popsb_left; auto. }
    2:{ now apply (admits_mono k). }
    cbn [bind fst snd]. rewrite Hout1.
    destruct (IH2 (symbol o :: stack) (out ++ post a) rest) as (S2 & out2 & E2 & HS2 & Hout2).
    { right. exists o; split; auto. intros o1 L. apply popsb_gt. lia. }
    rewrite E2. exists (S2 ++ [o]), out2. split; [rewrite map_app, <- app_assoc; reflexivity|].
    split.
    + intros o' Ho'. apply in_app_or in Ho' as [Ho'|[<-|[]]]; [specialize (HS2 _ Ho'); lia|assumption].
    + unfold tops. rewrite map_app. fold (tops S2). rewrite app_assoc, Hout2. cbn [map post].
      now rewrite <- !app_assoc.
  - rewrite <- app_assoc. cbn [app].
    destruct (IH1 stack out (TOp (symbol o) :: ts2 ++ rest)) as (S1 & out1 & E1 & HS1 & Hout1).
    { apply (admits_mono k); auto; lia. }
    rewrite E1, postfix_op, pop_operators_spec.
    2:{ intros o' Ho'. apply popsb_lt. specialize (HS1 _ Ho'). lia. }
    2:{ now apply (admits_mono k). }
    cbn [bind fst snd]. rewrite Hout1.
    destruct (IH2 (symbol o :: stack) (out ++ post a) rest) as (S2 & out2 & E2 & HS2 & Hout2).
    { right. exists o; split; auto. intros o1 L. now apply popsb_right_eq. }
    rewrite E2. exists (S2 ++ [o]), out2. split; [rewrite map_app, <- app_assoc; reflexivity|].
    split.
    + intros o' Ho'. apply in_app_or in Ho' as [Ho'|[<-|[]]]; [specialize (HS2 _ Ho'); lia|assumption].
    + unfold tops. rewrite map_app. fold (tops S2). rewrite app_assoc, Hout2. cbn [map post].
      now rewrite <- !app_assoc.
Qed.

Lemma writes_get_postfix : forall k ts e, writes k ts e -> get_postfix ts = Ok (post e).
Proof.
  intros k ts e H. unfold get_postfix.
  destruct (writes_postfix _ _ _ H [] [] [] I) as (S & out' & E & _ & Hout).
  rewrite app_nil_r in E. rewrite E, app_nil_r. cbn [postfix_loop]. rewrite pop_all_spec, Hout. reflexivity.
Qed.

Fixpoint to_node (e : expr) : node :=
  match e with
  | ENum v => Leaf (TNum v)
  | ERef r => Leaf (TRef r)
  | EBin o a b => Bin (symbol o) (to_node a) (to_node b)
  end.

Lemma tree_loop_post : forall e rest stack,
  tree_loop (post e ++ rest) stack = tree_loop rest (to_node e :: stack).
Proof.
  induction e as [v|r|o a IHa b IHb]; intros rest stack; try reflexivity.
  cbn [post to_node]. rewrite <- !app_assoc. rewrite IHa, IHb. reflexivity.
Qed.

Lemma writes_make_expression : forall k ts e, writes k ts e -> make_expression ts = Ok (to_node e).
Proof.
  intros k ts e H. unfold make_expression. rewrite (writes_get_postfix _ _ _ H). cbn [bind].
  unfold get_tree. pose proof (tree_loop_post e [] []) as E. rewrite app_nil_r in E. now rewrite E.
Qed.

Lemma print_writes : forall e k, writes k (print k e) e.
Proof.
  induction e as [v|r|o a IHa b IHb]; intros k; cbn [print]; try constructor.
  assert (forall k, k <= strength o -> writes k
    (if right_assoc o then print (S (strength o)) a ++ TOp (symbol o) :: print (strength o) b
     else print (strength o) a ++ TOp (symbol o) :: print (S (strength o)) b) (EBin o a b)) as Hb.
  { intros k' L. destruct (right_assoc o) eqn:E; [apply W_right|apply W_left]; auto. }
  destruct (Nat.leb_spec k (strength o)); [now apply Hb|]. apply W_paren. apply Hb. lia.
Qed.

(** *** evaluation *)

Section Eval.
  Variable pow : Qc -> Qc -> Qc.

  Lemma apply_operation_value : forall o x y, apply_operation pow (op_of o) x y = binop_value pow o x y.
  Proof.
    intros [] x y; cbn [op_of apply_operation binop_value]; auto;
      unfold np_div, of_bool, Qceqb, Qcltb, Qcleb;
      repeat match goal with
             | |- context [Qc_eq_dec ?a ?b] => destruct (Qc_eq_dec a b); cbn [negb]
             | |- context [Qclt_le_dec ?a ?b] => destruct (Qclt_le_dec a b); cbn [negb]
             end; reflexivity.
  Qed.

  Definition env_at (variables : variables_dict) (i : nat) (r : string) : Qc :=
    match dict_get String.eqb r variables with Some l => nth i l 0%Qc | None => 0%Qc end.

  Lemma broadcast_eq_length : forall f l m, length l = length m -> broadcast f l m = Ok (map2 f l m).
  Proof. intros f l m E. unfold broadcast. rewrite E. now rewrite Nat.eqb_refl. Qed.

  Lemma nth_repeat_lt : forall A (x d : A) n i, i < n -> nth i (repeat x n) d = x.
  Proof. induction n as [|n IH]; intros i L; [lia|]. destruct i; cbn; auto. apply IH. lia. Qed.

  Lemma nth_map2 : forall A B C (f : A -> B -> C) l m i da db dc,
    i < length l -> i < length m -> nth i (map2 f l m) dc = f (nth i l da) (nth i m db).
  Proof.
    induction l as [|a l IH]; intros [|b m] i da db dc H1 H2; cbn in *; try lia.
    destruct i; auto. apply IH; lia.
  Qed.

  Lemma eval_to_node : forall variables n e,
    (forall r, In r (references e) -> exists l, dict_get String.eqb r variables = Some l /\ length l = n) ->
    exists vec, eval_node pow (to_node e) variables n = Ok vec /\ length vec = n /\
      forall i, i < n -> nth i vec 0%Qc = value pow (env_at variables i) e.
  Proof.
    intros variables n; induction e as [v|r|o a IHa b IHb]; intros H.
    - exists (repeat v n). split; [reflexivity|]. split; [apply repeat_length|].
      intros i L. now apply nth_repeat_lt.
    - destruct (H r) as (l & E & L); [now left|]. exists l. cbn. rewrite E. repeat split; auto.
      intros i _. unfold env_at. now rewrite E.
    - destruct IHa as (va & Ea & La & Ha); [intros; apply H; cbn; apply in_or_app; auto|].
      destruct IHb as (vb & Eb & Lb & Hb); [intros; apply H; cbn; apply in_or_app; auto|].
      destruct (get_operator_symbol o) as (op & Eo & Eop).
      cbn [to_node eval_node]. rewrite Eo. cbn [bind]. rewrite Ea. cbn [bind]. rewrite Eb. cbn [bind].
      rewrite Eop, broadcast_eq_length by congruence.
      eexists. split; [reflexivity|]. split; [rewrite map2_length; lia|].
      intros i L. rewrite (nth_map2 _ _ _ _ _ _ i 0%Qc 0%Qc) by lia. rewrite Ha, Hb by assumption.
      apply apply_operation_value.
  Qed.

  Lemma writes_references : forall k ts e, writes k ts e -> token_references ts = references e.
  Proof.
    unfold token_references.
    induction 1 as [k v|k r|k ts e H IH|k o ts1 ts2 a b Ha Hk H1 IH1 H2 IH2|k o ts1 ts2 a b Ha Hk H1 IH1 H2 IH2];
      cbn; auto.
    - rewrite flat_map_app. cbn. now rewrite app_nil_r.
    - rewrite flat_map_app. cbn. now rewrite IH1, IH2.
    - rewrite flat_map_app. cbn. now rewrite IH1, IH2.
  Qed.

  Theorem evaluate_writes_proof : forall k ts e variables n,
    writes k ts e ->
    (forall r, In r (references e) -> exists l, dict_get String.eqb r variables = Some l /\ length l = n) ->
    exists vec, evaluate pow ts variables n = Ok vec /\ length vec = n /\
      forall i, i < n -> nth i vec 0%Qc = value pow (env_at variables i) e.
  Proof.
    intros k ts e variables n H Hv. unfold evaluate.
    rewrite (writes_make_expression _ _ _ H). cbn [bind].
    rewrite (writes_references _ _ _ H).
    assert (existsb (fun r => match dict_get String.eqb r variables with None => true | _ => false end) (references e) = false) as ->.
    { destruct (existsb _ _) eqn:E; auto. apply existsb_exists in E as (r & Hr & E).
      destruct (Hv r Hr) as (l & El & _). rewrite El in E. discriminate. }
    now apply eval_to_node.
  Qed.

  Theorem evaluate_missing_proof : forall k ts e variables n,
    writes k ts e ->
    (exists r, In r (references e) /\ dict_get String.eqb r variables = None) ->
    evaluate pow ts variables n = Err ValidationError.
  Proof.
    intros k ts e variables n H (r & Hr & E). unfold evaluate.
    rewrite (writes_make_expression _ _ _ H). cbn [bind]. rewrite (writes_references _ _ _ H).
    assert (existsb (fun r => match dict_get String.eqb r variables with None => true | _ => false end) (references e) = true) as ->; auto.
    apply existsb_exists. exists r. now rewrite E.
  Qed.

  (** *** any accepted token sequence evaluates element-wise *)

  Lemma eval_node_length : forall variables n t vec,
    (forall r l, dict_get String.eqb r variables = Some l -> length l = n) ->
    eval_node pow t variables n = Ok vec -> length vec = n.
  Proof.
    intros variables n; induction t as [t|s a IHa b IHb]; intros vec H E; cbn in E.
    - destruct t as [v|s|r|s]; cbn in E; try discriminate.
      + injection E as <-. apply repeat_length.
      + destruct (dict_get _ _ _) as [l|] eqn:Er; cbn in E; [|discriminate]. injection E as <-. eauto.
    - destruct (get_operator s) as [o|]; cbn in E; [|discriminate].
      destruct (eval_node pow a variables n) as [va|] eqn:Ea; cbn in E; [|discriminate].
      destruct (eval_node pow b variables n) as [vb|] eqn:Eb; cbn in E; [|discriminate].
      specialize (IHa _ H eq_refl). specialize (IHb _ H eq_refl).
      rewrite broadcast_eq_length in E by congruence. injection E as <-. rewrite map2_length. lia.
  Qed.

  Lemma eval_node_local : forall v1 v2 n1 n2 i j t vec1 vec2,
    (forall r l, dict_get String.eqb r v1 = Some l -> length l = n1) ->
    (forall r l, dict_get String.eqb r v2 = Some l -> length l = n2) ->
    i < n1 -> j < n2 ->
    (forall r, env_at v1 i r = env_at v2 j r) ->
    eval_node pow t v1 n1 = Ok vec1 -> eval_node pow t v2 n2 = Ok vec2 ->
    nth i vec1 0%Qc = nth j vec2 0%Qc.
  Proof.
    intros v1 v2 n1 n2 i j t; induction t as [t|s a IHa b IHb]; intros vec1 vec2 H1 H2 Li Lj Henv E1 E2; cbn in E1, E2.
    - destruct t as [v|s|r|s]; cbn in E1, E2; try discriminate.
      + injection E1 as <-. injection E2 as <-. now rewrite !nth_repeat_lt.
      + specialize (Henv r). unfold env_at in Henv.
        destruct (dict_get String.eqb r v1) as [l1|]; cbn in E1; [|discriminate].
        destruct (dict_get String.eqb r v2) as [l2|]; cbn in E2; [|discriminate]. congruence.
    - destruct (get_operator s) as [o|]; cbn in E1, E2; [|discriminate].
      destruct (eval_node pow a v1 n1) as [va1|] eqn:Ea1; cbn in E1; [|discriminate].
      destruct (eval_node pow b v1 n1) as [vb1|] eqn:Eb1; cbn in E1; [|discriminate].
      destruct (eval_node pow a v2 n2) as [va2|] eqn:Ea2; cbn in E2; [|discriminate].
      destruct (eval_node pow b v2 n2) as [vb2|] eqn:Eb2; cbn in E2; [|discriminate].
      pose proof (eval_node_length _ _ _ _ H1 Ea1). pose proof (eval_node_length _ _ _ _ H1 Eb1).
      pose proof (eval_node_length _ _ _ _ H2 Ea2). pose proof (eval_node_length _ _ _ _ H2 Eb2).
      rewrite broadcast_eq_length in E1 by congruence. rewrite broadcast_eq_length in E2 by congruence.
      injection E1 as <-. injection E2 as <-.
      rewrite (nth_map2 _ _ _ _ _ _ i 0%Qc 0%Qc) by lia. rewrite (nth_map2 _ _ _ _ _ _ j 0%Qc 0%Qc) by lia.
      f_equal; eauto.
  Qed.

  Lemma evaluate_Ok : forall ts v n vec, evaluate pow ts v n = Ok vec ->
    exists t, make_expression ts = Ok t /\ eval_node pow t v n = Ok vec.
  Proof.
    intros ts v n vec E. unfold evaluate in E. destruct (make_expression ts) as [t|]; cbn in E; [|discriminate].
    destruct (existsb _ _); [discriminate|]. eauto.
  Qed.

  Theorem evaluate_elementwise_proof : forall ts v n vec,
    (forall r l, dict_get String.eqb r v = Some l -> length l = n) ->
    evaluate pow ts v n = Ok vec ->
    length vec = n /\
    forall v' n' i j vec',
      (forall r l, dict_get String.eqb r v' = Some l -> length l = n') ->
      i < n -> j < n' ->
      (forall r, match dict_get String.eqb r v, dict_get String.eqb r v' with
                 | Some l, Some l' => nth_error l i = nth_error l' j
                 | None, None => True
                 | _, _ => False end) ->
      evaluate pow ts v' n' = Ok vec' ->
      nth_error vec i = nth_error vec' j.
  Proof.
    intros ts v n vec Hl E. apply evaluate_Ok in E as (t & Et & E). split; [eapply eval_node_length; eauto|].
    intros v' n' i j vec' Hl' Li Lj Henv E'. apply evaluate_Ok in E' as (t' & Et' & E').
    assert (t' = t) by congruence; subst t'.
    pose proof (eval_node_length _ _ _ _ Hl E). pose proof (eval_node_length _ _ _ _ Hl' E').
    rewrite (nth_error_nth' vec 0%Qc) by lia. rewrite (nth_error_nth' vec' 0%Qc) by lia. f_equal.
    eapply (eval_node_local v v' n n'); eauto. intros r. specialize (Henv r). unfold env_at.
    destruct (dict_get String.eqb r v) as [l|] eqn:E1, (dict_get String.eqb r v') as [l'|] eqn:E2; try contradiction; auto.
    rewrite <- (nth_default_eq i), <- (nth_default_eq j). unfold nth_default. now rewrite Henv.
  Qed.
End Eval.

(** *** what is rejected *)

Fixpoint parens (stack : list string) : nat :=
  match stack with [] => 0 | s :: st => (if String.eqb s "(" then 1 else 0) + parens st end.
Fixpoint ops (stack : list string) : nat :=
  match stack with [] => 0 | s :: st => (if String.eqb s "(" then 0 else 1) + ops st end.

Definition n_operands (ts : list token) : nat := length (filter is_operand ts).
Definition n_operators (ts : list token) : nat := length (filter is_operator ts).
Definition no_parens (ts : list token) : Prop := forall s, In (TOp s) ts -> s <> "(" /\ s <> ")".

Lemma pop_operators_counts : forall o1 stack out st' out',
  pop_operators o1 stack out = Ok (st', out') ->
  parens st' = parens stack /\ ops st' + (length out') = ops stack + length out /\
  n_operands out' = n_operands out /\
  (forall s, In s st' -> In s stack) /\
  (forall s, In (TOp s) out' -> In (TOp s) out \/ (In s stack /\ s <> "(")).
Proof.
  induction stack as [|o2 st IH]; intros out st' out' E; cbn in E.
  - injection E as <- <-. repeat split; auto.
  - destruct (String.eqb o2 "(") eqn:Ep; [injection E as <- <-; repeat split; auto|].
    destruct (pops o1 o2) as [[]|]; cbn in E; try discriminate; [|injection E as <- <-; repeat split; auto].
    apply IH in E as (H1 & H2 & H3 & H4 & H5). cbn [parens ops]. rewrite Ep.
    rewrite app_length in H2. cbn in H2. unfold n_operands in *. rewrite filter_app in H3. cbn in H3. rewrite app_nil_r in H3.
    repeat split; auto; try lia.
    + intros s Hs. right; auto.
    + intros s Hs. apply H5 in Hs as [Hs|[Hs1 Hs2]]; [|right; split; auto; now right].
      apply in_app_or in Hs as [Hs|[[= <-]|[]]]; auto. right. split; [now left|]. now apply String.eqb_neq.
Qed.

Lemma pop_to_parenthesis_counts : forall stack out st' out',
  pop_to_parenthesis stack out = Ok (st', out') ->
  parens stack = S (parens st') /\ ops st' + (length out') = ops stack + length out /\
  n_operands out' = n_operands out /\
  (forall s, In s st' -> In s stack) /\
  (forall s, In (TOp s) out' -> In (TOp s) out \/ (In s stack /\ s <> "(")).
Proof.
  induction stack as [|o2 st IH]; intros out st' out' E; cbn in E; [discriminate|].
  cbn [parens ops]. destruct (String.eqb o2 "(") eqn:Ep.
  - injection E as <- <-. repeat split; auto. intros s Hs; now right.
  - apply IH in E as (H1 & H2 & H3 & H4 & H5).
    rewrite app_length in H2. cbn in H2. unfold n_operands in *. rewrite filter_app in H3. cbn in H3. rewrite app_nil_r in H3.
    repeat split; auto; try lia.
    + intros s Hs. right; auto.
    + intros s Hs. apply H5 in Hs as [Hs|[Hs1 Hs2]]; [|right; split; auto; now right].
      apply in_app_or in Hs as [Hs|[[= <-]|[]]]; auto. right. split; [now left|]. now apply String.eqb_neq.
Qed.

Lemma pop_all_counts : forall stack out out', pop_all stack out = Ok out' ->
  parens stack = 0 /\ length out' = ops stack + length out /\ n_operands out' = n_operands out /\
  (forall s, In (TOp s) out' -> In (TOp s) out \/ (In s stack /\ s <> "(")).
Proof.
  induction stack as [|o2 st IH]; intros out out' E; cbn in E; [injection E as <-; auto|].
  cbn [parens ops]. destruct (String.eqb o2 "(") eqn:Ep; [discriminate|].
  apply IH in E as (H1 & H2 & H3 & H5). rewrite app_length in H2. cbn in H2.
  unfold n_operands in *. rewrite filter_app in H3. cbn in H3. rewrite app_nil_r in H3.
  repeat split; auto; try lia. intros s Hs. apply H5 in Hs as [Hs|[Hs1 Hs2]]; [|right; split; auto; now right].
  apply in_app_or in Hs as [Hs|[[= <-]|[]]]; auto. right. split; [now left|]. now apply String.eqb_neq.
Qed.

Lemma postfix_loop_counts : forall ts stack out out',
  (forall s, In s stack -> s <> ")") -> (forall s, In (TOp s) out -> s <> "(" /\ s <> ")") ->
  postfix_loop ts stack out = Ok out' ->
  balanced (parens stack) ts /\
  length out' = length out + ops stack + n_operands ts + n_operators ts /\
  n_operands out' = n_operands out + n_operands ts /\
  no_parens out'.
Proof.
  induction ts as [|t ts IH]; intros stack out out' Hst Hout E.
  - cbn in E. apply pop_all_counts in E as (H1 & H2 & H3 & H4). cbn. repeat split; auto; try lia.
    + intros ->. apply H4 in H as [H|[H H']]; [now apply Hout in H|now apply H'].
    + intros ->. apply H4 in H as [H|[H H']]; [now apply Hout in H|]. now apply Hst in H.
  - assert (forall t0, is_operand t0 = true -> postfix_loop ts stack (out ++ [t0]) = Ok out' ->
             balanced (parens stack) ts /\ length out' = length out + ops stack + S (n_operands ts) + n_operators ts /\
             n_operands out' = n_operands out + S (n_operands ts) /\ no_parens out') as Hop.
    { intros t0 Ho E0. apply IH in E0 as (H1 & H2 & H3 & H4); auto.
      - rewrite app_length in H2. cbn in H2. unfold n_operands in *. rewrite filter_app, app_length in H3. cbn in H3. rewrite Ho in H3. cbn in H3.
        repeat split; auto; try lia; apply H4; auto.
      - intros s Hs. apply in_app_or in Hs as [Hs|[->|[]]]; auto. cbn in Ho; discriminate. }
    destruct t as [v|s|r|s]; cbn in E; try (apply Hop in E; [|reflexivity]; exact E).
    cbn [balanced]. unfold n_operands, n_operators in *. cbn [filter is_operand is_operator].
    destruct (String.eqb s "(") eqn:E1; [|destruct (String.eqb s ")") eqn:E2]; cbn [orb negb].
    + apply IH in E as (H1 & H2 & H3 & H4); auto.
      * cbn [parens ops] in *. rewrite E1 in *. repeat split; auto; try lia; apply H4; auto.
      * intros s' [<-|Hs']; auto. apply String.eqb_eq in E1. subst. discriminate.
    + destruct (pop_to_parenthesis stack out) as [[st' o']|] eqn:Ep; cbn in E; [|discriminate].
      apply pop_to_parenthesis_counts in Ep as (P1 & P2 & P3 & P4 & P5).
      apply IH in E as (H1 & H2 & H3 & H4); auto.
      * rewrite P1. unfold n_operands in *. repeat split; auto; try lia; apply H4; auto.
      * intros s' Hs'. apply P5 in Hs' as [Hs'|[Hs' Hn]]; auto.
    + destruct (pop_operators s stack out) as [[st' o']|] eqn:Ep; cbn in E; [|discriminate].
      apply pop_operators_counts in Ep as (P1 & P2 & P3 & P4 & P5).
      apply IH in E as (H1 & H2 & H3 & H4); auto.
      * cbn [parens ops] in *. rewrite E1 in *. rewrite P1 in H1. unfold n_operands in *. cbn [length]. repeat split; auto; try lia; apply H4; auto.
      * intros s' [<-|Hs']; auto. apply String.eqb_neq in E2. auto.
      * intros s' Hs'. apply P5 in Hs' as [Hs'|[Hs' Hn]]; auto.
Qed.

Lemma tree_loop_counts : forall ts stack n, tree_loop ts stack = Ok n ->
  (length ts - n_operands ts) + 1 <= length stack + n_operands ts.
Proof.
  induction ts as [|t ts IH]; intros stack n E; cbn in E.
  - destruct stack; [discriminate|]. cbn. lia.
  - assert (forall ts, n_operands ts <= length ts) as Hle by (induction ts0 as [|x l IHl]; cbn; [lia|]; unfold n_operands in *; cbn; destruct (is_operand x); cbn; lia).
    destruct t as [v|s|r|s]; unfold n_operands in *; cbn [filter is_operand length] in *;
      try (apply IH in E; cbn [length] in E; lia).
    destruct stack as [|r [|l st]]; try discriminate. apply IH in E. cbn [length] in *.
    specialize (Hle ts). lia.
Qed.

Theorem accepted_shape_proof : forall ts n, make_expression ts = Ok n ->
  balanced 0 ts /\ length (filter is_operator ts) + 1 <= length (filter is_operand ts).
Proof.
  intros ts n E. unfold make_expression, get_postfix in E.
  destruct (postfix_loop ts [] []) as [p|[]] eqn:Ep; cbn in E; try discriminate.
  apply postfix_loop_counts in Ep as (H1 & H2 & H3 & H4); [|intros s []|intros s []].
  split; auto. unfold get_tree in E.
  assert (tree_loop p [] = Ok n) as E' by (destruct (tree_loop p []) as [|[]]; congruence).
  apply tree_loop_counts in E'. unfold n_operands, n_operators in *. cbn in *. lia.
Qed.

Lemma juxtaposition_refuted_proof :
  exists ts, make_expression ts = Ok (Leaf (TNum 1%Qc)) /\ forall k e, ~ writes k ts e.
Proof.
  exists [TNum (1 + 1)%Qc; TNum 1%Qc]. split; [reflexivity|].
  intros k e H. assert (get_postfix [TNum (1 + 1)%Qc; TNum 1%Qc] = Ok (post e)) as E by (eapply writes_get_postfix; eauto).
  unfold get_postfix in E. cbn in E. injection E as E.
  assert (forall e rest, tree_loop (post e ++ rest) [] = tree_loop rest [to_node e]) as T by (intros; apply tree_loop_post).
  destruct e as [v|r|o a b]; cbn in E; try discriminate.
  apply (f_equal (@rev token)) in E. rewrite !rev_app_distr in E. cbn in E. injection E as E _. discriminate.
Qed.

Lemma unsupported_operator_refuted_proof :
  exists ts n, make_expression ts = Ok n /\ forall pow vars k, evaluate pow ts vars k = Err ValueError.
Proof.
  exists [TNum 1%Qc; TOp ";"; TNum 1%Qc]. eexists. split; [reflexivity|]. intros; reflexivity.
Qed.

Lemma empty_expression_proof : make_expression [] = Err IndexError.
Proof. reflexivity. Qed.

Theorem multiply_proof : forall k1 k2 ts1 ts2 e1 e2, writes k1 ts1 e1 -> writes k2 ts2 e2 ->
  writes 0 (multiply_tokens ts1 ts2) (EBin Mul e1 e2).
Proof.
  intros k1 k2 ts1 ts2 e1 e2 H1 H2.
  assert (forall k ts e, writes k ts e -> writes 0 ts e) as Hw.
  { intros k ts e H. destruct H; econstructor; eauto; lia. }
  unfold multiply_tokens.
  replace ([TOp "("] ++ ts1 ++ [TOp ")"] ++ [TOp "{*}"] ++ [TOp "("] ++ ts2 ++ [TOp ")"])
    with ((TOp "(" :: ts1 ++ [TOp ")"]) ++ TOp (symbol Mul) :: (TOp "(" :: ts2 ++ [TOp ")"])).
  2:{ cbn. rewrite <- !app_assoc. reflexivity. }
  apply W_left; [reflexivity|cbn; lia| |]; apply W_paren; eauto.
Qed.

(** An evaluated token sequence without operands side by side is a well-formed infix expression. *)
From Coq Require Import Ascii String PeanoNat.
From Verif Require Import QcTac Base BaseLemmas Expr_Model Expr_Spec Expr_Proofs.
Local Open Scope string_scope.
Local Open Scope list_scope.
Local Open Scope nat_scope.

(** *** what the counts say when no operands are side by side *)

(** [run want ts]: operands and operators alternate; [want]: an operand comes next *)
Fixpoint run (want : bool) (ts : list token) : Prop :=
  match ts with
  | [] => want = false
  | TOp s :: rest =>
      if String.eqb s "(" then want = true /\ run true rest
      else if String.eqb s ")" then want = false /\ run false rest
      else want = false /\ run true rest
  | _ :: rest => want = true /\ run false rest
  end.

Definition starts (t : token) : bool :=
  match t with TOp s => String.eqb s "(" | _ => true end.
Definition ends (t : token) : bool :=
  match t with TOp s => String.eqb s ")" | _ => true end.

(** [apart after ts]: nothing side by side, [after]: the token before was the end of an operand *)
Fixpoint apart (after : bool) (ts : list token) : Prop :=
  match ts with
  | [] => True
  | t :: rest => (after = true -> starts t = false) /\ apart (ends t) rest
  end.

Lemma apart_of : forall ts p, ~ side_by_side (p :: ts) -> apart (ends p) ts.
Proof.
  induction ts as [|t ts IH]; intros p H; [exact I|]. split.
  - intros E. destruct (starts t) eqn:S; [|reflexivity]. exfalso. apply H.
    exists [], p, t, ts. split; [reflexivity|]. split.
    + destruct p as [v|s|r|s]; cbn in *; try (now left). apply String.eqb_eq in E. subst. now right.
    + destruct t as [v|s|r|s]; cbn in *; try (now left). apply String.eqb_eq in S. subst. now right.
  - apply IH. intros (before & a & b & after & E & Ha & Hb). apply H.
    exists (p :: before), a, b, after. rewrite E. auto.
Qed.

Lemma apart_start : forall ts, ~ side_by_side ts -> apart false ts.
Proof.
  intros [|t ts] H; [exact I|]. split; [discriminate|]. now apply apart_of.
Qed.

Lemma apart_counts : forall ts after, apart after ts ->
  n_operands ts <= n_operators ts + (if after then 0 else 1) /\
  (n_operands ts = n_operators ts + (if after then 0 else 1) -> run (negb after) ts).
Proof.
  induction ts as [|t ts IH]; intros after H.
  - cbn. destruct after; split; try lia; auto.
  - destruct H as [H1 H2]. apply IH in H2 as [L R]. unfold n_operands, n_operators in *.
    destruct t as [v|s|r|s]; cbn [filter is_operand is_operator length starts ends run] in *;
      try (destruct after; [specialize (H1 eq_refl); discriminate|]; split; [lia|];
           intros E; split; [reflexivity|]; apply R; lia).
    destruct (String.eqb s "(") eqn:E1; [|destruct (String.eqb s ")") eqn:E2]; cbn [orb negb length] in *.
    + assert (String.eqb s ")" = false) as E2 by (apply String.eqb_eq in E1; subst; reflexivity).
      rewrite E2 in *. destruct after; [specialize (H1 eq_refl); discriminate|].
      split; [lia|]. intros E. split; [reflexivity|]. apply R. lia.
    + destruct after; (split; [lia|]); intros E; [|lia].
      split; [reflexivity|]. apply R. lia.
    + destruct after; (split; [lia|]); intros E; [|lia].
      split; [reflexivity|]. apply R. lia.
Qed.

(** *** an alternating, balanced sequence of supported tokens can be parsed *)

Definition supported (t : token) : Prop :=
  match t with
  | TNum _ => True
  | TRef _ => True
  | TNumText _ => False
  | TOp s => s = "(" \/ s = ")" \/ exists o, s = symbol o
  end.

(** a term: written at every level *)
Definition term (ts : list token) (e : expr) : Prop := forall k, writes k ts e.

Fixpoint flat (ts : list token) (l : list (binop * (list token * expr))) : list token :=
  match l with
  | [] => ts
  | (o, (ts', _)) :: rest => ts ++ TOp (symbol o) :: flat ts' rest
  end.

Lemma flat_split : forall l1 ts o ts' e' l2,
  flat ts (l1 ++ (o, (ts', e')) :: l2) = flat ts l1 ++ TOp (symbol o) :: flat ts' l2.
Proof.
  induction l1 as [|[o1 [t1 e1]] l1 IH]; intros; cbn [flat app]; [reflexivity|].
  rewrite IH, <- app_assoc. reflexivity.
Qed.

Lemma weakest : forall (l : list (binop * (list token * expr))), l <> [] ->
  exists l1 x l2, l = l1 ++ x :: l2 /\
    (forall y, In y l1 -> if right_assoc (fst x) then strength (fst x) < strength (fst y)
                          else strength (fst x) <= strength (fst y)) /\
    (forall y, In y l2 -> if right_assoc (fst x) then strength (fst x) <= strength (fst y)
                          else strength (fst x) < strength (fst y)).
Proof.
  induction l as [|z l IH]; intros H; [contradiction|].
  destruct l as [|z' l'] eqn:El.
  - exists [], z, []. split; [reflexivity|]. split; intros y [].
  - destruct IH as (l1 & x & l2 & E & H1 & H2); [discriminate|]. rewrite E.
    destruct (le_lt_dec (strength (fst z)) (strength (fst x))) as [L|L].
    + destruct (Nat.eq_dec (strength (fst z)) (strength (fst x))) as [Q|Q].
      * destruct (right_assoc (fst z)) eqn:R.
        -- assert (right_assoc (fst x) = true) as Rx by (destruct (fst z), (fst x); cbn in *; congruence).
           exists [], z, (l1 ++ x :: l2). split; [reflexivity|]. rewrite R, Rx in *. split; [intros y []|].
           intros y Hy. apply in_app_or in Hy as [Hy|[<-|Hy]]; [apply H1 in Hy| |apply H2 in Hy]; lia.
        -- assert (right_assoc (fst x) = false) as Rx by (destruct (fst z), (fst x); cbn in *; congruence).
           exists (z :: l1), x, l2. split; [reflexivity|]. rewrite Rx in *. split; [|exact H2].
           intros y [<-|Hy]; [lia|auto].
      * exists [], z, (l1 ++ x :: l2). split; [reflexivity|]. split; [intros y []|].
        intros y Hy. assert (strength (fst x) <= strength (fst y)) as Ly.
        { apply in_app_or in Hy as [Hy|[<-|Hy]]; [apply H1 in Hy|lia|apply H2 in Hy]; destruct (right_assoc (fst x)); lia. }
        destruct (right_assoc (fst z)); lia.
    + exists (z :: l1), x, l2. split; [reflexivity|]. split; [|exact H2].
      intros y [<-|Hy]; [destruct (right_assoc (fst x)); lia|exact (H1 y Hy)].
Qed.

Lemma flat_parses : forall n l ts e, length l <= n -> term ts e ->
  (forall x, In x l -> term (fst (snd x)) (snd (snd x))) ->
  exists e', forall k, (forall x, In x l -> k <= strength (fst x)) -> writes k (flat ts l) e'.
Proof.
  induction n as [|n IH]; intros l ts e L T Hl.
  { destruct l; [|cbn in L; lia]. exists e. intros k _. apply T. }
  destruct l as [|z l0]; [exists e; intros k _; apply T|].
  destruct (weakest (z :: l0)) as (l1 & [o [ts' e']] & l2 & E & H1 & H2); [discriminate|]. rewrite E in *.
  clear E. rewrite flat_split. rewrite app_length in L. cbn [length fst snd] in *.
  destruct (IH l1 ts e) as (a & Ha); [lia|exact T|intros x Hx; apply Hl, in_or_app; now left|].
  destruct (IH l2 ts' e') as (b & Hb); [lia| |intros x Hx; apply Hl, in_or_app; right; now right|].
  { apply (Hl (o, (ts', e'))). apply in_or_app; right; now left. }
  exists (EBin o a b). intros k Hk.
  assert (k <= strength o) as Hko by (apply (Hk (o, (ts', e'))), in_or_app; right; now left).
  destruct (right_assoc o) eqn:R.
  - apply W_right; [exact R|exact Hko|apply Ha|apply Hb]; intros x Hx; [apply H1 in Hx|apply H2 in Hx];
      rewrite ?R in Hx; lia.
  - apply W_left; [exact R|exact Hko|apply Ha|apply Hb]; intros x Hx; [apply H1 in Hx|apply H2 in Hx];
      rewrite ?R in Hx; lia.
Qed.

Lemma closing : forall ts d, balanced (S d) ts ->
  exists ts1 ts2, ts = ts1 ++ TOp ")" :: ts2 /\ balanced 0 ts1 /\ balanced d ts2.
Proof.
  assert (forall n ts, length ts <= n -> forall d, balanced (S d) ts ->
    exists ts1 ts2, ts = ts1 ++ TOp ")" :: ts2 /\ balanced 0 ts1 /\ balanced d ts2) as G;
    [|intros ts d; apply (G (length ts)); lia].
  induction n as [|n IH]; intros ts L d B.
  { destruct ts; [discriminate B|cbn in L; lia]. }
  destruct ts as [|t ts]; [discriminate B|]. cbn [length] in L.
  assert (forall t0, balanced (S d) (t0 :: ts) = balanced (S d) ts ->
             (forall r, balanced 0 (t0 :: r) = balanced 0 r) -> balanced (S d) (t0 :: ts) ->
             exists ts1 ts2, t0 :: ts = ts1 ++ TOp ")" :: ts2 /\ balanced 0 ts1 /\ balanced d ts2) as Skip.
  { intros t0 E0 E1 B0. rewrite E0 in B0. apply IH in B0 as (ts1 & ts2 & -> & B1 & B2); [|lia].
    exists (t0 :: ts1), ts2. split; [reflexivity|]. split; [|exact B2]. now rewrite E1. }
  destruct t as [v|s|r|s]; try (now apply Skip).
  destruct (String.eqb s "(") eqn:E1; [|destruct (String.eqb s ")") eqn:E2].
  - cbn [balanced] in B. rewrite E1 in B. apply IH in B as (ts1 & ts2 & -> & B1 & B2); [|lia].
    apply IH in B2 as (ts3 & ts4 & -> & B3 & B4); [|rewrite app_length in L; cbn in L; lia].
    exists (TOp s :: ts1 ++ TOp ")" :: ts3), ts4. split; [cbn; now rewrite <- app_assoc|]. split; [|exact B4].
    cbn [balanced]. rewrite E1. clear - B1 B3.
    assert (forall ts d, balanced d ts -> balanced (S d) (ts ++ TOp ")" :: ts3)) as A.
    { clear ts1 B1. induction ts as [|t ts IH]; intros d B.
      - cbn in B. subst d. exact B3.
      - cbn [app]. destruct t as [v|s|r|s]; cbn [balanced] in *; auto.
        destruct (String.eqb s "("); auto. destruct (String.eqb s ")"); auto.
        destruct d; [contradiction|]. auto. }
    now apply A.
  - cbn [balanced] in B. rewrite E1, E2 in B. apply String.eqb_eq in E2. subst s.
    exists [], ts. split; [reflexivity|]. split; [reflexivity|exact B].
  - apply Skip; auto; intros; cbn [balanced]; rewrite E1, E2; reflexivity.
Qed.

Lemma run_split : forall ts1 ts2 w, run w (ts1 ++ TOp ")" :: ts2) -> run w ts1 /\ run false ts2.
Proof.
  induction ts1 as [|t ts1 IH]; intros ts2 w R.
  - cbn in R. exact R.
  - cbn [app run] in *. destruct t as [v|s|r|s]; try (destruct R as [R1 R2]; apply IH in R2; tauto).
    destruct (String.eqb s "("); [|destruct (String.eqb s ")")]; destruct R as [R1 R2]; apply IH in R2; tauto.
Qed.

Lemma parses : forall n ts, length ts <= n -> run true ts -> balanced 0 ts -> Forall supported ts ->
  exists t0 e0 l, ts = flat t0 l /\ term t0 e0 /\ forall x, In x l -> term (fst (snd x)) (snd (snd x)).
Proof.
  induction n as [|n IH]; intros ts L R B S.
  { destruct ts; [discriminate R|cbn in L; lia]. }
  assert (forall t0 e0 rest, length rest <= n -> term t0 e0 -> run false rest -> balanced 0 rest -> Forall supported rest ->
            exists l, t0 ++ rest = flat t0 l /\ forall x, In x l -> term (fst (snd x)) (snd (snd x))) as Tail.
  { intros t0 e0 rest Ln T0 Rr Br Sr. destruct rest as [|t rest].
    - exists []. split; [apply app_nil_r|intros x []].
    - cbn [run balanced] in Rr, Br. destruct t as [v|s|r|s]; try (destruct Rr; discriminate).
      destruct (String.eqb s "(") eqn:E1; [destruct Rr; discriminate|].
      destruct (String.eqb s ")") eqn:E2; [contradiction|]. destruct Rr as [_ Rr].
      inversion Sr as [|x y Sx Sy]; subst. destruct Sx as [->|[->|(o & ->)]]; [discriminate|discriminate|].
      destruct (IH rest) as (t1 & e1 & l & -> & T1 & Tl); auto; [cbn in Ln; lia|].
      exists ((o, (t1, e1)) :: l). split; [reflexivity|]. intros x [<-|Hx]; [exact T1|auto]. }
  destruct ts as [|t ts]; [discriminate R|]. cbn [length] in L. inversion S as [|x y Sx Sy]; subst.
  cbn [run balanced] in R, B. destruct t as [v|s|r|s].
  - destruct R as [_ R]. destruct (Tail [TNum v] (ENum v) ts) as (l & El & Tl); auto; [lia|intros k; constructor|].
    exists [TNum v], (ENum v), l. split; [exact El|]. split; [intros k; constructor|exact Tl].
  - contradiction.
  - destruct R as [_ R]. destruct (Tail [TRef r] (ERef r) ts) as (l & El & Tl); auto; [lia|intros k; constructor|].
    exists [TRef r], (ERef r), l. split; [exact El|]. split; [intros k; constructor|exact Tl].
  - destruct (String.eqb s "(") eqn:E1; [|destruct (String.eqb s ")"); destruct R; discriminate].
    apply String.eqb_eq in E1. subst s. destruct R as [_ R]. apply closing in B as (ts1 & ts2 & -> & B1 & B2).
    apply run_split in R as [R1 R2]. rewrite app_length in L. cbn [length] in L.
    apply Forall_app in Sy as [S1 S2]. inversion S2; subst.
    destruct (IH ts1) as (t1 & e1 & l1 & E & T1 & Tl1); auto; [lia|].
    destruct (flat_parses _ l1 t1 e1 (Nat.le_refl _) T1 Tl1) as (e & He).
    assert (term (TOp "(" :: ts1 ++ [TOp ")"]) e) as T.
    { intros k. apply W_paren. rewrite E. apply He. intros; lia. }
    destruct (Tail _ _ ts2 ltac:(lia) T R2 B2) as (l & El & Tl); [assumption|].
    exists (TOp "(" :: ts1 ++ [TOp ")"]), e, l. split; [|split; auto].
    rewrite <- El. cbn. now rewrite <- app_assoc.
Qed.

(** *** every token of an accepted sequence without operands side by side is evaluated *)

Fixpoint in_node (t : token) (n : node) : Prop :=
  match n with
  | Leaf t' => t = t'
  | Bin s a b => t = TOp s \/ in_node t a \/ in_node t b
  end.

Lemma pop_operators_keeps : forall o1 stack out st' out',
  pop_operators o1 stack out = Ok (st', out') ->
  (forall s, In s stack -> In s st' \/ In (TOp s) out') /\ (forall t, In t out -> In t out').
Proof.
  induction stack as [|o2 st IH]; intros out st' out' E; cbn in E.
  - injection E as <- <-. auto.
  - destruct (String.eqb o2 "("); [injection E as <- <-; auto|].
    destruct (pops o1 o2) as [[]|]; cbn in E; try discriminate; [|injection E as <- <-; auto].
    apply IH in E as [H1 H2]. split; [|intros t Ht; apply H2, in_or_app; now left].
    intros s [<-|Hs]; auto. right. apply H2, in_or_app. right; now left.
Qed.

Lemma pop_to_parenthesis_keeps : forall stack out st' out',
  pop_to_parenthesis stack out = Ok (st', out') ->
  (forall s, In s stack -> s <> "(" -> In s st' \/ In (TOp s) out') /\ (forall t, In t out -> In t out').
Proof.
  induction stack as [|o2 st IH]; intros out st' out' E; cbn in E; [discriminate|].
  destruct (String.eqb o2 "(") eqn:Ep.
  - injection E as <- <-. split; auto. intros s [<-|Hs] N; auto. apply String.eqb_eq in Ep. contradiction.
  - apply IH in E as [H1 H2]. split; [|intros t Ht; apply H2, in_or_app; now left].
    intros s [<-|Hs] N; auto. right. apply H2, in_or_app. right; now left.
Qed.

Lemma pop_all_keeps : forall stack out out', pop_all stack out = Ok out' ->
  (forall s, In s stack -> In (TOp s) out') /\ (forall t, In t out -> In t out').
Proof.
  induction stack as [|o2 st IH]; intros out out' E; cbn in E.
  - injection E as <-. split; auto. intros s [].
  - destruct (String.eqb o2 "("); [discriminate|]. apply IH in E as [H1 H2].
    split; [|intros t Ht; apply H2, in_or_app; now left].
    intros s [<-|Hs]; auto. apply H2, in_or_app. right; now left.
Qed.

Definition no_paren (t : token) : Prop := t <> TOp "(" /\ t <> TOp ")".

Lemma postfix_loop_keeps : forall ts stack out out', postfix_loop ts stack out = Ok out' ->
  (forall t, In t out -> In t out') /\ (forall s, In s stack -> s <> "(" -> In (TOp s) out') /\
  (forall t, In t ts -> no_paren t -> In t out').
Proof.
  induction ts as [|t ts IH]; intros stack out out' E.
  - cbn in E. apply pop_all_keeps in E as [H1 H2]. repeat split; auto. intros t [].
  - assert (forall t0, postfix_loop ts stack (out ++ [t0]) = Ok out' ->
              (forall t, In t out -> In t out') /\ (forall s, In s stack -> s <> "(" -> In (TOp s) out') /\
              (forall t, In t (t0 :: ts) -> no_paren t -> In t out')) as Hop.
    { intros t0 E0. apply IH in E0 as (H1 & H2 & H3). split; [intros x Hx; apply H1, in_or_app; now left|].
      split; auto. intros x [<-|Hx] N; auto. apply H1, in_or_app. right; now left. }
    destruct t as [v|s|r|s]; cbn in E; try (now apply Hop in E).
    destruct (String.eqb s "(") eqn:E1; [|destruct (String.eqb s ")") eqn:E2].
    + apply IH in E as (H1 & H2 & H3). split; auto. split; [intros s' Hs'; apply H2; now right|].
      intros t [<-|Ht] N; auto. apply String.eqb_eq in E1. subst. destruct N; congruence.
    + destruct (pop_to_parenthesis stack out) as [[st' o']|] eqn:Ep; cbn in E; [|discriminate].
      apply pop_to_parenthesis_keeps in Ep as (P1 & P2). apply IH in E as (H1 & H2 & H3). split; auto.
      split; [intros s' Hs' N; destruct (P1 s' Hs' N); auto|].
      intros t [<-|Ht] N; auto. apply String.eqb_eq in E2. subst. destruct N; congruence.
    + destruct (pop_operators s stack out) as [[st' o']|] eqn:Ep; cbn in E; [|discriminate].
      apply pop_operators_keeps in Ep as (P1 & P2). apply IH in E as (H1 & H2 & H3). split; auto.
      split; [intros s' Hs' N; destruct (P1 s' Hs'); auto; apply H2; auto; now right|].
      intros t [<-|Ht] N; auto. apply H2; [now left|]. now apply String.eqb_neq.
Qed.

Lemma tree_loop_keeps : forall ts stack n, no_parens ts -> tree_loop ts stack = Ok n ->
  length stack + n_operands ts = n_operators ts + 1 ->
  (forall t, In t ts -> in_node t n) /\ (forall m t, In m stack -> in_node t m -> in_node t n).
Proof.
  induction ts as [|t ts IH]; intros stack n P E C.
  - cbn in E, C. destruct stack as [|m [|m' st]]; cbn in C; try lia. injection E as <-. split; [intros t []|].
    intros m' t [<-|[]] Ht; exact Ht.
  - assert (no_parens ts) as P' by (intros s Hs; apply P; now right).
    unfold n_operands, n_operators in *.
    destruct t as [v|s|r|s]; cbn [filter is_operand is_operator length tree_loop] in *;
      try (apply IH in E as [H1 H2]; [|exact P'|cbn [length]; lia];
           split; [intros t [<-|Ht]; [apply (H2 _ _ (or_introl eq_refl)); reflexivity|auto]
                  |intros m t Hm; apply H2; now right]).
    destruct (P s (or_introl eq_refl)) as [N1 N2].
    apply String.eqb_neq in N1, N2. rewrite N1, N2 in C. cbn [orb negb length] in C.
    destruct stack as [|r [|l st]]; try discriminate. apply IH in E as [H1 H2]; [|exact P'|cbn [length] in *; lia].
    split.
    + intros t [<-|Ht]; auto. apply (H2 _ _ (or_introl eq_refl)). cbn. now left.
    + intros m t [<-|[<-|Hm]] Ht.
      * apply (H2 _ _ (or_introl eq_refl)). cbn. auto.
      * apply (H2 _ _ (or_introl eq_refl)). cbn. auto.
      * eapply H2; [right; exact Hm|exact Ht].
Qed.

Lemma get_operator_ok : forall s r, get_operator s = Ok r -> exists o, s = symbol o.
Proof.
  intros s r E. unfold get_operator in E.
  assert (In s (map fst OPERATORS)) as I.
  { destruct (dict_get String.eqb s OPERATORS) as [r'|] eqn:D; [|discriminate].
    clear - D. induction OPERATORS as [|[k v] l IH]; cbn in D; [discriminate|].
    destruct (String.eqb s k) eqn:Q; [left; symmetry; now apply String.eqb_eq|right; auto]. }
  cbn in I.
  repeat (destruct I as [<-|I]; [match goal with |- exists o, ?c = _ =>
    first [exists Pow; reflexivity|exists Mul; reflexivity|exists Div; reflexivity|exists Add; reflexivity
          |exists Sub; reflexivity|exists Eq; reflexivity|exists Ne; reflexivity|exists Lt; reflexivity
          |exists Gt; reflexivity|exists Le; reflexivity|exists Ge; reflexivity] end|]).
  contradiction.
Qed.

Lemma eval_supported : forall pow variables fill n vec, eval_node pow n variables fill = Ok vec ->
  forall t, in_node t n -> supported t.
Proof.
  intros pow variables fill; induction n as [t'|s a IHa b IHb]; intros vec E t Ht; cbn in E, Ht.
  - subst t'. destruct t; cbn in *; auto; discriminate.
  - destruct (get_operator s) as [o|] eqn:G; cbn in E; [|discriminate].
    destruct (eval_node pow a variables fill) as [va|] eqn:Ea; cbn in E; [|discriminate].
    destruct (eval_node pow b variables fill) as [vb|] eqn:Eb; cbn in E; [|discriminate].
    destruct Ht as [->|[Ht|Ht]]; eauto. cbn. right. right. eapply get_operator_ok; eauto.
Qed.

Theorem well_formed_proof : forall pow ts variables n vec,
  ~ side_by_side ts -> evaluate pow ts variables n = Ok vec -> exists e, writes 0 ts e.
Proof.
  intros pow ts variables n vec N E. apply evaluate_Ok in E as (tree & M & V).
  destruct (accepted_shape_proof _ _ M) as [B C]. fold (n_operators ts) (n_operands ts) in C.
  destruct (apart_counts ts false (apart_start ts N)) as [L R]. cbn [negb] in R.
  assert (n_operands ts = n_operators ts + 1) as Q by lia. specialize (R Q).
  assert (Forall supported ts) as S.
  { apply Forall_forall. intros t Ht. unfold make_expression, get_postfix in M.
    destruct (postfix_loop ts [] []) as [p|[]] eqn:Ep; cbn in M; try discriminate.
    assert (tree_loop p [] = Ok tree) as T by (unfold get_tree in M; destruct (tree_loop p []) as [|[]]; congruence).
    destruct (postfix_loop_keeps _ _ _ _ Ep) as (_ & _ & K).
    apply postfix_loop_counts in Ep as (H1 & H2 & H3 & H4); [|intros s []|intros s []].
    assert (n_operators p + n_operands p = length p) as Lp.
    { clear - H4. induction p as [|x p IH]; [reflexivity|].
      assert (no_parens p) as P' by (intros s Hs; apply H4; now right). specialize (IH P').
      unfold n_operators, n_operands in *. destruct x as [v|s|r|s]; cbn [filter is_operand is_operator length]; try lia.
      destruct (H4 s (or_introl eq_refl)) as [N1 N2]. apply String.eqb_neq in N1, N2. rewrite N1, N2. cbn [orb negb length]. lia. }
    cbn in H2, H3. destruct (tree_loop_keeps p [] tree H4 T) as [KT _]; [cbn; lia|].
    assert (no_paren t \/ t = TOp "(" \/ t = TOp ")") as [NP|[-> | ->]].
    { destruct t as [v|s|r|s]; try (left; split; discriminate).
      destruct (string_dec s "(") as [->|N1]; [auto|]. destruct (string_dec s ")") as [->|N2]; [auto|].
      left. split; congruence. }
    - eapply eval_supported; eauto.
    - now left.
    - right; now left. }
  destruct (parses _ ts (Nat.le_refl _) R B S) as (t0 & e0 & l & -> & T0 & Tl).
  destruct (flat_parses _ l t0 e0 (Nat.le_refl _) T0 Tl) as (e & He). exists e. apply He. intros; lia.
Qed.

Lemma writes_apart : forall k ts e, writes k ts e ->
  forall rest, apart true rest -> apart false (ts ++ rest).
Proof.
  intros k ts e W. induction W as [k v|k r|k ts e W IH|k o ts1 ts2 a b R K W1 IH1 W2 IH2|k o ts1 ts2 a b R K W1 IH1 W2 IH2];
    intros rest A.
  - split; [discriminate|exact A].
  - split; [discriminate|exact A].
  - cbn [app]. split; [discriminate|]. rewrite <- app_assoc. apply IH. split; [reflexivity|exact A].
  - rewrite <- app_assoc. apply IH1. destruct (symbol_not_paren o) as [N1 N2]. split.
    + intros _. exact N1.
    + cbn [ends]. rewrite N2. apply IH2, A.
  - rewrite <- app_assoc. apply IH1. destruct (symbol_not_paren o) as [N1 N2]. split.
    + intros _. exact N1.
    + cbn [ends]. rewrite N2. apply IH2, A.
Qed.

Lemma apart_not : forall before w a b after, apart w (before ++ a :: b :: after) ->
  ends a = true -> starts b = true -> False.
Proof.
  induction before as [|x before IH]; intros w a b after [A1 A2] Ea Sb.
  - destruct A2 as [A2 _]. rewrite (A2 Ea) in Sb. discriminate.
  - eapply IH; eauto.
Qed.

Lemma side_by_side_not_written : forall k ts e, writes k ts e -> ~ side_by_side ts.
Proof.
  intros k ts e W (before & a & b & after & E & Ha & Hb).
  pose proof (writes_apart _ _ _ W [] I) as A. rewrite app_nil_r, E in A.
  eapply apart_not; [exact A| |].
  - destruct Ha as [Ha | ->]; [|reflexivity]. destruct a; cbn in *; try reflexivity. discriminate.
  - destruct Hb as [Hb | ->]; [|reflexivity]. destruct b; cbn in *; try reflexivity. discriminate.
Qed.

Theorem exactly_proof : forall pow ts variables n,
  (forall r, In (TRef r) ts -> exists l, dict_get String.eqb r variables = Some l /\ length l = n) ->
  ((exists vec, evaluate pow ts variables n = Ok vec) /\ ~ side_by_side ts <-> exists e, writes 0 ts e).
Proof.
  intros pow ts variables n B. split.
  - intros [[vec E] N]. eapply well_formed_proof; eauto.
  - intros [e W]. split; [|eapply side_by_side_not_written; eauto].
    destruct (evaluate_writes_proof pow 0 ts e variables n W) as (vec & E & _); [|eauto].
    intros r Hr. apply B. rewrite <- (writes_references _ _ _ W) in Hr. unfold token_references in Hr.
    apply in_flat_map in Hr as (t & Ht & Hr). destruct t; cbn in Hr; try contradiction. destruct Hr as [-> | []]. exact Ht.
Qed.

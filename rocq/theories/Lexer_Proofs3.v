(** Matching the patterns, and reading a text that is laid out. *)
From Coq Require Import Ascii String Lia.
From Verif Require Import QcTac Base BaseLemmas Expr_Model Lexer_Model Lexer_Spec Lexer_Proofs Lexer_Proofs2.
Local Open Scope char_scope.
Local Open Scope string_scope.
Local Open Scope list_scope.
Local Open Scope nat_scope.

(** ** Every pattern takes characters from the front, at least one *)
Definition splits (m : text -> matched) : Prop := forall t a b, m t = Some (a, b) -> t = a ++ b.
Definition takes (m : text -> matched) : Prop := forall t a b, m t = Some (a, b) -> t = a ++ b /\ a <> [].

Lemma takes_splits : forall m, takes m -> splits m.
Proof. intros m T t a b E. apply (T t a b E). Qed.
Lemma literal_inv : forall l t a b, match_literal l t = Some (a, b) -> a = l /\ t = l ++ b.
Proof.
  induction l as [|x l IH]; intros t a b E.
  - cbn in E. injection E as <- <-. split; reflexivity.
  - destruct t as [|c t]; [discriminate E|]. cbn [match_literal] in E.
    destruct (Ascii.eqb x c) eqn:X; [|discriminate E]. apply Ascii.eqb_eq in X. subst c.
    destruct (match_literal l t) as [[a' b']|] eqn:M; [|discriminate E]. cbn [fst snd] in E.
    destruct (IH t a' b' M) as [Ea Et]. injection E as <- <-. subst a' t. split; reflexivity.
Qed.
Lemma literal_app : forall l b, match_literal l (l ++ b) = Some (l, b).
Proof.
  induction l as [|x l IH]; intros b; [reflexivity|].
  cbn [app match_literal]. rewrite Ascii.eqb_refl, IH. reflexivity.
Qed.
Lemma plus_inv : forall p t a b, match_plus p t = Some (a, b) ->
  t = a ++ b /\ a <> [] /\ Forall (fun c => p c = true) a /\ head_not p b.
Proof.
  intros p t a b E. unfold match_plus in E. destruct (take_while_spec p t) as [S [F H]].
  destruct (take_while p t) as [a' b']. cbn [fst snd] in *.
  destruct a' as [|c a']; [discriminate E|]. injection E as <- <-. split; [exact S|]. split; [discriminate|]. split; assumption.
Qed.
Lemma plus_app : forall p a b, a <> [] -> Forall (fun c => p c = true) a -> head_not p b ->
  match_plus p (a ++ b) = Some (a, b).
Proof.
  intros p a b N F H. unfold match_plus. rewrite take_while_app by assumption.
  destruct a; [congruence|reflexivity].
Qed.
Lemma plus_none : forall p t, head_not p t -> match_plus p t = None.
Proof. intros p [|c t] H; [reflexivity|]. unfold match_plus. cbn in *. rewrite H. reflexivity. Qed.
Lemma star_inv : forall p t a b, match_star p t = Some (a, b) ->
  t = a ++ b /\ Forall (fun c => p c = true) a /\ head_not p b.
Proof.
  intros p t a b E. unfold match_star in E. destruct (take_while_spec p t) as [S [F H]].
  injection E as E. rewrite E in *. cbn [fst snd] in *. repeat split; assumption.
Qed.
Lemma then_inv : forall m1 m2 t a b, match_then m1 m2 t = Some (a, b) ->
  exists a1 a2 r, m1 t = Some (a1, r) /\ m2 r = Some (a2, b) /\ a = a1 ++ a2.
Proof.
  intros m1 m2 t a b E. unfold match_then in E.
  destruct (m1 t) as [[a1 r]|]; [|discriminate E].
  destruct (m2 r) as [[a2 b']|] eqn:M; [|discriminate E]. injection E as <- <-.
  exists a1, a2, r. repeat split; assumption.
Qed.
Lemma then_intro : forall m1 m2 t a1 r a2 b, m1 t = Some (a1, r) -> m2 r = Some (a2, b) ->
  match_then m1 m2 t = Some (a1 ++ a2, b).
Proof. intros m1 m2 t a1 r a2 b E1 E2. unfold match_then. rewrite E1, E2. reflexivity. Qed.
Lemma one_inv : forall p t a b, match_one p t = Some (a, b) -> exists c, p c = true /\ a = [c] /\ t = c :: b.
Proof.
  intros p [|c t] a b E; [discriminate E|]. cbn in E. destruct (p c) eqn:P; [|discriminate E].
  injection E as <- <-. exists c. repeat split; assumption.
Qed.
Lemma optional_inv : forall m t a b, match_optional m t = Some (a, b) ->
  m t = Some (a, b) \/ (m t = None /\ a = [] /\ t = b).
Proof.
  intros m t a b E. unfold match_optional in E. destruct (m t) as [r|]; [left; exact E|].
  right. injection E as <- <-. repeat split; reflexivity.
Qed.

(** the text of a number in scientific notation *)
Lemma scientific_inv : forall t a b, match_scientific t = Some (a, b) -> t = a ++ b /\ exists v, number v a.
Proof.
  intros t a b E. unfold match_scientific in E.
  apply then_inv in E. destruct E as [a1 [a2 [r1 [E1 [E E0]]]]].
  apply one_inv in E1. destruct E1 as [c [D [-> ->]]].
  apply then_inv in E. destruct E as [a3 [a4 [r2 [E2 [E Ea2]]]]].
  apply then_inv in E. destruct E as [a5 [a6 [r3 [E3 [E Ea4]]]]].
  apply literal_inv in E3. destruct E3 as [-> ->].
  apply then_inv in E. destruct E as [a7 [a8 [r4 [E4 [E5 Ea6]]]]].
  apply plus_inv in E5. destruct E5 as [-> [N8 [F8 _]]].
  destruct (digits_of a8 F8) as [ds [A8 ->]]. destruct (digit_inv c D) as [d [Ld ->]].
  apply digit_chars_nil in N8.
  assert (X : exists e, exponent "e"%char e ("e"%char :: a7 ++ digit_chars ds) /\ r3 = a7 ++ digit_chars ds ++ b).
  { apply optional_inv in E4. destruct E4 as [E4|[_ [-> ->]]].
    - apply one_inv in E4. destruct E4 as [s [Hs [-> ->]]].
      unfold one_of in Hs. cbn in Hs. apply Bool.orb_true_iff in Hs. destruct Hs as [Hs|Hs].
      + apply Ascii.eqb_eq in Hs. subst s. exists (- decimal ds)%Z. split; [|reflexivity].
        apply E_minus; [exact A8|exact N8|reflexivity].
      + apply Bool.orb_true_iff in Hs. destruct Hs as [Hs|Hs]; [|discriminate Hs].
        apply Ascii.eqb_eq in Hs. subst s. exists (decimal ds). split; [|reflexivity].
        apply E_plus; [exact A8|exact N8|reflexivity].
    - exists (decimal ds). split; [|reflexivity]. apply E_none; [exact A8|exact N8|reflexivity]. }
  destruct X as [e [X ->]].
  apply optional_inv in E2. destruct E2 as [E2|[_ [-> ->]]].
  - apply then_inv in E2. destruct E2 as [a9 [a10 [r5 [E6 [E7 Ea3]]]]].
    apply literal_inv in E6. destruct E6 as [-> ->].
    apply plus_inv in E7. destruct E7 as [-> [N10 [F10 _]]].
    destruct (digits_of a10 F10) as [f [A10 ->]]. apply digit_chars_nil in N10.
    subst a3 a4 a6 a2 a. split.
    + cbn [app chars list_ascii_of_string]. repeat (rewrite <- app_assoc; cbn [app]). reflexivity.
    + eexists. cbn [app chars]. exact (N_point _ d f e _ Ld A10 N10 X eq_refl).
  - subst a4 a6 a2 a. split.
    + cbn [app chars list_ascii_of_string]. repeat (rewrite <- app_assoc; cbn [app]). reflexivity.
    + eexists. exact (N_whole _ d e _ Ld X eq_refl).
Qed.

Lemma name_inv : forall t a b, match_name t = Some (a, b) -> t = a ++ b /\ name a.
Proof.
  intros t a b E. unfold match_name in E.
  apply then_inv in E. destruct E as [a1 [a2 [r1 [E1 [E2 ->]]]]].
  apply one_inv in E1. destruct E1 as [c [L [-> ->]]].
  apply star_inv in E2. destruct E2 as [-> [F _]].
  split; [reflexivity|]. cbn [app]. apply Name_plain.
  - apply letter_in, L.
  - intros x I. apply name_char_in. rewrite Forall_forall in F. exact (F x I).
Qed.
Lemma var_inv : forall t a b, match_var t = Some (a, b) -> t = a ++ b /\ name a.
Proof.
  intros t a b E. unfold match_var in E.
  apply then_inv in E. destruct E as [a0 [a3 [r0 [E0 [E ->]]]]].
  apply literal_inv in E0. destruct E0 as [-> ->].
  apply then_inv in E. destruct E as [a1 [a2 [r1 [E1 [E2 ->]]]]].
  apply one_inv in E1. destruct E1 as [c [L [-> ->]]].
  apply star_inv in E2. destruct E2 as [-> [F _]].
  split; [rewrite <- app_assoc; reflexivity|]. apply Name_var.
  - apply letter_in, L.
  - intros x I. apply var_char_in. rewrite Forall_forall in F. exact (F x I).
Qed.
Lemma comment_inv : forall t a b, match_comment t = Some (a, b) ->
  exists c, a = "#"%char :: c /\ t = a ++ b /\ ~ In line_end c /\ (b = [] \/ exists b', b = line_end :: b').
Proof.
  intros t a b E. unfold match_comment in E.
  apply then_inv in E. destruct E as [a0 [a3 [r0 [E0 [E ->]]]]].
  apply literal_inv in E0. destruct E0 as [-> ->].
  apply star_inv in E. destruct E as [-> [F H]].
  exists a3. split; [reflexivity|]. split; [reflexivity|]. split.
  - intros I. rewrite Forall_forall in F. specialize (F _ I). cbv beta in F. vm_compute in F. discriminate F.
  - destruct b as [|x b]; [left; reflexivity|]. right. exists b. cbn in H.
    apply Bool.negb_false_iff, Ascii.eqb_eq in H. subst x. reflexivity.
Qed.

Lemma name_nonempty : forall s, name s -> s <> [].
Proof. intros s N E. destruct N; discriminate E. Qed.
Lemma number_nonempty : forall v s, number v s -> s <> [].
Proof.
  intros v s N E. subst s. pose proof (number_read v [] N) as R. discriminate R.
Qed.

Lemma token_exprs_take : forall m g, In (m, g) token_exprs -> takes m.
Proof.
  assert (Lit : forall l, l <> [] -> takes (match_literal l)).
  { intros l N t a b E. apply literal_inv in E. destruct E as [-> ->]. split; [reflexivity|exact N]. }
  intros m g I. unfold token_exprs in I. cbn [In] in I.
  repeat destruct I as [I|I]; try (apply (f_equal fst) in I; cbn [fst] in I; subst m); try (refine (Lit _ _); let X := fresh in intro X; vm_compute in X; discriminate X); [| | | | | |destruct I].
  - intros t a b E. apply plus_inv in E. tauto.
  - intros t a b E. apply comment_inv in E. destruct E as [c [-> [E _]]]. split; [exact E|discriminate].
  - intros t a b E. apply scientific_inv in E. destruct E as [E [v N]]. split; [exact E|exact (number_nonempty v a N)].
  - intros t a b E. apply plus_inv in E. tauto.
  - intros t a b E. apply name_inv in E. destruct E as [E N]. split; [exact E|exact (name_nonempty a N)].
  - intros t a b E. apply var_inv in E. destruct E as [E N]. split; [exact E|exact (name_nonempty a N)].
Qed.

Lemma first_match_in : forall exprs t g r, first_match exprs t = Some (g, r) ->
  exists m, In (m, g) exprs /\ m t = Some r.
Proof.
  induction exprs as [|[m g'] exprs IH]; intros t g r E; [discriminate E|].
  cbn [first_match] in E. destruct (m t) as [r'|] eqn:M.
  - injection E as <- <-. exists m. split; [left; reflexivity|exact M].
  - destruct (IH t g r E) as [m' [I E']]. exists m'. split; [right; exact I|exact E'].
Qed.
Lemma first_match_none : forall exprs t m g, first_match exprs t = None -> In (m, g) exprs -> m t = None.
Proof.
  induction exprs as [|[m' g'] exprs IH]; intros t m g E I; [destruct I|].
  cbn [first_match] in E. destruct (m' t) eqn:M; [discriminate E|].
  destruct I as [I|I]; [injection I as <- <-; exact M|exact (IH t m g E I)].
Qed.
Lemma first_match_takes : forall t g a b, first_match token_exprs t = Some (g, (a, b)) -> t = a ++ b /\ a <> [].
Proof.
  intros t g a b E. apply first_match_in in E. destruct E as [m [I E]]. exact (token_exprs_take m g I t a b E).
Qed.

(** ** The loop does not depend on the fuel *)
Lemma lex_fuel : forall n t, List.length t <= n -> forall k, List.length t <= k -> lex_loop n t = lex_loop k t.
Proof.
  induction n as [|n IH]; intros t L k K.
  - destruct t; [|cbn in L; lia]. destruct k; reflexivity.
  - destruct t as [|c t]; [destruct k; reflexivity|].
    destruct k as [|k]; [cbn in K; lia|]. cbn [lex_loop].
    destruct (first_match token_exprs (c :: t)) as [[g [a b]]|] eqn:M; [|reflexivity].
    apply first_match_takes in M. destruct M as [E N].
    assert (Lb : List.length b < List.length (c :: t)).
    { rewrite E, app_length. destruct a; [congruence|cbn; lia]. }
    cbn [List.length] in *. rewrite (IH b ltac:(lia) k ltac:(lia)). reflexivity.
Qed.

Lemma lexer_nil : lexer [] = Ok [].
Proof. reflexivity. Qed.
Lemma lexer_step : forall t, t <> [] -> lexer t =
  match first_match token_exprs t with
  | None => Err KeyError
  | Some (g, (a, b)) =>
      do ts <- lexer b; Ok (match g with Some g' => make_token g' a :: ts | None => ts end)
  end.
Proof.
  intros [|c t] N; [congruence|]. unfold lexer. cbn [List.length lex_loop].
  destruct (first_match token_exprs (c :: t)) as [[g [a b]]|] eqn:M; [|reflexivity].
  apply first_match_takes in M. destruct M as [E Na].
  assert (Lb : List.length b <= List.length t).
  { apply (f_equal (@List.length ascii)) in E. rewrite app_length in E. destruct a; [congruence|cbn in E; lia]. }
  rewrite (lex_fuel (List.length t) b Lb (List.length b) (le_n _)). reflexivity.
Qed.

(** ** Blanks and comments *)
Lemma first_match_blank : forall c t, is_blank c = true ->
  first_match token_exprs (c :: t) = Some (None, (c :: fst (take_while is_blank t), snd (take_while is_blank t))).
Proof.
  intros c t B. unfold token_exprs. cbn [first_match]. unfold match_plus. cbn [take_while]. rewrite B. reflexivity.
Qed.
Lemma bind_id : forall {A} (r : result A), (do x <- r; Ok x) = r.
Proof. intros A [x|e]; reflexivity. Qed.
Lemma lexer_blank : forall c t, is_blank c = true -> lexer (c :: t) = lexer t.
Proof.
  intros c t B. rewrite lexer_step by discriminate. rewrite first_match_blank by exact B.
  rewrite bind_id.
  destruct t as [|d t]; [reflexivity|].
  destruct (is_blank d) eqn:Bd.
  - rewrite (lexer_step (d :: t)) by discriminate. rewrite first_match_blank by exact Bd. rewrite bind_id.
    cbn [take_while]. rewrite Bd. reflexivity.
  - cbn [take_while]. rewrite Bd. reflexivity.
Qed.
Lemma first_match_hash : forall c t, ~ In line_end c -> (t = [] \/ exists t', t = line_end :: t') ->
  first_match token_exprs ("#"%char :: c ++ t) = Some (None, ("#"%char :: c, t)).
Proof.
  intros c t N H. unfold token_exprs. cbn [first_match].
  change (match_plus is_blank ("#"%char :: c ++ t)) with (@None (text * text)). cbv iota.
  unfold match_comment, match_then. change (chars "#") with ["#"%char].
  change ("#"%char :: c ++ t) with (["#"%char] ++ c ++ t). rewrite literal_app.
  unfold match_star. rewrite take_while_app.
  - reflexivity.
  - apply Forall_forall. intros x I. apply Bool.negb_true_iff. apply Ascii.eqb_neq. intros ->. exact (N I).
  - destruct H as [->|[t' ->]]; [exact I|reflexivity].
Qed.
Lemma lexer_comment : forall c t, ~ In line_end c -> (t = [] \/ exists t', t = line_end :: t') ->
  lexer ("#"%char :: c ++ t) = lexer t.
Proof.
  intros c t N H. rewrite lexer_step by discriminate. rewrite first_match_hash by assumption. apply bind_id.
Qed.
Lemma lexer_skipped : forall g t, skipped g -> lexer (g ++ t) = lexer t.
Proof.
  intros g t S. induction S as [|c g B S IH|c g N S IH]; [reflexivity| |].
  - cbn [app]. rewrite lexer_blank by (apply blank_is; exact B). exact IH.
  - cbn [app]. rewrite <- app_assoc. cbn [app].
    rewrite lexer_comment by (try exact N; right; eexists; reflexivity).
    rewrite lexer_blank by reflexivity. exact IH.
Qed.

(** ** Tokens *)
Definition none_match (exprs : list ((text -> matched) * option tag)) (t : text) : Prop :=
  Forall (fun e => fst e t = None) exprs.
Lemma first_match_skip : forall l1 l2 t, none_match l1 t -> first_match (l1 ++ l2) t = first_match l2 t.
Proof.
  intros l1 l2 t N. induction N as [|[m g] l1 E N IH]; [reflexivity|].
  cbn [app first_match]. cbn [fst] in E. rewrite E. exact IH.
Qed.
Lemma first_match_from : forall n t, none_match (firstn n token_exprs) t ->
  first_match token_exprs t = first_match (skipn n token_exprs) t.
Proof.
  intros n t N. rewrite <- (firstn_skipn n token_exprs) at 1. apply first_match_skip, N.
Qed.
Ltac none := unfold none_match; cbn [firstn token_exprs]; repeat (apply Forall_cons; [cbn [fst]; reflexivity|]); apply Forall_nil.

Lemma first_match_letter : forall c t, is_letter c = true ->
  first_match token_exprs (c :: t) =
  Some (Some Reference, (c :: fst (take_while is_name_char t), snd (take_while is_name_char t))).
Proof.
  intros c t L.
  assert (N : match_name (c :: t) = Some (c :: fst (take_while is_name_char t), snd (take_while is_name_char t))).
  { unfold match_name, match_then, match_one. rewrite L. unfold match_star.
    destruct (take_while is_name_char t). reflexivity. }
  rewrite (first_match_from 19).
  - cbn [skipn token_exprs first_match]. rewrite N. reflexivity.
  - clear N. destruct c as [[] [] [] [] [] [] [] []]; try discriminate L; none.
Qed.
Lemma first_match_dollar : forall t, 
  first_match token_exprs ("$"%char :: t) =
  match match_var ("$"%char :: t) with Some r => Some (Some Reference, r) | None => None end.
Proof.
  intros t. rewrite (first_match_from 20) by none. cbn [skipn token_exprs first_match].
  destruct (match_var ("$"%char :: t)); reflexivity.
Qed.
Lemma first_match_number : forall c t, is_number_char c = true ->
  first_match token_exprs (c :: t) =
  match match_scientific (c :: t) with
  | Some r => Some (Some Numeric, r)
  | None => match match_plus is_number_char (c :: t) with Some r => Some (Some Numeric, r) | None => None end
  end.
Proof.
  intros c t N.
  assert (P : exists r, match_plus is_number_char (c :: t) = Some r).
  { unfold match_plus. cbn [take_while]. rewrite N. eexists. reflexivity. }
  destruct P as [r P].
  rewrite (first_match_from 17).
  - cbn [skipn token_exprs first_match]. rewrite P. reflexivity.
  - clear P. destruct c as [[] [] [] [] [] [] [] []]; try discriminate N; none.
Qed.

(** what may follow a token without changing it *)
Definition may_follow (t : token) (rest : text) : Prop :=
  match t with
  | TOp o => In o comparisons -> head_not (Ascii.eqb "=") rest
  | _ => head_not is_name_char rest
  end.
Definition tag_of (t : token) : tag :=
  match t with TOp _ => Operator | TRef _ => Reference | _ => Numeric end.

Lemma head_not_weaken : forall (p q : ascii -> bool) t, (forall c, p c = true -> q c = true) -> head_not q t -> head_not p t.
Proof.
  intros p q [|c t] H N; [exact I|]. cbn in *. destruct (p c) eqn:P; [|reflexivity].
  rewrite (H c P) in N. discriminate N.
Qed.
Lemma digit_is_name_char : forall c, is_digit c = true -> is_name_char c = true.
Proof. intros c D. apply digit_facts, D. Qed.

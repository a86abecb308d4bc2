(** Reading a text that is laid out. *)
From Coq Require Import Ascii String Lia.
From Verif Require Import QcTac Base BaseLemmas Expr_Model Lexer_Model Lexer_Spec Lexer_Proofs Lexer_Proofs2 Lexer_Proofs3.
Local Open Scope char_scope.
Local Open Scope string_scope.
Local Open Scope list_scope.
Local Open Scope nat_scope.

(** ** Numbers *)
Lemma head_digit : forall rest, head_not is_name_char rest -> head_not is_digit rest.
Proof. intros rest. apply head_not_weaken. exact digit_is_name_char. Qed.

Lemma exponent_match : forall e x rest, exponent "e"%char e x -> head_not is_name_char rest ->
  match_then (match_literal (chars "e"))
    (match_then (match_optional (match_one (one_of "-+"))) (match_plus is_digit)) (x ++ rest) = Some (x, rest).
Proof.
  intros e x rest X H. apply head_digit in H.
  assert (Hd : forall ds, are_digits ds -> ds <> [] -> match_plus is_digit (digit_chars ds ++ rest) = Some (digit_chars ds, rest)).
  { intros ds A N. apply plus_app; [apply digit_chars_nil; exact N|exact (digit_chars_all ds A)|exact H]. }
  destruct X as [ds A N E|ds A N E|ds A N E]; cbn [app].
  - change ("e"%char :: digit_chars ds ++ rest) with (chars "e" ++ digit_chars ds ++ rest).
    apply (then_intro _ _ _ (chars "e") (digit_chars ds ++ rest) (digit_chars ds) rest); [apply literal_app|].
    apply (then_intro _ _ _ [] (digit_chars ds ++ rest) (digit_chars ds) rest); [|exact (Hd ds A N)].
    destruct ds as [|d ds]; [congruence|]. inversion A as [|? ? L A']; subst.
    unfold match_optional. cbn [digit_chars map app match_one].
    destruct (digit_facts _ (proj1 (digit_char d L))) as [_ [_ [_ [_ [_ [_ [_ [_ [O _]]]]]]]]].
    rewrite O. reflexivity.
  - change ("e"%char :: "+"%char :: digit_chars ds ++ rest) with (chars "e" ++ "+"%char :: digit_chars ds ++ rest).
    apply (then_intro _ _ _ (chars "e") ("+"%char :: digit_chars ds ++ rest) ("+"%char :: digit_chars ds) rest); [apply literal_app|].
    apply (then_intro _ _ _ ["+"%char] (digit_chars ds ++ rest) (digit_chars ds) rest); [reflexivity|exact (Hd ds A N)].
  - change ("e"%char :: "-"%char :: digit_chars ds ++ rest) with (chars "e" ++ "-"%char :: digit_chars ds ++ rest).
    apply (then_intro _ _ _ (chars "e") ("-"%char :: digit_chars ds ++ rest) ("-"%char :: digit_chars ds) rest); [apply literal_app|].
    apply (then_intro _ _ _ ["-"%char] (digit_chars ds ++ rest) (digit_chars ds) rest); [reflexivity|exact (Hd ds A N)].
Qed.

Lemma one_digit : forall d t, d <= 9 -> match_one is_digit (digit_chars [d] ++ t) = Some (digit_chars [d], t).
Proof.
  intros d t L. cbn [digit_chars map app match_one]. rewrite (proj1 (digit_char d L)). reflexivity.
Qed.

Lemma scientific_whole : forall d e x rest, d <= 9 -> exponent "e"%char e x -> head_not is_name_char rest ->
  match_scientific ((digit_chars [d] ++ x) ++ rest) = Some (digit_chars [d] ++ x, rest).
Proof.
  intros d e x rest L X H. unfold match_scientific. rewrite <- app_assoc.
  eapply then_intro; [apply one_digit, L|].
  change x with ([] ++ x) at 2.
  eapply then_intro; [|exact (exponent_match e x rest X H)].
  destruct X; reflexivity.
Qed.
Lemma scientific_point : forall d f e x rest, d <= 9 -> are_digits f -> f <> [] -> exponent "e"%char e x ->
  head_not is_name_char rest ->
  match_scientific ((digit_chars [d] ++ "."%char :: digit_chars f ++ x) ++ rest) =
  Some (digit_chars [d] ++ "."%char :: digit_chars f ++ x, rest).
Proof.
  intros d f e x rest L A N X H. unfold match_scientific. rewrite <- app_assoc.
  eapply then_intro; [apply one_digit, L|].
  change ("."%char :: digit_chars f ++ x) with (("."%char :: digit_chars f) ++ x).
  rewrite <- app_assoc.
  eapply then_intro; [|exact (exponent_match e x rest X H)].
  unfold match_optional.
  assert (E : match_then (match_literal (chars ".")) (match_plus is_digit) (("."%char :: digit_chars f) ++ x ++ rest)
              = Some ("."%char :: digit_chars f, x ++ rest)).
  { change ("."%char :: digit_chars f) with (chars "." ++ digit_chars f). rewrite <- app_assoc.
    eapply then_intro; [apply literal_app|].
    apply plus_app; [apply digit_chars_nil; exact N|exact (digit_chars_all f A)|]. destruct X; reflexivity. }
  rewrite E. reflexivity.
Qed.

Lemma then_none_l : forall m1 m2 t, m1 t = None -> match_then m1 m2 t = None.
Proof. intros m1 m2 t E. unfold match_then. rewrite E. reflexivity. Qed.
Lemma then_none_r : forall m1 m2 t a r, m1 t = Some (a, r) -> m2 r = None -> match_then m1 m2 t = None.
Proof. intros m1 m2 t a r E E2. unfold match_then. rewrite E, E2. reflexivity. Qed.
Lemma no_e : forall t, head_not (Ascii.eqb "e") t -> match_literal (chars "e") t = None.
Proof. intros [|c t] H; [reflexivity|]. cbn in *. rewrite H. reflexivity. Qed.
Lemma name_char_e : forall t, head_not is_name_char t -> head_not (Ascii.eqb "e") t.
Proof.
  intros t. apply head_not_weaken. intros c E. apply Ascii.eqb_eq in E. subst c. reflexivity.
Qed.
Lemma digits_e : forall ds t, are_digits ds -> ds <> [] -> head_not (Ascii.eqb "e") (digit_chars ds ++ t).
Proof.
  intros [|d ds] t A N; [congruence|]. inversion A as [|? ? L A']; subst. cbn [digit_chars map app head_not].
  rewrite Ascii.eqb_sym. apply digit_facts, digit_char, L.
Qed.
Lemma digits_point : forall ds t, are_digits ds -> ds <> [] ->
  match_optional (match_then (match_literal (chars ".")) (match_plus is_digit)) (digit_chars ds ++ t) = Some ([], digit_chars ds ++ t).
Proof.
  intros [|d ds] t A N; [congruence|]. inversion A as [|? ? L A']; subst.
  unfold match_optional. rewrite then_none_l; [reflexivity|].
  cbn [digit_chars map app chars list_ascii_of_string match_literal].
  rewrite Ascii.eqb_sym. destruct (digit_facts _ (proj1 (digit_char d L))) as [_ [_ [_ [P _]]]]. rewrite P. reflexivity.
Qed.

(** a plain number is not in scientific notation *)
Lemma scientific_plain : forall v s rest, plain v s -> head_not is_name_char rest -> match_scientific (s ++ rest) = None.
Proof.
  intros v s rest P H.
  assert (Hr : match_optional (match_then (match_literal (chars ".")) (match_plus is_digit)) rest = Some ([], rest)).
  { unfold match_optional. destruct rest as [|c rest]; [reflexivity|].
    rewrite then_none_l; [reflexivity|]. cbn [chars list_ascii_of_string match_literal].
    destruct (Ascii.eqb "." c) eqn:Ec; [|reflexivity]. apply Ascii.eqb_eq in Ec. subst c. discriminate H. }
  unfold match_scientific.
  destruct P as [w A N E|w f A B N E].
  - destruct w as [|d w]; [congruence|]. inversion A as [|? ? L A']; subst.
    change (digit_chars (d :: w) ++ rest) with (digit_chars [d] ++ digit_chars w ++ rest).
    eapply then_none_r; [apply one_digit, L|].
    destruct w as [|d2 w].
    + cbn [digit_chars map app]. eapply then_none_r; [exact Hr|]. apply then_none_l, no_e, name_char_e, H.
    + eapply then_none_r; [apply digits_point; [exact A'|discriminate]|].
      apply then_none_l, no_e, digits_e; [exact A'|discriminate].
  - rewrite <- app_assoc. destruct w as [|d w].
    + apply then_none_l. reflexivity.
    + inversion A as [|? ? L A']; subst.
      change (digit_chars (d :: w) ++ ("."%char :: digit_chars f) ++ rest)
        with (digit_chars [d] ++ digit_chars w ++ "."%char :: digit_chars f ++ rest).
      eapply then_none_r; [apply one_digit, L|].
      destruct w as [|d2 w].
      * cbn [digit_chars map app]. fold (digit_chars f).
        destruct f as [|g f].
        { eapply then_none_r.
          - unfold match_optional. erewrite then_none_r; [reflexivity|apply (literal_app (chars "."))|].
            apply plus_none, head_digit, H.
          - apply then_none_l, no_e. reflexivity. }
        { assert (Nf : g :: f <> []) by discriminate.
          eapply then_none_r.
          - unfold match_optional. erewrite then_intro; [reflexivity|apply (literal_app (chars "."))|].
            apply plus_app; [apply digit_chars_nil; exact Nf|exact (digit_chars_all _ B)|apply head_digit, H].
          - apply then_none_l, no_e, name_char_e, H. }
      * eapply then_none_r; [apply digits_point; [exact A'|discriminate]|].
        apply then_none_l, no_e, digits_e; [exact A'|discriminate].
Qed.

Lemma plain_chars : forall v s, plain v s -> s <> [] /\ Forall (fun c => is_number_char c = true) s.
Proof.
  intros v s P.
  assert (Hd : forall ds, are_digits ds -> Forall (fun c => is_number_char c = true) (digit_chars ds)).
  { intros ds A. eapply Forall_impl; [|exact (digit_chars_all ds A)]. intros c D. apply digit_facts, D. }
  destruct P as [w A N E|w f A B N E].
  - split; [apply digit_chars_nil; exact N|exact (Hd w A)].
  - split; [destruct w; discriminate|]. apply Forall_app. split; [exact (Hd w A)|].
    constructor; [reflexivity|exact (Hd f B)].
Qed.

Lemma number_head : forall v s, number v s -> exists c t, s = c :: t /\ is_number_char c = true.
Proof.
  intros v s N. destruct N as [s P|d e x L X E|d f e x L A N X E].
  - destruct (plain_chars v s P) as [Ne F]. destruct F as [|c t H F]; [congruence|].
    exists c, t. split; [reflexivity|exact H].
  - exists (ascii_of_nat (48 + d)), x. split; [reflexivity|]. apply digit_facts, digit_char, L.
  - exists (ascii_of_nat (48 + d)), ("."%char :: digit_chars f ++ x). split; [reflexivity|]. apply digit_facts, digit_char, L.
Qed.

Lemma match_number : forall v s rest, number v s -> head_not is_name_char rest ->
  first_match token_exprs (s ++ rest) = Some (Some Numeric, (s, rest)).
Proof.
  intros v s rest N H. destruct (number_head v s N) as [c [t [E Hc]]].
  assert (F : first_match token_exprs (s ++ rest) =
    match match_scientific (s ++ rest) with
    | Some r => Some (Some Numeric, r)
    | None => match match_plus is_number_char (s ++ rest) with Some r => Some (Some Numeric, r) | None => None end
    end).
  { rewrite E. exact (first_match_number c (t ++ rest) Hc). }
  rewrite F. clear F c t E Hc. destruct N as [s P|d e x L X E|d f e x L A Nf X E].
  - rewrite (scientific_plain v s rest P H). destruct (plain_chars v s P) as [Ne Fs].
    rewrite plus_app; [reflexivity|exact Ne|exact Fs|].
    apply (head_not_weaken _ is_name_char); [exact number_char_is_name_char|exact H].
  - rewrite (scientific_whole d e x rest L X H). reflexivity.
  - rewrite (scientific_point d f e x rest L A Nf X H). reflexivity.
Qed.

(** ** Names *)
Lemma var_is_name_char : forall c, is_var_char c = true -> is_name_char c = true.
Proof.
  assert (H : forall c, (negb (is_var_char c) || is_name_char c)%bool = true) by all_chars.
  intros c P. specialize (H c). rewrite P in H. exact H.
Qed.
Lemma match_reference : forall s rest, name s -> head_not is_name_char rest ->
  first_match token_exprs (s ++ rest) = Some (Some Reference, (s, rest)).
Proof.
  intros s rest N H. destruct N as [c s L A|c s L A].
  - cbn [app]. rewrite first_match_letter by (apply letter_in, L).
    rewrite take_while_app; [reflexivity| |exact H].
    apply Forall_forall. intros x I. apply name_char_in, A, I.
  - change ((written "$var." ++ c :: s) ++ rest) with ("$"%char :: chars "var." ++ (c :: s) ++ rest).
    rewrite first_match_dollar.
    change ("$"%char :: chars "var." ++ (c :: s) ++ rest) with (chars "$var." ++ c :: s ++ rest).
    assert (E : match_var (chars "$var." ++ c :: s ++ rest) = Some (chars "$var." ++ [c] ++ s, rest)).
    { unfold match_var. eapply then_intro; [apply literal_app|].
      eapply then_intro.
      - unfold match_one. apply letter_in in L. rewrite L. reflexivity.
      - unfold match_star. rewrite take_while_app; [reflexivity| |].
        + apply Forall_forall. intros x I. apply var_char_in, A, I.
        + apply (head_not_weaken _ is_name_char); [exact var_is_name_char|exact H]. }
    rewrite E. reflexivity.
Qed.

(** ** Operators *)
Lemma match_operator : forall o rest, In o operators -> (In o comparisons -> head_not (Ascii.eqb "=") rest) ->
  first_match token_exprs (written o ++ rest) = Some (Some Operator, (written o, rest)).
Proof.
  intros o rest I H. cbn in I.
  repeat destruct I as [<-|I]; try (clear H; reflexivity); [| |destruct I].
  all: specialize (H ltac:(cbn; tauto)).
  all: try (clear H; reflexivity).
  all: destruct rest as [|c rest]; [reflexivity|]; cbn in H.
  all: assert (Eq : forall p, match_literal (chars p ++ ["="%char]) (written p ++ c :: rest) = None)
    by (intros p; unfold chars, written; induction p as [|x p IH];
        [cbn; rewrite H; reflexivity|cbn [list_ascii_of_string app match_literal]; rewrite Ascii.eqb_refl, IH; reflexivity]).
  - pose proof (Eq "<") as E. rewrite (first_match_from 12).
    + reflexivity.
    + unfold none_match; cbn [firstn token_exprs]. 
      repeat (apply Forall_cons; [cbn [fst]; first [exact E|reflexivity]|]); apply Forall_nil.
  - pose proof (Eq ">") as E. rewrite (first_match_from 14).
    + reflexivity.
    + unfold none_match; cbn [firstn token_exprs]. 
      repeat (apply Forall_cons; [cbn [fst]; first [exact E|reflexivity]|]); apply Forall_nil.
Qed.

(** ** One token *)
Lemma written_chars : forall s, string_of_list_ascii (written s) = s.
Proof. exact string_of_list_ascii_of_string. Qed.

Lemma lexer_token : forall t s rest, spells t s -> may_follow t rest ->
  lexer (s ++ rest) = (do ts <- lexer rest; Ok (t :: ts)).
Proof.
  intros t s rest Sp F.
  assert (M : first_match token_exprs (s ++ rest) = Some (Some (tag_of t), (s, rest)) /\ make_token (tag_of t) s = t /\ s <> []).
  { destruct Sp as [v s N|r N|o I]; cbn [tag_of make_token may_follow] in *.
    - split; [exact (match_number v s rest N F)|]. rewrite (number_read v s N). split; [reflexivity|exact (number_nonempty v s N)].
    - split; [exact (match_reference _ rest N F)|]. rewrite written_chars. split; [reflexivity|exact (name_nonempty _ N)].
    - split; [exact (match_operator o rest I F)|]. rewrite written_chars. split; [reflexivity|].
      cbn in I. repeat destruct I as [<-|I]; try discriminate. destruct I. }
  destruct M as [M [T Ne]].
  rewrite lexer_step by (destruct s; [congruence|discriminate]).
  rewrite M, T. reflexivity.
Qed.

(** ** What follows a token in a text that is laid out *)
Lemma skipped_head : forall g, skipped g -> head_not is_name_char g /\ head_not (Ascii.eqb "=") g.
Proof.
  intros g S. destruct S as [|c g B S|c g N S]; [split; exact I| |split; reflexivity].
  destruct B as [->|[->| ->]]; split; reflexivity.
Qed.
Lemma operator_head : forall o rest, In o operators -> head_not is_name_char (written o ++ rest).
Proof.
  intros o rest I. cbn in I. repeat destruct I as [<-|I]; try reflexivity. destruct I.
Qed.
Lemma no_equals : forall c, is_name_char c = true -> Ascii.eqb "=" c = false.
Proof. apply no_char. all_chars. Qed.
Lemma spells_no_equals : forall t s rest, spells t s -> ~ comparison t -> head_not (Ascii.eqb "=") (s ++ rest).
Proof.
  intros t s rest Sp N. destruct Sp as [v s Nu|r Na|o I].
  - destruct (number_head v s Nu) as [c [x [-> H]]]. cbn. apply no_equals, number_char_is_name_char, H.
  - destruct Na as [c x L A|c x L A]; [|reflexivity]. cbn. apply no_equals.
    apply letter_in in L. unfold is_name_char. rewrite L. reflexivity.
  - cbn in I. cbn in N. 
    repeat destruct I as [<-|I]; try reflexivity; try (exfalso; apply N; tauto).
Qed.
Lemma spells_nonempty : forall t s, spells t s -> s <> [].
Proof.
  intros t s Sp. destruct Sp as [v s N|r N|o I].
  - exact (number_nonempty v s N).
  - exact (name_nonempty _ N).
  - cbn in I. repeat destruct I as [<-|I]; try discriminate. destruct I.
Qed.
Lemma operand_dec : forall t, operand t \/ exists o, t = TOp o.
Proof. intros [v|s|r|o]; [left; exact I|left; exact I|left; exact I|right; exists o; reflexivity]. Qed.

Lemma laid_out_follow : forall p ts rest, laid_out (Some p) ts rest -> may_follow p rest.
Proof.
  intros p ts rest L. inversion L as [pr g S E1 E2|pr g c S N E1 E2|pr g t s ts' r S A Sp L' E1 E2]; subst.
  - destruct (skipped_head rest S) as [H1 H2]. destruct p; cbn; auto.
  - destruct g as [|x g].
    + destruct p; cbn; reflexivity || (intros _; reflexivity).
    + destruct (skipped_head _ S) as [H1 H2]. destruct p; cbn in *; auto.
  - destruct g as [|x g].
    + cbn [app]. destruct (operand_dec p) as [Op|[o ->]].
      * assert (H : head_not is_name_char (s ++ r)).
        { destruct (operand_dec t) as [Ot|[o ->]].
          - exfalso. apply A; [left; split; assumption|reflexivity].
          - inversion Sp; subst. apply operator_head. assumption. }
        destruct p; cbn in *; try exact H. destruct Op.
      * cbn. intros C. apply (spells_no_equals t s r Sp). intros Ct.
        apply A; [right; split; assumption|reflexivity].
    + destruct (skipped_head _ S) as [H1 H2]. destruct p; cbn in *; auto.
Qed.

Lemma read_proof : forall previous ts s, laid_out previous ts s -> lexer s = Ok ts.
Proof.
  intros previous ts s L. induction L as [pr g S|pr g c S N|pr g t s ts rest S A Sp L IH].
  - rewrite <- (app_nil_r g), lexer_skipped by exact S. reflexivity.
  - rewrite lexer_skipped by exact S. rewrite <- (app_nil_r c), lexer_comment by (try exact N; left; reflexivity). reflexivity.
  - rewrite lexer_skipped by exact S. rewrite (lexer_token t s rest Sp (laid_out_follow t ts rest L)), IH. reflexivity.
Qed.

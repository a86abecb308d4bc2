(** Nothing is lost in reading, and what is refused; texts that are a number; writing. *)
From Coq Require Import Ascii String Lia.
From Verif Require Import QcTac Base BaseLemmas Expr_Model Expr_Spec Expr_Proofs Expr_Proofs2
  Lexer_Model Lexer_Spec Lexer_Proofs Lexer_Proofs2 Lexer_Proofs3 Lexer_Proofs4.
Local Open Scope char_scope.
Local Open Scope string_scope.
Local Open Scope list_scope.
Local Open Scope nat_scope.

(** ** Nothing is lost *)
Lemma chars_written : forall a, written (string_of_list_ascii a) = a.
Proof. exact list_ascii_of_string_of_list_ascii. Qed.

(** what one round of the loop reads *)
Lemma first_match_text : forall t g a b, first_match token_exprs t = Some (g, (a, b)) ->
  match g with
  | Some g' => token_text (make_token g' a) a
  | None => (a <> [] /\ Forall blank a) \/
            exists c, a = "#"%char :: c /\ ~ In line_end c /\ (b = [] \/ exists b', b = line_end :: b')
  end.
Proof.
  intros t g a b E. apply first_match_in in E. destruct E as [m [I E]].
  assert (Num : forall u v, number v u -> token_text (make_token Numeric u) u).
  { intros u v N. cbn [make_token]. rewrite (number_read v u N). apply TT_spells, Sp_number, N. }
  assert (Ref : forall u, name u -> token_text (make_token Reference u) u).
  { intros u N. cbn [make_token]. apply TT_spells.
    pose proof (Sp_name (string_of_list_ascii u)) as H. rewrite chars_written in H. exact (H N). }
  assert (Op : forall o, In o operators -> token_text (make_token Operator (chars o)) (chars o)).
  { intros o Io. cbn [make_token]. rewrite written_chars. apply TT_spells, (Sp_operator o Io). }
  assert (Lit : forall o u v, match_literal (chars o) u = Some v -> fst v = chars o).
  { intros o u [x y] H. apply literal_inv in H. destruct H as [-> _]. reflexivity. }
  unfold token_exprs in I. cbn [In] in I.
  repeat destruct I as [I|I]; [..|destruct I];
    pose proof (f_equal fst I) as Em; pose proof (f_equal snd I) as Eg; cbn [fst snd] in Em, Eg; subst m g; clear I;
    try (apply Lit in E; cbn [fst] in E; rewrite E; apply Op; unfold operators, comparisons; cbn [app In]; tauto).
  - left. apply plus_inv in E. destruct E as [_ [N [F _]]]. split; [exact N|].
    eapply Forall_impl; [|exact F]. intros c. apply blank_is.
  - right. apply comment_inv in E. destruct E as [c [-> [_ [N H]]]]. exists c. repeat split; assumption.
  - apply Lit in E. cbn [fst] in E. rewrite E. exact TT_assign.
  - apply Lit in E. cbn [fst] in E. rewrite E. exact TT_semicolon.
  - apply scientific_inv in E. destruct E as [_ [v N]]. exact (Num a v N).
  - apply plus_inv in E. destruct E as [_ [N [F _]]].
    cbn [make_token]. destruct (python_float a) as [v|] eqn:P.
    + apply TT_spells, Sp_number, N_plain, (number_chars_float a v F P).
    + pose proof (TT_no_number (string_of_list_ascii a)) as H. rewrite chars_written in H. apply H.
      * intros Z. apply (f_equal written) in Z. rewrite chars_written in Z. exact (N Z).
      * intros x I. apply number_char_in. rewrite Forall_forall in F. exact (F x I).
      * intros v Pl. rewrite (number_read v a (N_plain v a Pl)) in P. discriminate P.
  - apply name_inv in E. destruct E as [_ N]. exact (Ref a N).
  - apply var_inv in E. destruct E as [_ N]. exact (Ref a N).
Qed.

Lemma composed_blanks : forall a ts s, Forall blank a -> composed ts s -> composed ts (a ++ s).
Proof. intros a ts s F C. induction F as [|c a B F IH]; [exact C|]. cbn [app]. apply C_blank; assumption. Qed.

Lemma composed_round : forall t g a b ts, first_match token_exprs t = Some (g, (a, b)) -> composed ts b ->
  composed (match g with Some g' => make_token g' a :: ts | None => ts end) (a ++ b).
Proof.
  intros t g a b ts E C. pose proof (first_match_text t g a b E) as T. destruct g as [g|].
  - apply C_token; assumption.
  - destruct T as [[_ F]|[c [-> [N H]]]]; [exact (composed_blanks a ts b F C)|].
    cbn [app]. apply C_comment; assumption.
Qed.

Lemma lexer_inv : forall t, t <> [] ->
  (exists g a b, first_match token_exprs t = Some (g, (a, b)) /\ t = a ++ b /\ List.length b < List.length t /\
     lexer t = (do ts <- lexer b; Ok (match g with Some g' => make_token g' a :: ts | None => ts end))) \/
  (first_match token_exprs t = None /\ lexer t = Err KeyError).
Proof.
  intros t N. rewrite (lexer_step t N).
  destruct (first_match token_exprs t) as [[g [a b]]|] eqn:M; [left|right; split; reflexivity].
  exists g, a, b. split; [reflexivity|]. pose proof (first_match_takes t g a b M) as [E Na].
  split; [exact E|]. split; [|reflexivity]. rewrite E, app_length. destruct a; [congruence|cbn; lia].
Qed.

Lemma nothing_lost_proof : forall s ts, lexer s = Ok ts -> composed ts s.
Proof.
  intros s. remember (List.length s) as n eqn:L. revert s L.
  induction n as [n IH] using lt_wf_ind. intros s -> ts E.
  destruct s as [|c s]; [injection E as <-; constructor|].
  destruct (lexer_inv (c :: s)) as [[g [a [b [M [S [Lt H]]]]]]|[_ H]]; [discriminate| |rewrite H in E; discriminate E].
  rewrite H in E. destruct (lexer b) as [tb|] eqn:B; [|discriminate E]. cbn [bind] in E. injection E as <-.
  rewrite S. apply (composed_round (c :: s) g a b tb M). exact (IH (List.length b) Lt b eq_refl tb B).
Qed.

(** ** What is refused *)
Lemma star_some : forall p t, match_star p t = Some (fst (take_while p t), snd (take_while p t)).
Proof. intros p t. unfold match_star. rewrite <- surjective_pairing. reflexivity. Qed.
Lemma none_unreadable : forall s, s <> [] -> first_match token_exprs s = None -> unreadable s.
Proof.
  intros s N M. destruct s as [|c s]; [congruence|].
  assert (All : forall m g, In (m, g) token_exprs -> m (c :: s) = None) by (intros m g; apply first_match_none; exact M).
  cbn [unreadable]. split; [|split].
  - intros B. apply blank_is in B. rewrite (first_match_blank c s B) in M. discriminate M.
  - intros ->. assert (E := All match_comment None ltac:(cbn [In token_exprs]; tauto)).
    unfold match_comment in E. erewrite then_intro in E; [discriminate E|apply (literal_app (chars "#"))|apply star_some].
  - intros t a rest Es T.
    assert (Lit : forall o g, In (match_literal (chars o), g) token_exprs -> a = chars o -> False).
    { intros o g I ->. specialize (All _ _ I). rewrite Es, literal_app in All. discriminate All. }
    assert (Hn : forall x y, a = x :: y -> is_number_char x = true -> False).
    { intros x y -> Hx. rewrite Es in M. cbn [app] in M. rewrite (first_match_number x (y ++ rest) Hx) in M.
      destruct (match_scientific (x :: y ++ rest)); [discriminate M|].
      unfold match_plus in M. cbn [take_while] in M. rewrite Hx in M. discriminate M. }
    destruct T as [t a Sp| | |r Ne A Np].
    + destruct Sp as [v a Nu|r Na|o Io].
      * destruct (number_head v a Nu) as [x [y [E H]]]. exact (Hn x y E H).
      * destruct Na as [x y L A|x y L A].
        -- rewrite Es in M. cbn [app] in M. rewrite first_match_letter in M by (apply letter_in, L). discriminate M.
        -- rewrite Es in M.
           change ((written "$var." ++ x :: y) ++ rest) with ("$"%char :: chars "var." ++ x :: y ++ rest) in M.
           rewrite first_match_dollar in M.
           change ("$"%char :: chars "var." ++ x :: y ++ rest) with (chars "$var." ++ x :: y ++ rest) in M.
           unfold match_var in M. erewrite then_intro in M; [discriminate M|apply literal_app|].
           eapply then_intro; [|apply star_some]. unfold match_one. apply letter_in in L. rewrite L. reflexivity.
      * cbn in Io.
        repeat destruct Io as [<-|Io]; try (eapply (Lit _ (Some Operator)); [|reflexivity]; cbn [In token_exprs]; tauto).
    + apply (Lit ":=" (Some Operator)); [|reflexivity]. cbn [In token_exprs]; tauto.
    + apply (Lit ";" (Some Operator)); [|reflexivity]. cbn [In token_exprs]; tauto.
    + destruct (written r) as [|x y] eqn:Er.
      * apply Ne. rewrite <- (written_chars r), Er. reflexivity.
      * apply (Hn x y eq_refl). apply number_char_in, A. left. reflexivity.
Qed.

Lemma refused_proof : forall s e, lexer s = Err e ->
  e = KeyError /\ exists ts before rest, s = before ++ rest /\ composed ts before /\ unreadable rest.
Proof.
  intros s. remember (List.length s) as n eqn:L. revert s L.
  induction n as [n IH] using lt_wf_ind. intros s -> e E.
  destruct s as [|c s]; [discriminate E|].
  destruct (lexer_inv (c :: s)) as [[g [a [b [M [S [Lt H]]]]]]|[M H]]; [discriminate| |].
  - rewrite H in E. destruct (lexer b) as [tb|e'] eqn:B; [discriminate E|]. cbn [bind] in E. injection E as <-.
    destruct (IH (List.length b) Lt b eq_refl e' B) as [K [ts [before [rest [Eb [C U]]]]]].
    split; [exact K|]. subst b.
    destruct before as [|x before].
    + (* the comment ends the part that can be read only at a line end or at the end *)
      cbn [app] in *.
      exists (match g with Some g' => [make_token g' a] | None => [] end), a, rest.
      split; [exact S|]. split; [|exact U].
      pose proof (first_match_text _ _ _ _ M) as T. destruct g as [g|].
      * pose proof (C_token _ _ _ _ T C_nil) as Q. rewrite app_nil_r in Q. exact Q.
      * destruct T as [[_ F]|[d [-> [N Hd]]]].
        -- rewrite <- (app_nil_r a). apply composed_blanks; [exact F|constructor].
        -- rewrite <- (app_nil_r d). apply C_comment; [exact N|left; reflexivity|constructor].
    + exists (match g with Some g' => make_token g' a :: ts | None => ts end), (a ++ x :: before), rest.
      split; [rewrite S, <- app_assoc; reflexivity|]. split; [|exact U].
      pose proof (first_match_text _ _ _ _ M) as T. destruct g as [g|].
      * apply C_token; [exact T|exact C].
      * destruct T as [[_ F]|[d [-> [N Hd]]]].
        -- apply composed_blanks; [exact F|exact C].
        -- cbn [app]. apply C_comment; [exact N| |exact C].
           destruct Hd as [Hd|[b' Hd]]; [discriminate Hd|]. right.
           cbn [app] in Hd. injection Hd as -> _. exists before. reflexivity.
  - rewrite H in E. injection E as <-. split; [reflexivity|].
    exists [], [], (c :: s). split; [reflexivity|]. split; [constructor|]. apply none_unreadable; [discriminate|exact M].
Qed.

(** ** Texts that are a number *)
Lemma strip_left_spec : forall t, exists a, t = a ++ strip_left t /\ spaces a /\ head_not is_space (strip_left t).
Proof.
  intros t. destruct (take_while_spec is_space t) as [E [F H]]. unfold strip_left.
  exists (fst (take_while is_space t)). repeat split; assumption.
Qed.
Lemma strip_spec : forall t, exists a b, t = a ++ strip t ++ b /\ spaces a /\ spaces b.
Proof.
  intros t. destruct (strip_left_spec t) as [a [E [Sa _]]].
  destruct (strip_left_spec (rev (strip_left t))) as [b [E2 [Sb _]]].
  exists a, (rev b). split; [|split; [exact Sa|apply Forall_rev; exact Sb]].
  unfold strip. rewrite <- rev_app_distr, <- E2, rev_involutive. exact E.
Qed.

Lemma read_digits_chars : forall t acc n, exists a, t = a ++ snd (read_digits acc n t) /\ Forall (fun c => is_float_char c = true) a.
Proof.
  induction t as [|c t IH]; intros acc n.
  - exists []. split; [reflexivity|constructor].
  - cbn [read_digits]. destruct (is_digit c) eqn:D.
    + destruct (IH (acc * 10 + digit_of c)%Z (S n)) as [a [E F]]. exists (c :: a). split.
      * cbn [app]. f_equal. exact E.
      * constructor; [unfold is_float_char; rewrite D; reflexivity|exact F].
    + destruct (Ascii.eqb c "_" && Nat.ltb 0 n)%bool eqn:U; [|exists []; split; [reflexivity|constructor]].
      destruct t as [|d t']; [exists []; split; [reflexivity|constructor]|].
      destruct (is_digit d) eqn:Dd; [|exists []; split; [reflexivity|constructor]].
      destruct (IH acc n) as [a [E F]]. exists (c :: a). split.
      * cbn [app]. f_equal. exact E.
      * constructor; [|exact F]. apply Bool.andb_true_iff in U. destruct U as [U _].
        apply Ascii.eqb_eq in U. subst c. reflexivity.
Qed.
Lemma read_sign_chars : forall t, exists a, t = a ++ snd (read_sign t) /\ Forall (fun c => is_float_char c = true) a.
Proof.
  intros [|c t]; [exists []; split; [reflexivity|constructor]|]. cbn [read_sign].
  destruct (Ascii.eqb c "-") eqn:M.
  - apply Ascii.eqb_eq in M. subst c. exists ["-"%char]. split; [reflexivity|]. constructor; [reflexivity|constructor].
  - destruct (Ascii.eqb c "+") eqn:P.
    + apply Ascii.eqb_eq in P. subst c. exists ["+"%char]. split; [reflexivity|]. constructor; [reflexivity|constructor].
    + exists []. split; [reflexivity|constructor].
Qed.
Lemma letter_e_float : forall c, (negb (one_of "eE" c) || is_float_char c)%bool = true.
Proof. all_chars. Qed.
Lemma read_exponent_chars : forall t e, read_exponent t = Some e -> Forall (fun c => is_float_char c = true) t.
Proof.
  intros [|c t] e E; [constructor|]. cbn [read_exponent] in E.
  destruct (one_of "eE" c) eqn:O; [|discriminate E]. cbv zeta in E.
  assert (Fc : is_float_char c = true).
  { pose proof (letter_e_float c) as H. rewrite O in H. exact H. }
  constructor; [exact Fc|].
  destruct (read_sign_chars t) as [a [Et Fa]].
  destruct (read_digits_chars (snd (read_sign t)) 0 0) as [b [Es Fb]].
  destruct (read_digits 0 0 (snd (read_sign t))) as [[v [|n]] r]; [discriminate E|].
  destruct r; [|discriminate E]. cbn [snd] in Es. rewrite app_nil_r in Es.
  rewrite Et, Es. apply Forall_app. split; assumption.
Qed.
Lemma read_unsigned_chars : forall t v, read_unsigned t = Some v ->
  Forall (fun c => is_float_char c = true) t /\ exists c t', t = c :: t' /\ is_number_char c = true.
Proof.
  intros t v E. unfold read_unsigned in E.
  destruct (read_digits_chars t 0 0) as [a [Et Fa]].
  assert (Hd : match t with [] => True | c :: _ => is_digit c = true \/ read_digits 0 0 t = ((0%Z, 0), t) end).
  { destruct t as [|c t]; [exact I|]. cbn [read_digits]. destruct (is_digit c) eqn:D; [left; reflexivity|right].
    destruct (Ascii.eqb c "_"); reflexivity. }
  destruct t as [|c t]; [discriminate E|].
  destruct (read_digits 0 0 (c :: t)) as [[w nw] r] eqn:R. cbv zeta in E. cbn [fst snd] in *.
  assert (Hc : is_number_char c = true).
  { unfold is_number_char. destruct Hd as [Hd|Hd]; [rewrite Hd; reflexivity|].
    injection Hd as -> -> ->. destruct (Ascii.eqb c ".") eqn:P; [apply Bool.orb_true_r|discriminate E]. }
  split; [|exists c, t; split; [reflexivity|exact Hc]].
  rewrite Et. apply Forall_app. split; [exact Fa|].
  destruct r as [|x r]; [constructor|].
  destruct (Ascii.eqb x ".") eqn:P.
  - apply Ascii.eqb_eq in P. subst x. constructor; [reflexivity|].
    destruct (read_digits_chars r 0 0) as [b [Er Fb]].
    destruct (Nat.add nw (snd (fst (read_digits 0 0 r)))); [discriminate E|].
    destruct (read_exponent (snd (read_digits 0 0 r))) as [e|] eqn:X; [|discriminate E].
    rewrite Er. apply Forall_app. split; [exact Fb|exact (read_exponent_chars _ e X)].
  - destruct nw; [discriminate E|]. destruct (read_exponent (x :: r)) as [e|] eqn:X; [|discriminate E].
    exact (read_exponent_chars _ e X).
Qed.

(** a text that float() accepts: spaces, characters of a literal, spaces; the first of them is a
    digit, a point or a sign *)
Lemma python_float_chars : forall t v, python_float t = Some v ->
  exists a s b, t = a ++ s ++ b /\ spaces a /\ spaces b /\ Forall (fun c => is_float_char c = true) s /\
    exists c s', s = c :: s' /\ (is_number_char c || one_of "+-" c)%bool = true.
Proof.
  intros t v E. destruct (strip_spec t) as [a [b [Et [Sa Sb]]]].
  exists a, (strip t), b. split; [exact Et|]. split; [exact Sa|]. split; [exact Sb|].
  unfold python_float in E. cbv zeta in E.
  destruct (read_sign_chars (strip t)) as [g [Eg Fg]].
  destruct (read_unsigned (snd (read_sign (strip t)))) as [u|] eqn:R; [|discriminate E].
  destruct (read_unsigned_chars _ u R) as [F [c [s' [Ec Hc]]]].
  split.
  - rewrite Eg. apply Forall_app. split; assumption.
  - destruct (strip t) as [|x s]; [discriminate R|]. exists x, s. split; [reflexivity|].
    cbn [read_sign] in Ec. destruct (Ascii.eqb x "-") eqn:M.
    + apply Ascii.eqb_eq in M. subst x. reflexivity.
    + destruct (Ascii.eqb x "+") eqn:P; [apply Ascii.eqb_eq in P; subst x; reflexivity|].
      cbn [snd] in Ec. injection Ec as -> _. rewrite Hc. reflexivity.
Qed.

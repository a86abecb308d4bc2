(** What float() makes of the text of a number. *)
From Coq Require Import Ascii String Lia.
From Verif Require Import QcTac Base BaseLemmas Expr_Model Lexer_Model Lexer_Spec Lexer_Proofs.
Local Open Scope char_scope.
Local Open Scope string_scope.
Local Open Scope list_scope.
Local Open Scope nat_scope.

Lemma digit_chars_nil : forall ds, digit_chars ds <> [] <-> ds <> [].
Proof. intros [|d ds]; cbn; split; congruence. Qed.

Lemma exponent_read : forall l e x, (l = "e" \/ l = "E")%char -> exponent l e x -> read_exponent x = Some e.
Proof.
  intros l e x Hl X.
  assert (One : one_of "eE" l = true) by (destruct Hl; subst l; reflexivity).
  destruct X as [ds A N E|ds A N E|ds A N E]; subst e; unfold read_exponent; rewrite One.
  - destruct ds as [|d ds]; [congruence|].
    assert (Sg : read_sign (digit_chars (d :: ds)) = (false, digit_chars (d :: ds))).
    { inversion A as [|? ? L A']; subst. cbn [digit_chars map read_sign].
      destruct (digit_facts (ascii_of_nat (48 + d)) (proj1 (digit_char d L))) as [_ [_ [_ [_ [_ [_ [M [P _]]]]]]]].
      rewrite M, P. reflexivity. }
    cbv zeta. rewrite Sg. cbn [fst snd].
    rewrite <- (app_nil_r (digit_chars (d :: ds))), read_digits_0 by (exact A || exact I). reflexivity.
  - cbv zeta. cbn [read_sign]. change (Ascii.eqb "+" "-") with false. change (Ascii.eqb "+" "+") with true.
    cbn [fst snd]. cbv iota. cbn [fst snd].
    destruct ds as [|d ds]; [congruence|].
    rewrite <- (app_nil_r (digit_chars (d :: ds))), read_digits_0 by (exact A || exact I). reflexivity.
  - cbv zeta. cbn [read_sign]. change (Ascii.eqb "-" "-") with true.
    cbv iota. cbn [fst snd].
    destruct ds as [|d ds]; [congruence|].
    rewrite <- (app_nil_r (digit_chars (d :: ds))), read_digits_0 by (exact A || exact I). reflexivity.
Qed.

(** a decimal followed by nothing or by an exponent *)
Lemma whole_read : forall w e x, are_digits w -> w <> [] ->
  (x = [] /\ e = 0%Z \/ exists l, (l = "e" \/ l = "E")%char /\ exponent l e x) ->
  read_unsigned (digit_chars w ++ x) = Some (qz (decimal w) * ten_to e)%Qc.
Proof.
  intros w e x A N X.
  assert (En : digits_end x).
  { destruct X as [[-> _]|[l [[->| ->] []]]]; try exact I; split; reflexivity. }
  unfold read_unsigned. rewrite read_digits_0 by assumption. cbv zeta. cbn [fst snd].
  destruct w as [|d w]; [congruence|]. cbn [List.length].
  destruct X as [[-> ->]|[l [Hl X]]].
  - f_equal. cbn [ten_to]. change (qz (10 ^ 0)) with 1%Qc. ring.
  - pose proof (exponent_read l e x Hl X) as R. destruct x as [|c x]; [inversion X|].
    assert (P : Ascii.eqb c "." = false) by (destruct Hl as [->| ->]; inversion X; reflexivity).
    rewrite P, R. rewrite scale10_is. reflexivity.
Qed.

Lemma point_read : forall w f e x, are_digits w -> are_digits f -> w ++ f <> [] ->
  (x = [] /\ e = 0%Z \/ exists l, (l = "e" \/ l = "E")%char /\ exponent l e x) ->
  read_unsigned (digit_chars w ++ "."%char :: digit_chars f ++ x) =
  Some (qz (decimal (w ++ f)) * ten_to (- Z.of_nat (List.length f)) * ten_to e)%Qc.
Proof.
  intros w f e x A B N X.
  assert (En : digits_end x).
  { destruct X as [[-> _]|[l [[->| ->] []]]]; try exact I; split; reflexivity. }
  unfold read_unsigned. rewrite (read_digits_0 w) by (try assumption; split; reflexivity).
  cbv zeta. cbn [fst snd]. change (Ascii.eqb "." ".") with true. cbv iota.
  rewrite read_digits_0 by assumption. cbn [fst snd].
  assert (L : exists m, List.length w + List.length f = S m).
  { rewrite <- app_length. destruct (w ++ f); [congruence|]. eexists. reflexivity. }
  destruct L as [m L]. rewrite L.
  assert (R : read_exponent x = Some e).
  { destruct X as [[-> ->]|[l [Hl X]]]; [reflexivity|exact (exponent_read l e x Hl X)]. }
  rewrite R, scale10_is, fraction_is. reflexivity.
Qed.

Lemma unsigned_read : forall v s, unsigned v s -> read_unsigned s = Some v.
Proof.
  intros v s U. destruct U as [s P|u s e l x P Hl X E].
  - destruct P as [w A N E|w f A B N E]; subst v.
    + rewrite <- (app_nil_r (digit_chars w)). rewrite (whole_read w 0 []) by (try assumption; left; split; reflexivity).
      f_equal. cbn [ten_to]. change (qz (10 ^ 0)) with 1%Qc. ring.
    + rewrite <- (app_nil_r (digit_chars f)). rewrite (point_read w f 0 []) by (try assumption; left; split; reflexivity).
      f_equal. cbn [ten_to]. change (qz (10 ^ 0)) with 1%Qc. ring.
  - subst v. destruct P as [w A N E|w f A B N E]; subst u.
    + apply whole_read; [assumption|assumption|right; exists l; split; assumption].
    + rewrite <- app_assoc. cbn [app]. apply point_read; [assumption|assumption|assumption|right; exists l; split; assumption].
Qed.

(** a number inside an expression is a literal *)
Lemma number_unsigned : forall v s, number v s -> unsigned v s.
Proof.
  intros v s N. destruct N as [s P|d e x L X E|d f e x L A N X E].
  - exact (U_plain v s P).
  - apply (U_exponent v (qz (Z.of_nat d)) (digit_chars [d]) e "e"%char x).
    + apply P_whole; [constructor; [exact L|constructor]|congruence|]. reflexivity.
    + left; reflexivity.
    + exact X.
    + exact E.
  - replace (digit_chars [d] ++ "."%char :: digit_chars f ++ x)
      with ((digit_chars [d] ++ "."%char :: digit_chars f) ++ x) by (rewrite <- app_assoc; reflexivity).
    apply (U_exponent v (qz (decimal (d :: f)) * ten_to (- Z.of_nat (List.length f)))%Qc _ e "e"%char x).
    + apply P_point; [constructor; [exact L|constructor]|exact A|cbn; congruence|reflexivity].
    + left; reflexivity.
    + exact X.
    + rewrite E. rewrite <- Qcmult_assoc, <- ten_to_add. f_equal. f_equal. lia.
Qed.

(** the characters of a literal *)
Definition is_float_char (c : ascii) : bool := is_digit c || one_of "._eE+-" c.
Lemma float_char_no_space : forall c, is_float_char c = true -> is_space c = false.
Proof.
  apply no_char. all_chars.
Qed.
Lemma digit_float : forall ds, are_digits ds -> Forall (fun c => is_float_char c = true) (digit_chars ds).
Proof.
  intros ds A. eapply Forall_impl; [|exact (digit_chars_all ds A)].
  intros c D. unfold is_float_char. cbv beta in D. rewrite D. reflexivity.
Qed.
Lemma exponent_float : forall l e x, (l = "e" \/ l = "E")%char -> exponent l e x -> Forall (fun c => is_float_char c = true) x.
Proof.
  intros l e x Hl X.
  assert (F : is_float_char l = true) by (destruct Hl; subst l; reflexivity).
  destruct X as [ds A N E|ds A N E|ds A N E].
  - constructor; [exact F|exact (digit_float ds A)].
  - constructor; [exact F|]. constructor; [reflexivity|exact (digit_float ds A)].
  - constructor; [exact F|]. constructor; [reflexivity|exact (digit_float ds A)].
Qed.
Lemma plain_float : forall v s, plain v s -> Forall (fun c => is_float_char c = true) s.
Proof.
  intros v s P. destruct P as [w A N E|w f A B N E].
  - exact (digit_float w A).
  - apply Forall_app. split; [exact (digit_float w A)|]. constructor; [reflexivity|exact (digit_float f B)].
Qed.
Lemma unsigned_float : forall v s, unsigned v s -> Forall (fun c => is_float_char c = true) s.
Proof.
  intros v s U. destruct U as [s P|u s e l x P Hl X E].
  - exact (plain_float v s P).
  - apply Forall_app. split; [exact (plain_float u s P)|exact (exponent_float l e x Hl X)].
Qed.

(** a literal does not begin with a sign unless it has one *)
Lemma unsigned_sign : forall v s, unsigned v s -> read_sign s = (false, s).
Proof.
  intros v s U.
  assert (H : exists c t, s = c :: t /\ is_number_char c = true).
  { assert (Hp : forall u s, plain u s -> exists c t, s = c :: t /\ is_number_char c = true).
    { intros u t P. destruct P as [w A N E|w f A B N E].
      - destruct w as [|d w]; [congruence|]. inversion A as [|? ? L A']; subst.
        exists (ascii_of_nat (48 + d)), (digit_chars w). split; [reflexivity|].
        apply digit_facts, digit_char, L.
      - destruct w as [|d w].
        + exists "."%char, (digit_chars f). split; reflexivity.
        + inversion A as [|? ? L A']; subst.
          exists (ascii_of_nat (48 + d)), (digit_chars w ++ "."%char :: digit_chars f). split; [reflexivity|].
          apply digit_facts, digit_char, L. }
    destruct U as [s P|u s e l x P Hl X E]; [exact (Hp v s P)|].
    destruct (Hp u s P) as [c [t [E1 E2]]]. exists c, (t ++ x). rewrite E1. split; [reflexivity|exact E2]. }
  destruct H as [c [t [E H]]]. rewrite E. cbn [read_sign].
  assert (M : Ascii.eqb c "-" = false) by (revert c H E; intros c H _; revert c H; apply no_char; all_chars).
  assert (P : Ascii.eqb c "+" = false) by (revert c H E M; intros c H _ _; revert c H; apply no_char; all_chars).
  rewrite M, P. reflexivity.
Qed.

Lemma float_no_space : forall s, Forall (fun c => is_float_char c = true) s -> no_space s.
Proof.
  intros s F. eapply Forall_impl; [|exact F]. intros c. apply float_char_no_space.
Qed.

(** float() of a literal between spaces *)
Lemma literal_read : forall v a s b, spaces a -> spaces b -> literal v s -> python_float (a ++ s ++ b) = Some v.
Proof.
  intros v a s b Sa Sb L. unfold python_float.
  destruct L as [s U|s U|s U].
  - rewrite strip_around by (try assumption; apply float_no_space, (unsigned_float v); exact U).
    cbv zeta. rewrite (unsigned_sign v s U). cbn [fst snd]. rewrite (unsigned_read v s U). reflexivity.
  - rewrite strip_around by (first [assumption|constructor; [reflexivity|apply float_no_space, (unsigned_float v); exact U]]).
    cbv zeta. cbn [read_sign]. change (Ascii.eqb "+" "-") with false. change (Ascii.eqb "+" "+") with true. cbv iota. cbn [fst snd].
    rewrite (unsigned_read v s U). reflexivity.
  - rewrite strip_around by (first [assumption|constructor; [reflexivity|apply float_no_space, (unsigned_float (- v)%Qc); exact U]]).
    cbv zeta. cbn [read_sign]. change (Ascii.eqb "-" "-") with true. cbv iota. cbn [fst snd].
    rewrite (unsigned_read (- v)%Qc s U). f_equal. ring.
Qed.
Lemma number_read : forall v s, number v s -> python_float s = Some v.
Proof.
  intros v s N. pose proof (literal_read v [] s [] (Forall_nil _) (Forall_nil _) (L_unsigned v s (number_unsigned v s N))) as H.
  cbn [app] in H. rewrite app_nil_r in H. exact H.
Qed.

(** digits and points that float() accepts *)
Lemma digits_split : forall t, Forall (fun c => is_number_char c = true) t ->
  exists w r, are_digits w /\ t = digit_chars w ++ r /\ (r = [] \/ exists r', r = "."%char :: r' /\ Forall (fun c => is_number_char c = true) r').
Proof.
  intros t F. induction F as [|c t P F IH].
  - exists [], []. repeat split; [constructor|left; reflexivity].
  - destruct (is_digit c) eqn:D.
    + destruct IH as [w [r [A [E H]]]]. destruct (digit_inv c D) as [d [L Ec]].
      exists (d :: w), r. split; [constructor; assumption|]. split; [|exact H].
      rewrite Ec, E. reflexivity.
    + unfold is_number_char in P. rewrite D in P. cbn in P. apply Ascii.eqb_eq in P. subst c.
      exists [], ("."%char :: t). split; [constructor|]. split; [reflexivity|]. right. exists t. split; [reflexivity|exact F].
Qed.

Lemma number_chars_float : forall s v, Forall (fun c => is_number_char c = true) s -> python_float s = Some v -> plain v s.
Proof.
  intros s v F H.
  assert (Ns : no_space s).
  { eapply Forall_impl; [|exact F]. apply no_char. all_chars. }
  unfold python_float in H. rewrite (strip_none s Ns) in H. cbv zeta in H.
  assert (Sg : read_sign s = (false, s)).
  { destruct F as [|c t P F]; [reflexivity|]. cbn [read_sign].
    assert (M : Ascii.eqb c "-" = false) by (clear - P; revert c P; apply no_char; all_chars).
    assert (Q : Ascii.eqb c "+" = false) by (clear - P; revert c P; apply no_char; all_chars).
    rewrite M, Q. reflexivity. }
  rewrite Sg in H. cbn [fst snd] in H.
  destruct (read_unsigned s) as [u|] eqn:R; [|discriminate H]. injection H as H. subst u.
  destruct (digits_split s F) as [w [r [A [E Hr]]]]. subst s.
  destruct Hr as [->|[r' [-> F']]].
  - rewrite app_nil_r in *. apply P_whole; [exact A| |].
    + intros ->. discriminate R.
    + unfold read_unsigned in R. rewrite <- (app_nil_r (digit_chars w)), read_digits_0 in R by (exact A || exact I).
      cbv zeta in R. cbn [fst snd] in R. destruct (List.length w); [discriminate R|]. injection R as R. symmetry; exact R.
  - unfold read_unsigned in R. rewrite read_digits_0 in R by (try exact A; split; reflexivity).
    cbv zeta in R. cbn [fst snd] in R. change (Ascii.eqb "." ".") with true in R. cbv iota in R.
    destruct (digits_split r' F') as [f [r2 [B [E2 Hr2]]]]. subst r'.
    rewrite read_digits_0 in R.
    2: exact B.
    2: { destruct Hr2 as [->|[r3 [-> _]]]; [exact I|split; reflexivity]. }
    cbn [fst snd] in R.
    destruct Hr2 as [->|[r3 [-> _]]].
    + rewrite app_nil_r. apply P_point; [exact A|exact B| |].
      * intros Z. rewrite <- app_length, Z in R. discriminate R.
      * cbn [read_exponent] in R. destruct (List.length w + List.length f) eqn:Len; [discriminate R|].
        injection R as R. rewrite <- R. rewrite scale10_is, fraction_is.
        cbn [ten_to]. change (qz (10 ^ 0)) with 1%Qc. ring.
    + exfalso. cbn [read_exponent] in R. change (one_of "eE" ".") with false in R.
      destruct (List.length w + List.length f); discriminate R.
Qed.

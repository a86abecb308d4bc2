(** Expressions given as text: reading, evaluating, writing. *)
From Coq Require Import Ascii String Lia.
From Verif Require Import QcTac Base BaseLemmas Expr_Model Expr_Spec Expr_Proofs Expr_Proofs2
  Lexer_Model Lexer_Spec Lexer_Proofs Lexer_Proofs2 Lexer_Proofs3 Lexer_Proofs4 Lexer_Proofs5.
Local Open Scope char_scope.
Local Open Scope string_scope.
Local Open Scope list_scope.
Local Open Scope nat_scope.

(** ** Characters of what is spelled *)
Lemma name_char_no_space : forall c, is_name_char c = true -> is_space c = false.
Proof. apply no_char. all_chars. Qed.
Lemma blank_space : forall c, blank c -> is_space c = true.
Proof. intros c [->|[->| ->]]; reflexivity. Qed.

Lemma name_no_space : forall s, name s -> no_space s.
Proof.
  intros s N. destruct N as [c s L A|c s L A].
  - constructor.
    + apply name_char_no_space. apply letter_in in L. unfold is_name_char. rewrite L. reflexivity.
    + apply Forall_forall. intros x I. apply name_char_no_space, name_char_in, A, I.
  - apply Forall_app. split; [repeat constructor|]. constructor.
    + apply name_char_no_space. apply letter_in in L. unfold is_name_char. rewrite L. reflexivity.
    + apply Forall_forall. intros x I. apply name_char_no_space, var_is_name_char, var_char_in, A, I.
Qed.
Lemma number_no_space : forall v s, number v s -> no_space s.
Proof. intros v s N. apply float_no_space, (unsigned_float v), number_unsigned, N. Qed.
Lemma operator_no_space : forall o, In o operators -> no_space (written o).
Proof. intros o I. cbn in I. repeat destruct I as [<-|I]; [..|destruct I]; repeat constructor. Qed.
Lemma spells_no_space : forall t s, spells t s -> no_space s.
Proof.
  intros t s Sp. destruct Sp as [v s N|r N|o I].
  - exact (number_no_space v s N).
  - exact (name_no_space _ N).
  - exact (operator_no_space o I).
Qed.
Lemma spells_head : forall t s rest, spells t s -> head_not is_space (s ++ rest).
Proof.
  intros t s rest Sp. pose proof (spells_no_space t s Sp) as N. pose proof (spells_nonempty t s Sp) as Ne.
  destruct N; [congruence|]. assumption.
Qed.

(** ** A text that is laid out and that float() accepts is one number *)
Definition plain_char (c : ascii) : bool := is_space c || is_float_char c.

Lemma skipped_spaces : forall g, skipped g -> Forall (fun c => plain_char c = true) g -> spaces g.
Proof.
  intros g S. induction S as [|c g B S IH|c g N S IH]; intros F.
  - constructor.
  - inversion F; subst. constructor; [apply blank_space, B|apply IH; assumption].
  - inversion F as [|? ? H]; subst. discriminate H.
Qed.
Lemma spells_plain : forall t s, spells t s -> Forall (fun c => plain_char c = true) s -> operand t.
Proof.
  intros t s Sp F. destruct Sp as [v s N|r N|o I]; [exact I|exact I|].
  exfalso. cbn in I. repeat destruct I as [<-|I]; try (inversion F as [|? ? H]; subst; discriminate H). destruct I.
Qed.
Lemma cut_same : forall (p : ascii -> bool) a b c d, a ++ b = c ++ d ->
  Forall (fun x => p x = true) a -> Forall (fun x => p x = true) c -> head_not p b -> head_not p d -> a = c /\ b = d.
Proof.
  intros p a b c d E Fa Fc Hb Hd.
  pose proof (take_while_app p a b Fa Hb) as T1. pose proof (take_while_app p c d Fc Hd) as T2.
  rewrite E, T2 in T1. injection T1 as -> ->. split; reflexivity.
Qed.

Lemma number_alone : forall ts s v, laid_out None ts s -> python_float s = Some v -> ts = [TNum v].
Proof.
  intros ts s v L P.
  destruct (python_float_chars s v P) as [a [u [b [Es [Sa [Sb [Fu [c [u' [Eu Hc]]]]]]]]]].
  assert (F : Forall (fun c => plain_char c = true) s).
  { rewrite Es. apply Forall_app. split; [|apply Forall_app; split].
    - eapply Forall_impl; [|exact Sa]. intros x H. cbv beta in H. unfold plain_char. rewrite H. reflexivity.
    - eapply Forall_impl; [|exact Fu]. intros x H. cbv beta in H. unfold plain_char. rewrite H. apply Bool.orb_true_r.
    - eapply Forall_impl; [|exact Sb]. intros x H. cbv beta in H. unfold plain_char. rewrite H. reflexivity. }
  assert (Nc : is_space c = false).
  { rewrite Eu in Fu. inversion Fu; subst. apply float_char_no_space. assumption. }
  assert (Ic : In c s) by (rewrite Es, Eu; apply in_or_app; right; left; reflexivity).
  inversion L as [pr g S E0 E1 E2|pr g d S N E0 E1 E2|pr g t s1 ts' rest S A Sp L' E0 E1 E2]; subst ts.
  - subst g. pose proof (skipped_spaces s S F) as Sg. unfold spaces in Sg. rewrite Forall_forall in Sg.
    rewrite (Sg c Ic) in Nc. discriminate Nc.
  - rewrite <- E2 in F. apply Forall_app in F. destruct F as [_ F]. inversion F as [|? ? H]; subst. discriminate H.
  - rewrite <- E2 in F. apply Forall_app in F. destruct F as [Fg F]. apply Forall_app in F. destruct F as [F1 F2].
    pose proof (skipped_spaces g S Fg) as Sg. pose proof (spells_plain t s1 Sp F1) as Ot.
    assert (C1 : g = a /\ s1 ++ rest = u ++ b).
    { apply (cut_same is_space); [congruence|exact Sg|exact Sa|exact (spells_head t s1 rest Sp)|]. rewrite Eu. exact Nc. }
    destruct C1 as [-> C1].
    pose proof (spells_nonempty t s1 Sp) as Ne.
    destruct Sp as [v' s1 N|r N|o I]; [| |destruct Ot].
    + inversion L' as [pr' g' S' E5 E3 E4|pr' g' d' S' N' E5 E3 E4|pr' g' t2 s2 ts2 rest2 S' A' Sp2 L2 E5 E3 E4]; subst ts'.
      * subst g'. pose proof (skipped_spaces rest S' F2) as Sr.
        rewrite <- E2 in P. rewrite (literal_read v' a s1 rest Sg Sr (L_unsigned _ _ (number_unsigned _ _ N))) in P.
        injection P as ->. reflexivity.
      * exfalso. subst rest. apply Forall_app in F2. destruct F2 as [_ F2]. inversion F2 as [|? ? H]; subst. discriminate H.
      * exfalso. subst rest. apply Forall_app in F2. destruct F2 as [Fg2 F2]. apply Forall_app in F2. destruct F2 as [Fs2 _].
        pose proof (skipped_spaces g' S' Fg2) as Sg2. pose proof (spells_plain t2 s2 Sp2 Fs2) as O2.
        assert (Ng : g' <> []) by (apply A'; left; split; [exact I|exact O2]).
        assert (C2 : s1 = u /\ g' ++ s2 ++ rest2 = b).
        { apply (cut_same (fun x => negb (is_space x))).
          - exact C1.
          - eapply Forall_impl; [|exact (number_no_space v' s1 N)]. intros x H. cbv beta in H. rewrite H. reflexivity.
          - eapply Forall_impl; [|exact (float_no_space u Fu)]. intros x H. cbv beta in H. rewrite H. reflexivity.
          - destruct Sg2 as [|x g' Hx _]; [congruence|]. cbn. rewrite Hx. reflexivity.
          - destruct Sb as [|x b Hx _]; [exact I|]. cbn. rewrite Hx. reflexivity. }
        destruct C2 as [_ C2]. rewrite <- C2 in Sb. apply Forall_app in Sb. destruct Sb as [_ Sb].
        apply Forall_app in Sb. destruct Sb as [Sb _].
        pose proof (spells_no_space t2 s2 Sp2) as N2. pose proof (spells_nonempty t2 s2 Sp2) as Ne2.
        destruct s2 as [|x s2]; [congruence|]. inversion Sb; subst. inversion N2; subst. congruence.
    + exfalso. rewrite Eu in C1.
      remember (written r) as w eqn:Ew. destruct N as [x y Lx A2|x y Lx A2].
      * cbn [app] in C1. injection C1 as -> _. apply letter_in in Lx.
        assert (H : (is_number_char c || one_of "+-" c)%bool = false).
        { clear - Lx. revert c Lx. apply no_char. all_chars. }
        rewrite H in Hc. discriminate Hc.
      * cbn [app written list_ascii_of_string] in C1. injection C1 as <- _. discriminate Hc.
Qed.

Lemma validate_proof : forall ts s, laid_out None ts s -> validate (InText s) = Ok ts.
Proof.
  intros ts s L. cbn [validate]. destruct (python_float s) as [v|] eqn:P.
  - rewrite (number_alone ts s v L P). reflexivity.
  - rewrite (read_proof None ts s L). reflexivity.
Qed.

(** ** The theorems *)
Lemma evaluate_text_proof : forall (pow : Qc -> Qc -> Qc) k ts e s variables n,
  writes k ts e -> laid_out None ts s ->
  (forall r, In r (references e) -> exists l, dict_get String.eqb r variables = Some l /\ List.length l = n) ->
  exists vec, evaluate_input pow (InText s) variables n = Ok vec /\ List.length vec = n /\
    forall i, i < n ->
      nth i vec 0%Qc =
      value pow (fun r => match dict_get String.eqb r variables with Some l => nth i l 0%Qc | None => 0%Qc end) e.
Proof.
  intros pow k ts e s variables n W L H. unfold evaluate_input. rewrite (validate_proof ts s L). cbn [bind].
  exact (evaluate_writes_proof pow k ts e variables n W H).
Qed.

Lemma alone_proof : forall v a s b, (forall c, In c (a ++ b) -> blank c) -> literal v s ->
  validate (InText (a ++ s ++ b)) = Ok [TNum v].
Proof.
  intros v a s b B L. cbn [validate].
  rewrite (literal_read v a s b); [reflexivity| | |exact L].
  - apply Forall_forall. intros c I. apply blank_space, B, in_or_app. left. exact I.
  - apply Forall_forall. intros c I. apply blank_space, B, in_or_app. right. exact I.
Qed.

Lemma plain_char_mem : forall c, plain_char c = mem c (white ++ digits ++ written "_.eE+-").
Proof. all_chars. Qed.

Lemma kept_proof : forall s ts, validate (InText s) = Ok ts ->
  composed ts s \/
  ((exists v, ts = [TNum v]) /\ forall c, In c s -> In c (white ++ digits ++ written "_.eE+-")).
Proof.
  intros s ts E. cbn [validate] in E. destruct (python_float s) as [v|] eqn:P.
  - right. injection E as <-. split; [exists v; reflexivity|].
    destruct (python_float_chars s v P) as [a [u [b [Es [Sa [Sb [Fu _]]]]]]].
    intros c I. apply mem_in. rewrite <- plain_char_mem. unfold plain_char.
    unfold spaces in Sa, Sb. rewrite Forall_forall in Sa, Sb, Fu. rewrite Es in I.
    apply in_app_or in I. destruct I as [I|I]; [rewrite (Sa c I); reflexivity|].
    apply in_app_or in I. destruct I as [I|I]; [rewrite (Fu c I); apply Bool.orb_true_r|rewrite (Sb c I); reflexivity].
  - left. destruct (lexer s) as [ts'|e] eqn:L.
    + injection E as <-. exact (nothing_lost_proof s ts' L).
    + destruct e; discriminate E.
Qed.

Lemma invalid_proof : forall s e, validate (InText s) = Err e ->
  e = ValidationError /\ exists ts before rest, s = before ++ rest /\ composed ts before /\ unreadable rest.
Proof.
  intros s e E. cbn [validate] in E. destruct (python_float s) as [v|]; [discriminate E|].
  destruct (lexer s) as [ts|e'] eqn:L; [discriminate E|].
  destruct (refused_proof s e' L) as [-> H]. injection E as <-. split; [reflexivity|exact H].
Qed.

(** ** Writing *)
Section Written.
  Variable float_str : Qc -> text.
  Notation str := (token_str float_str).

  Definition is_op (o : string) (t : token) : bool := match t with TOp s => String.eqb s o | _ => false end.
  (** the text with a gap between tokens *)
  Fixpoint lay (gap : token -> token -> text) (previous : option token) (ts : list token) : text :=
    match ts with
    | [] => []
    | t :: ts' => (match previous with Some p => gap p t | None => [] end) ++ str t ++ lay gap (Some t) ts'
    end.
  Definition gap0 (p t : token) : text := [" "%char].
  Definition gap1 (p t : token) : text := if is_op ")" t then [] else [" "%char].
  Definition gap2 (p t : token) : text := if is_op "(" p then [] else gap1 p t.

  Lemma join_lay : forall ts, join_spaces (map str ts) = lay gap0 None ts.
  Proof.
    intros ts. destruct ts as [|t ts]; [reflexivity|]. cbn [lay app].
    revert t. induction ts as [|u ts IH]; intros t.
    - cbn. rewrite app_nil_r. reflexivity.
    - change (join_spaces (map str (t :: u :: ts))) with (str t ++ " "%char :: join_spaces (map str (u :: ts))).
      rewrite IH. reflexivity.
  Qed.

  Lemma replace2_skip : forall a b r x y, ~ In a x -> replace2 a b r (x ++ y) = x ++ replace2 a b r y.
  Proof.
    intros a b r x y N. induction x as [|c x IH]; [reflexivity|].
    assert (Nc : Ascii.eqb c a = false) by (apply Ascii.eqb_neq; intros ->; apply N; left; reflexivity).
    cbn [app]. rewrite <- IH by (intros I; apply N; right; exact I).
    cbn [replace2]. destruct (x ++ y) as [|d t] eqn:E; [reflexivity|]. rewrite Nc. reflexivity.
  Qed.
  Lemma replace2_hit : forall a b r y, replace2 a b r (a :: b :: y) = r :: replace2 a b r y.
  Proof. intros a b r y. cbn [replace2]. rewrite !Ascii.eqb_refl. reflexivity. Qed.
  Lemma replace2_miss : forall a b r d y, d <> b -> replace2 a b r (a :: d :: y) = a :: replace2 a b r (d :: y).
  Proof.
    intros a b r d y N. cbn [replace2]. apply Ascii.eqb_neq in N. rewrite N, Bool.andb_false_r. reflexivity.
  Qed.

  (** every token is spelled by its text *)
  Definition all_spelled (ts : list token) : Prop := Forall (fun t => spells t (str t)) ts.

  Lemma spelled_no_blank : forall t s, spells t s -> ~ In " "%char s.
  Proof.
    intros t s Sp I. pose proof (spells_no_space t s Sp) as N. unfold no_space in N. rewrite Forall_forall in N.
    specialize (N _ I). discriminate N.
  Qed.
  Definition is_paren (c : ascii) : bool := Ascii.eqb c "(" || Ascii.eqb c ")".
  Lemma name_no_paren : forall c, is_name_char c = true -> is_paren c = false.
  Proof. apply no_char. all_chars. Qed.
  Lemma float_no_paren : forall c, is_float_char c = true -> is_paren c = false.
  Proof. apply no_char. all_chars. Qed.
  Lemma spelled_parens : forall t s, spells t s ->
    (is_op "(" t = false -> ~ In "("%char s) /\ (is_op ")" t = false -> ~ In ")"%char s) /\
    (is_op "(" t = true -> s = ["("%char]) /\ (is_op ")" t = true -> s = [")"%char]).
  Proof.
    intros t s Sp.
    assert (Free : Forall (fun c => is_paren c = false) s -> ~ In "("%char s /\ ~ In ")"%char s).
    { intros F. rewrite Forall_forall in F. split; intros I; specialize (F _ I); discriminate F. }
    destruct Sp as [v s N|r N|o I].
    - destruct Free as [F1 F2].
      { eapply Forall_impl; [|exact (unsigned_float v s (number_unsigned v s N))]. exact float_no_paren. }
      repeat split; intros H; try assumption; discriminate H.
    - destruct Free as [F1 F2].
      { destruct N as [c s L A|c s L A].
        - constructor.
          + apply name_no_paren. apply letter_in in L. unfold is_name_char. rewrite L. reflexivity.
          + apply Forall_forall. intros x I. apply name_no_paren, name_char_in, A, I.
        - apply Forall_app. split; [repeat constructor|]. constructor.
          + apply name_no_paren. apply letter_in in L. unfold is_name_char. rewrite L. reflexivity.
          + apply Forall_forall. intros x I. apply name_no_paren, var_is_name_char, var_char_in, A, I. }
      repeat split; intros H; try assumption; discriminate H.
    - assert (E : o = "(" \/ o = ")" \/ (String.eqb o "(" = false /\ String.eqb o ")" = false /\ Forall (fun c => is_paren c = false) (written o))).
      { cbn in I. repeat destruct I as [<-|I]; [left; reflexivity|right; left; reflexivity|..|destruct I];
          right; right; (split; [reflexivity|split; [reflexivity|repeat constructor]]). }
      destruct E as [->|[->|[E1 [E2 F]]]].
      + cbn. repeat split; intros H; try discriminate H; try reflexivity. intros [H'|[]]; discriminate H'.
      + cbn. repeat split; intros H; try discriminate H; try reflexivity. intros [H'|[]]; discriminate H'.
      + destruct (Free F) as [F1 F2]. cbn. rewrite E1, E2. repeat split; intros H; try assumption; discriminate H.
  Qed.

  Lemma str_head : forall t s, spells t s -> exists c s', s = c :: s' /\ c <> " "%char /\ (is_op ")" t = false -> c <> ")"%char).
  Proof.
    intros t s Sp. pose proof (spells_nonempty t s Sp) as Ne. destruct s as [|c s]; [congruence|].
    exists c, s. split; [reflexivity|]. split.
    - intros ->. apply (spelled_no_blank t _ Sp). left. reflexivity.
    - intros H ->. destruct (spelled_parens t _ Sp) as [_ [P _]]. apply (P H). left. reflexivity.
  Qed.

  Lemma replace_first : forall ts previous, all_spelled ts -> replace2 " " ")" ")" (lay gap0 previous ts) = lay gap1 previous ts.
  Proof.
    intros ts previous F. revert previous. induction F as [|t ts Sp F IH]; intros previous; [reflexivity|].
    cbn [lay].
    assert (S : replace2 " " ")" ")" (str t ++ lay gap0 (Some t) ts) = str t ++ lay gap1 (Some t) ts).
    { rewrite replace2_skip by (exact (spelled_no_blank t _ Sp)). rewrite IH. reflexivity. }
    destruct previous as [p|]; [|exact S].
    unfold gap0 at 1, gap1 at 1. destruct (is_op ")" t) eqn:Ct.
    - destruct (spelled_parens t _ Sp) as [_ [_ [_ P]]]. rewrite (P Ct) in S |- *. cbn [app] in *.
      rewrite replace2_hit. f_equal. rewrite IH. reflexivity.
    - destruct (str_head t _ Sp) as [c [s' [E [_ N]]]]. rewrite E in S |- *. cbn [app] in *.
      rewrite replace2_miss by (exact (N Ct)). rewrite S. reflexivity.
  Qed.

  Lemma replace_second : forall ts previous, all_spelled ts ->
    (match previous with Some p => is_op "(" p = false | None => True end) ->
    replace2 "(" " " "(" (lay gap1 previous ts) = lay gap2 previous ts.
  Proof.
    intros ts. 
    (* after an opening parenthesis the text so far ends with it *)
    enough (H : all_spelled ts -> (forall previous, match previous with Some p => is_op "(" p = false | None => True end ->
                  replace2 "(" " " "(" (lay gap1 previous ts) = lay gap2 previous ts) /\
                (forall p, is_op "(" p = true ->
                  replace2 "(" " " "(" ("("%char :: lay gap1 (Some p) ts) = "("%char :: lay gap2 (Some p) ts))
      by (intros previous F; exact (proj1 (H F) previous)).
    intros F. induction F as [|t ts Sp F IH].
    - split; intros; reflexivity.
    - destruct IH as [IH1 IH2].
      assert (S : replace2 "(" " " "(" (str t ++ lay gap1 (Some t) ts) = str t ++ lay gap2 (Some t) ts).
      { destruct (spelled_parens t _ Sp) as [P1 [_ [P2 _]]]. destruct (is_op "(" t) eqn:Ct.
        - rewrite (P2 eq_refl). cbn [app]. exact (IH2 t Ct).
        - rewrite replace2_skip by (exact (P1 eq_refl)). rewrite (IH1 (Some t) Ct). reflexivity. }
      assert (G : forall p, In "("%char (gap1 p t) -> False).
      { intros p I. unfold gap1 in I. destruct (is_op ")" t); [destruct I|]. destruct I as [I|[]]. discriminate I. }
      split.
      + intros previous Hp. cbn [lay]. destruct previous as [p|]; [|exact S].
        rewrite replace2_skip by (exact (G p)). rewrite S. unfold gap2 at 2. rewrite Hp. reflexivity.
      + intros p Hp. cbn [lay]. unfold gap2 at 1. rewrite Hp. cbn [app].
        unfold gap1 at 1. destruct (is_op ")" t) eqn:Ct; cbn [app].
        * destruct (str_head t _ Sp) as [c [s' [E [N _]]]]. rewrite E in S |- *. cbn [app] in *.
          rewrite replace2_miss by exact N. rewrite S. reflexivity.
        * rewrite replace2_hit, S. reflexivity.
  Qed.

  Lemma str_lay : forall ts, all_spelled ts -> expression_str float_str ts = lay gap2 None ts.
  Proof.
    intros ts F. unfold expression_str. rewrite join_lay, (replace_first ts None F).
    exact (replace_second ts None F I).
  Qed.

  Lemma comparison_no_paren : forall t, comparison t -> is_op "(" t = false /\ is_op ")" t = false.
  Proof.
    intros [v|s|r|o] C; [destruct C|destruct C|destruct C|]. cbn in C.
    repeat destruct C as [<-|C]; [..|destruct C]; (split; reflexivity).
  Qed.
  Lemma lay_laid_out : forall ts previous, all_spelled ts -> laid_out previous ts (lay gap2 previous ts).
  Proof.
    intros ts previous F. revert previous. induction F as [|t ts Sp F IH]; intros previous.
    - cbn. apply LO_end. constructor.
    - cbn [lay]. apply LO_token; [| |exact Sp|exact (IH (Some t))].
      + destruct previous as [p|]; [|constructor]. unfold gap2, gap1.
        destruct (is_op "(" p); [constructor|]. destruct (is_op ")" t); [constructor|].
        apply S_blank; [left; reflexivity|constructor].
      + destruct previous as [p|]; [|intros []]. cbn. intros A. unfold gap2, gap1.
        assert (Hp : is_op "(" p = false /\ is_op ")" t = false).
        { destruct A as [[Op Ot]|[Cp Ct]].
          - destruct p, t; try destruct Op; try destruct Ot; split; reflexivity.
          - split; [exact (proj1 (comparison_no_paren p Cp))|exact (proj2 (comparison_no_paren t Ct))]. }
        destruct Hp as [-> ->]. discriminate.
  Qed.
End Written.

Lemma written_proof : forall float_str ts,
  (forall t, In t ts -> match t with
                        | TNum v => number v (float_str v)
                        | TRef r => name (written r)
                        | TOp o => In o operators
                        | TNumText _ => False
                        end) ->
  validate (InText (expression_str float_str ts)) = Ok ts.
Proof.
  intros float_str ts H. assert (F : all_spelled float_str ts).
  { apply Forall_forall. intros t I. specialize (H t I).
    destruct t as [v|s|r|o]; cbn [token_str]; [exact (Sp_number v _ H)|destruct H|exact (Sp_name r H)|exact (Sp_operator o H)]. }
  rewrite (str_lay float_str ts F). apply validate_proof, lay_laid_out, F.
Qed.

(** ** Findings *)
Lemma exponent_refuted :
  literal (qz 1200000) (written "12e5") /\ validate (InText (written "12e5")) = Ok [TNum (qz 1200000)] /\
  (forall pow, evaluate_input pow (InText (written "2 {*} 12e5")) [] 1 = Err ValidationError) /\
  (forall pow, evaluate_input pow (InText (written "2 {*} 12e5")) [("e5", [qz 7])] 1 = Ok [qz 84]).
Proof.
  assert (L : literal (qz 1200000) (written "12e5")).
  { apply L_unsigned. apply (U_exponent _ (qz 12) (digit_chars [1; 2]) 5 "e"%char (written "e5")).
    - apply P_whole; [repeat constructor|discriminate|reflexivity].
    - left; reflexivity.
    - apply (E_none "e"%char 5 [5]); [repeat constructor|discriminate|reflexivity].
    - apply Qc_is_canon. reflexivity. }
  split; [exact L|]. split.
  - pose proof (alone_proof (qz 1200000) [] (written "12e5") [] (fun c (H : In c []) => False_ind _ H) L) as H.
    cbn [app] in H. rewrite app_nil_r in H. exact H.
  - assert (E : validate (InText (written "2 {*} 12e5")) = Ok [TNum (qz 2); TOp "{*}"; TNum (qz 12); TRef "e5"]).
    { unfold validate.
      assert (P : python_float (written "2 {*} 12e5") = None) by (vm_compute; reflexivity). rewrite P.
      change (written "2 {*} 12e5") with (written "2" ++ written " {*} 12e5").
      rewrite (lexer_token (TNum (qz 2)) (written "2") (written " {*} 12e5")); [| |reflexivity].
      2: { apply Sp_number, N_plain, (P_whole _ [2]); [repeat constructor|discriminate|reflexivity]. }
      change (written " {*} 12e5") with (" "%char :: written "{*}" ++ written " 12e5"). rewrite lexer_blank by reflexivity.
      rewrite (lexer_token (TOp "{*}") (written "{*}") (written " 12e5")).
      2: { apply Sp_operator. cbn; tauto. }
      2: { intros _. reflexivity. }
      change (written " 12e5") with (" "%char :: written "12e5"). rewrite lexer_blank by reflexivity.
      rewrite lexer_step by discriminate.
      assert (F : first_match token_exprs (written "12e5") = Some (Some Numeric, (written "12", written "e5"))) by (vm_compute; reflexivity).
      rewrite F. cbn [make_token].
      rewrite (number_read (qz 12) (written "12")) by (apply N_plain, (P_whole _ [1; 2]); [repeat constructor|discriminate|reflexivity]).
      reflexivity. }
    split; intros pow; unfold evaluate_input; rewrite E; [reflexivity|qc_compute].
Qed.

Lemma negative_refuted : forall float_str, float_str (qz (-5)) = written "-5.0" ->
  (forall pow, evaluate pow (multiply_tokens [TNum (qz (-5))] [TRef "x"]) [("x", [qz 2])] 1 = Ok [qz (-10)]) /\
  expression_str float_str (multiply_tokens [TNum (qz (-5))] [TRef "x"]) = written "(-5.0) {*} (x)" /\
  validate (InText (expression_str float_str (multiply_tokens [TNum (qz (-5))] [TRef "x"]))) = Err ValidationError.
Proof.
  intros float_str E.
  assert (S : expression_str float_str (multiply_tokens [TNum (qz (-5))] [TRef "x"]) = written "(-5.0) {*} (x)").
  { unfold expression_str, multiply_tokens. cbn [app map token_str]. rewrite E. reflexivity. }
  split; [intros pow; qc_compute|]. split; [exact S|]. rewrite S. reflexivity.
Qed.

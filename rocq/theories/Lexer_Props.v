(** C104 and C105: expressions given as text.
    Model: Lexer_Model.v (reading and writing text), Expr_Model.v (parsing, evaluation).
    Specification: Lexer_Spec.v (how an expression may be written), Expr_Spec.v (what it means). *)
From Coq Require Import Ascii String Lia.
From Verif Require Import QcTac Base BaseLemmas Expr_Model Expr_Spec Expr_Proofs
  Lexer_Model Lexer_Spec Lexer_Proofs Lexer_Proofs2 Lexer_Proofs3 Lexer_Proofs4 Lexer_Proofs5 Lexer_Proofs6.
Local Open Scope char_scope.
Local Open Scope string_scope.
Local Open Scope list_scope.
Local Open Scope nat_scope.

(** C104: a text in which tokens are spelled out, with blanks and comments between them, is read
    as those tokens. *)
Theorem C104_read : forall ts s, laid_out None ts s -> validate (InText s) = Ok ts.
Proof. exact validate_proof. Qed.
Print Assumptions C104_read.

(** C104: so a text that writes an expression, in any layout, has the value of the expression in
    every period. *)
Theorem C104_evaluate : forall (pow : Qc -> Qc -> Qc) k ts e s variables n,
  writes k ts e -> laid_out None ts s ->
  (forall r, In r (references e) -> exists l, dict_get String.eqb r variables = Some l /\ List.length l = n) ->
  exists vec, evaluate_input pow (InText s) variables n = Ok vec /\ List.length vec = n /\
    forall i, i < n ->
      nth i vec 0%Qc =
      value pow (fun r => match dict_get String.eqb r variables with Some l => nth i l 0%Qc | None => 0%Qc end) e.
Proof. exact evaluate_text_proof. Qed.
Print Assumptions C104_evaluate.

(** C104: a number standing alone is that number, with a sign, any number of digits and an
    exponent. *)
Theorem C104_alone : forall v a s b, (forall c, In c (a ++ b) -> blank c) -> literal v s ->
  validate (InText (a ++ s ++ b)) = Ok [TNum v].
Proof. exact alone_proof. Qed.
Print Assumptions C104_alone.

(** C104: nothing in the text is lost: what is read, with the blanks and comments, is the text (or
    the text is one number standing alone). *)
Theorem C104_kept : forall s ts, validate (InText s) = Ok ts ->
  composed ts s \/
  ((exists v, ts = [TNum v]) /\ forall c, In c s -> In c (white ++ digits ++ written "_.eE+-")).
Proof. exact kept_proof. Qed.
Print Assumptions C104_kept.

(** C104: a text is refused only when it cannot be read on from some point; the error is a
    validation error. *)
Theorem C104_refused : forall s e, validate (InText s) = Err e ->
  e = ValidationError /\ exists ts before rest, s = before ++ rest /\ composed ts before /\ unreadable rest.
Proof. exact invalid_proof. Qed.
Print Assumptions C104_refused.

(** C104 fails for numbers in scientific notation with two digits or more before the point: such a
    number is read as a number only where it stands alone.  Inside an expression it is split in a
    number and a reference, and the rest of the expression may be dropped: with a variable e5 the
    text 2 {*} 12e5 means 12 times e5. *)
Theorem C104_exponent_refuted : literal (qz 1200000) (written "12e5") /\ validate (InText (written "12e5")) = Ok [TNum (qz 1200000)] /\
  (forall pow, evaluate_input pow (InText (written "2 {*} 12e5")) [] 1 = Err ValidationError) /\
  (forall pow, evaluate_input pow (InText (written "2 {*} 12e5")) [("e5", [qz 7])] 1 = Ok [qz 84]).
Proof. exact exponent_refuted. Qed.
Print Assumptions C104_exponent_refuted.

(* a layout of  a:b-1 {+} $var.x_1 >= (1.5e-3) *)
Definition C104_tokens : list token :=
  [TRef "a:b-1"; TOp "{+}"; TRef "$var.x_1"; TOp ">="; TOp "("; TNum (qc 3 2000); TOp ")"].
Definition C104_text : list ascii :=
  written "a:b-1{+}  $var.x_1>=# limit" ++ line_end :: written "(1.5e-3)#end".
Example C104_laid_out : laid_out None C104_tokens C104_text /\
  writes 0 C104_tokens (EBin Ge (EBin Add (ERef "a:b-1") (ERef "$var.x_1")) (ENum (qc 3 2000))).
Proof.
  assert (In1 : forall (l m : list ascii), forallb (fun c => mem c m) l = true -> forall x, In x l -> In x m).
  { intros l m H x I. rewrite forallb_forall in H. apply mem_in, H, I. }
  split.
  - apply (LO_token None [] (TRef "a:b-1") (written "a:b-1") _ (written "{+}  $var.x_1>=# limit" ++ line_end :: written "(1.5e-3)#end")).
    { constructor. } { intros []. }
    { apply Sp_name, (Name_plain "a" (written ":b-1")); [cbn; tauto|apply In1; reflexivity]. }
    apply (LO_token _ [] (TOp "{+}") (written "{+}") _ (written "  $var.x_1>=# limit" ++ line_end :: written "(1.5e-3)#end")).
    { constructor. } { intros [[_ []]|[[] _]]. } { apply Sp_operator. cbn; tauto. }
    apply (LO_token _ (written "  ") (TRef "$var.x_1") (written "$var.x_1") _ (written ">=# limit" ++ line_end :: written "(1.5e-3)#end")).
    { repeat (apply S_blank; [left; reflexivity|]). constructor. } { discriminate. }
    { apply Sp_name, (Name_var "x" (written "_1")); [cbn; tauto|apply In1; reflexivity]. }
    apply (LO_token _ [] (TOp ">=") (written ">=") _ (written "# limit" ++ line_end :: written "(1.5e-3)#end")).
    { constructor. } { intros [[_ []]|[[] _]]. } { apply Sp_operator. cbn; tauto. }
    apply (LO_token _ (written "# limit" ++ [line_end]) (TOp "(") (written "(") _ (written "1.5e-3)#end")).
    { apply (S_comment (written " limit") []); [|constructor]. cbn. intuition discriminate. } { discriminate. } { apply Sp_operator. cbn; tauto. }
    apply (LO_token _ [] (TNum (qc 3 2000)) (written "1.5e-3") _ (written ")#end")).
    { constructor. } { intros [[[] _]|[_ []]]. }
    { apply Sp_number, (N_point _ 1 [5] (-3) (written "e-3")); [lia|repeat constructor|discriminate| |].
      - apply (E_minus "e"%char (-3) [3]); [repeat constructor|discriminate|reflexivity].
      - apply Qc_is_canon. reflexivity. }
    apply (LO_token _ [] (TOp ")") (written ")") _ (written "#end")).
    { constructor. } { intros [[_ []]|[[] _]]. } { apply Sp_operator. cbn; tauto. }
    apply (LO_comment _ [] (written "end")); [constructor|]. cbn. intuition discriminate.
  - apply (W_left 0 Ge [TRef "a:b-1"; TOp "{+}"; TRef "$var.x_1"] [TOp "("; TNum (qc 3 2000); TOp ")"]); [reflexivity|cbn; lia| |].
    + apply (W_left _ Add [TRef "a:b-1"] [TRef "$var.x_1"]); [reflexivity|cbn; lia|constructor|constructor].
    + apply (W_paren _ [TNum (qc 3 2000)]). constructor.
Qed.
Example C104_evaluated : option_map (map this) (match evaluate_input (fun x _ => x) (InText C104_text)
    [("a:b-1", [qz 0; qz 1]); ("$var.x_1", [qc 1 1000; qz 1])] 2 with Ok l => Some l | Err _ => None end) =
  Some [(0 # 1)%Q; (1 # 1)%Q].
Proof. vm_compute. reflexivity. Qed.
Example C104_literal : literal (qc (-3) 2) (written "-15E-1") /\ validate (InText (written " -15E-1 ")) = Ok [TNum (qc (-3) 2)].
Proof.
  assert (L : literal (qc (-3) 2) (written "-15E-1")).
  { apply (L_minus _ (written "15E-1")). apply (U_exponent _ (qz 15) (digit_chars [1; 5]) (-1) "E"%char (written "E-1")).
    - apply P_whole; [repeat constructor|discriminate|reflexivity].
    - right; reflexivity.
    - apply (E_minus "E"%char (-1) [1]); [repeat constructor|discriminate|reflexivity].
    - apply Qc_is_canon. reflexivity. }
  split; [exact L|].
  change (written " -15E-1 ") with ([" "%char] ++ written "-15E-1" ++ [" "%char]).
  apply (alone_proof (qc (-3) 2) [" "%char] (written "-15E-1") [" "%char]); [|exact L]. intros c [<-|[<-|[]]]; left; reflexivity.
Qed.
(* a text that is refused, and where *)
Example C104_refused_case : validate (InText (written "a {+} b ^ 2")) = Err ValidationError /\
  composed [TRef "a"; TOp "{+}"; TRef "b"] (written "a {+} b ") .
Proof. split; [reflexivity|]. apply (nothing_lost_proof (written "a {+} b ")). reflexivity. Qed.

(** C105: an expression written out as text reads as the same expression, when the text of every
    number in it is a number. *)
Theorem C105_written : forall float_str ts,
  (forall t, In t ts -> match t with
                        | TNum v => number v (float_str v)
                        | TRef r => name (written r)
                        | TOp o => In o operators
                        | TNumText _ => False
                        end) ->
  validate (InText (expression_str float_str ts)) = Ok ts.
Proof. exact written_proof. Qed.
Print Assumptions C105_written.

(** C105 fails for an expression with a negative number in it: its text is refused. *)
Theorem C105_negative_refuted : forall float_str, float_str (qz (-5)) = written "-5.0" ->
  (forall pow, evaluate pow (multiply_tokens [TNum (qz (-5))] [TRef "x"]) [("x", [qz 2])] 1 = Ok [qz (-10)]) /\
  expression_str float_str (multiply_tokens [TNum (qz (-5))] [TRef "x"]) = written "(-5.0) {*} (x)" /\
  validate (InText (expression_str float_str (multiply_tokens [TNum (qz (-5))] [TRef "x"]))) = Err ValidationError.
Proof. exact negative_refuted. Qed.
Print Assumptions C105_negative_refuted.

Example C105_case : let float_str := fun v => if Qceqb v (qz 2) then written "2.0" else written "0.25" in
  let ts := [TOp "("; TRef "a"; TOp "{+}"; TNum (qz 2); TOp ")"; TOp "{*}"; TNum (qc 1 4)] in
  (forall t, In t ts -> match t with
                        | TNum v => number v (float_str v)
                        | TRef r => name (written r)
                        | TOp o => In o operators
                        | TNumText _ => False
                        end) /\
  expression_str float_str ts = written "(a {+} 2.0) {*} 0.25".
Proof.
  cbv zeta. split; [|vm_compute; reflexivity].
  intros t I. cbn [In] in I.
  destruct I as [<-|[<-|[<-|[<-|[<-|[<-|[<-|[]]]]]]]]; try (cbn; tauto).
  - apply (Name_plain "a" []); [cbn; tauto|intros x []].
  - change (if Qceqb (qz 2) (qz 2) then written "2.0" else written "0.25") with (written "2.0").
    apply N_plain, (P_point _ [2] [0]); [repeat constructor|repeat constructor|discriminate|].
    apply Qc_is_canon. reflexivity.
  - change (if Qceqb (qc 1 4) (qz 2) then written "2.0" else written "0.25") with (written "0.25").
    apply N_plain, (P_point _ [0] [2; 5]); [repeat constructor|repeat constructor|discriminate|].
    apply Qc_is_canon. reflexivity.
Qed.

(** How an expression may be written as text, independently of how it is read.

    Text is a list of characters; tokens are those of Expr_Model.v (a number, a reference to a
    variable, an operator). *)
From Coq Require Import Ascii String.
From Verif Require Import QcTac Base Expr_Model.
Local Open Scope char_scope.
Local Open Scope string_scope.
Local Open Scope list_scope.
Local Open Scope nat_scope.

(** the characters of a string *)
Definition written (s : string) : list ascii := list_ascii_of_string s.

(** ** Numbers *)

(** the characters of a list of decimal digits, and the number it stands for *)
Definition digit_chars (ds : list nat) : list ascii := map (fun d => ascii_of_nat (48 + d)) ds.
Definition decimal (ds : list nat) : Z := fold_left (fun a d => (10 * a + Z.of_nat d)%Z) ds 0%Z.
Definition are_digits (ds : list nat) : Prop := Forall (fun d => d <= 9) ds.

(** ten to a power that may be negative *)
Definition ten_to (e : Z) : Qc :=
  match e with
  | Zneg p => (1 / qz (10 ^ Zpos p))%Qc
  | _ => qz (10 ^ e)
  end.

(** [plain v s]: [s] is digits, a point and digits, or only digits, and stands for [v] *)
Inductive plain (v : Qc) : list ascii -> Prop :=
| P_whole : forall w, are_digits w -> w <> [] -> v = qz (decimal w) -> plain v (digit_chars w)
| P_point : forall w f, are_digits w -> are_digits f -> w ++ f <> [] ->
    v = (qz (decimal (w ++ f)) * ten_to (- Z.of_nat (List.length f)))%Qc ->
    plain v (digit_chars w ++ "."%char :: digit_chars f).

(** an exponent: the letter, an optional sign and at least one digit *)
Inductive exponent (letter : ascii) (e : Z) : list ascii -> Prop :=
| E_none : forall ds, are_digits ds -> ds <> [] -> e = decimal ds -> exponent letter e (letter :: digit_chars ds)
| E_plus : forall ds, are_digits ds -> ds <> [] -> e = decimal ds -> exponent letter e (letter :: "+"%char :: digit_chars ds)
| E_minus : forall ds, are_digits ds -> ds <> [] -> e = (- decimal ds)%Z -> exponent letter e (letter :: "-"%char :: digit_chars ds).

(** [number v s]: a number as it may stand inside an expression.  In scientific notation there is
    one digit before the point, there is a digit after it, and the letter is e. *)
Inductive number (v : Qc) : list ascii -> Prop :=
| N_plain : forall s, plain v s -> number v s
| N_whole : forall d e x, d <= 9 -> exponent "e" e x -> v = (qz (Z.of_nat d) * ten_to e)%Qc ->
    number v (digit_chars [d] ++ x)
| N_point : forall d f e x, d <= 9 -> are_digits f -> f <> [] -> exponent "e" e x ->
    v = (qz (decimal (d :: f)) * ten_to (e - Z.of_nat (List.length f)))%Qc ->
    number v (digit_chars [d] ++ "."%char :: digit_chars f ++ x).

(** [literal v s]: a number as it may stand alone: any number of digits before the point, e or E,
    and a sign in front *)
Inductive unsigned (v : Qc) : list ascii -> Prop :=
| U_plain : forall s, plain v s -> unsigned v s
| U_exponent : forall u s e l x, plain u s -> (l = "e" \/ l = "E")%char -> exponent l e x ->
    v = (u * ten_to e)%Qc -> unsigned v (s ++ x).
Inductive literal (v : Qc) : list ascii -> Prop :=
| L_unsigned : forall s, unsigned v s -> literal v s
| L_plus : forall s, unsigned v s -> literal v ("+"%char :: s)
| L_minus : forall s, unsigned (- v)%Qc s -> literal v ("-"%char :: s).

(** ** References and operators *)
Definition letters : list ascii := written "ABCDEFGHIJKLMNOPQRSTUVWXYZabcdefghijklmnopqrstuvwxyz".
Definition digits : list ascii := written "0123456789".

(** a variable: a letter followed by letters, digits and . _ ; : + * / -, or "$var." followed by
    a letter and then letters, digits and _ *)
Inductive name : list ascii -> Prop :=
| Name_plain : forall c s, In c letters -> (forall x, In x s -> In x (letters ++ digits ++ written "._;:+*/-")) ->
    name (c :: s)
| Name_var : forall c s, In c letters -> (forall x, In x s -> In x (letters ++ digits ++ ["_"%char])) ->
    name (written "$var." ++ c :: s).

Definition comparisons : list string := ["<="; "<"; ">="; ">"; "=="; "!="].
Definition operators : list string := ["("; ")"; "{+}"; "{-}"; "{*}"; "{/}"; "{^}"] ++ comparisons.

(** [spells t s]: the characters [s] are a way of writing the token [t] *)
Inductive spells : token -> list ascii -> Prop :=
| Sp_number : forall v s, number v s -> spells (TNum v) s
| Sp_name : forall r, name (written r) -> spells (TRef r) (written r)
| Sp_operator : forall o, In o operators -> spells (TOp o) (written o).

(** ** Layout *)
Definition line_end : ascii := ascii_of_nat 10.
Definition blank (c : ascii) : Prop := c = " "%char \/ c = line_end \/ c = ascii_of_nat 9.

(** blanks, and comments from # to the end of the line *)
Inductive skipped : list ascii -> Prop :=
| S_nil : skipped []
| S_blank : forall c g, blank c -> skipped g -> skipped (c :: g)
| S_comment : forall c g, ~ In line_end c -> skipped g -> skipped ("#"%char :: c ++ line_end :: g).

Definition operand (t : token) : Prop := match t with TOp _ => False | _ => True end.
Definition comparison (t : token) : Prop := match t with TOp o => In o comparisons | _ => False end.
(** two tokens that would run into each other *)
Definition must_be_apart (previous : option token) (t : token) : Prop :=
  match previous with
  | Some p => (operand p /\ operand t) \/ (comparison p /\ comparison t)
  | None => False
  end.

(** [laid_out None ts s]: the text [s] consists of the tokens [ts], each spelled out, with blanks
    and comments anywhere between them, and at least one where the tokens would run into each
    other; it may end with a comment *)
Inductive laid_out : option token -> list token -> list ascii -> Prop :=
| LO_end : forall previous g, skipped g -> laid_out previous [] g
| LO_comment : forall previous g c, skipped g -> ~ In line_end c -> laid_out previous [] (g ++ "#"%char :: c)
| LO_token : forall previous g t s ts rest,
    skipped g -> (must_be_apart previous t -> g <> []) -> spells t s -> laid_out (Some t) ts rest ->
    laid_out previous (t :: ts) (g ++ s ++ rest).

(** ** Everything that can be read *)

(** the texts read as one token: those above, the operators := and ; which no expression may
    contain, and digits and points that are not a number *)
Inductive token_text : token -> list ascii -> Prop :=
| TT_spells : forall t s, spells t s -> token_text t s
| TT_assign : token_text (TOp ":=") (written ":=")
| TT_semicolon : token_text (TOp ";") (written ";")
| TT_no_number : forall r, r <> "" -> (forall x, In x (written r) -> In x (digits ++ ["."%char])) ->
    (forall v, ~ plain v (written r)) -> token_text (TNumText r) (written r).

(** [composed ts s]: leaving out blanks and comments, [s] is the texts of the tokens [ts] in
    order *)
Inductive composed : list token -> list ascii -> Prop :=
| C_nil : composed [] []
| C_blank : forall ts c s, blank c -> composed ts s -> composed ts (c :: s)
| C_comment : forall ts c s, ~ In line_end c -> (s = [] \/ exists s', s = line_end :: s') ->
    composed ts s -> composed ts ("#"%char :: c ++ s)
| C_token : forall t ts a s, token_text t a -> composed ts s -> composed (t :: ts) (a ++ s).

(** nothing that can be read begins here *)
Definition unreadable (s : list ascii) : Prop :=
  match s with
  | [] => False
  | c :: _ => ~ blank c /\ c <> "#"%char /\ forall t a rest, s = a ++ rest -> ~ token_text t a
  end.

(** white space around a number that stands alone *)
Definition white : list ascii := " "%char :: map ascii_of_nat [9; 10; 11; 12; 13; 28; 29; 30; 31].

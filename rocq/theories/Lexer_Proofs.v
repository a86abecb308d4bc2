(** Characters, digits and numbers. *)
From Coq Require Import Ascii String Lia.
From Verif Require Import QcTac Base BaseLemmas Expr_Model Lexer_Model Lexer_Spec.
Local Open Scope char_scope.
Local Open Scope string_scope.
Local Open Scope list_scope.
Local Open Scope nat_scope.

(** ** Characters *)
Definition mem (c : ascii) (l : list ascii) : bool := existsb (Ascii.eqb c) l.
Lemma mem_in : forall c l, mem c l = true <-> In c l.
Proof.
  intros c l. unfold mem. rewrite existsb_exists. split.
  - intros [x [I E]]. apply Ascii.eqb_eq in E. subst x. exact I.
  - intros I. exists c. split; [exact I|apply Ascii.eqb_refl].
Qed.

Ltac all_chars := intros c; destruct c as [[] [] [] [] [] [] [] []]; vm_compute; reflexivity.

Lemma is_letter_mem : forall c, is_letter c = mem c letters.
Proof. all_chars. Qed.
Lemma is_name_char_mem : forall c, is_name_char c = mem c (letters ++ digits ++ written "._;:+*/-").
Proof. all_chars. Qed.
Lemma is_var_char_mem : forall c, is_var_char c = mem c (letters ++ digits ++ ["_"%char]).
Proof. all_chars. Qed.
Lemma is_number_char_mem : forall c, is_number_char c = mem c (digits ++ ["."%char]).
Proof. all_chars. Qed.

Lemma letter_in : forall c, is_letter c = true <-> In c letters.
Proof. intros c. rewrite is_letter_mem. apply mem_in. Qed.
Lemma name_char_in : forall c, is_name_char c = true <-> In c (letters ++ digits ++ written "._;:+*/-").
Proof. intros c. rewrite is_name_char_mem. apply mem_in. Qed.
Lemma var_char_in : forall c, is_var_char c = true <-> In c (letters ++ digits ++ ["_"%char]).
Proof. intros c. rewrite is_var_char_mem. apply mem_in. Qed.
Lemma number_char_in : forall c, is_number_char c = true <-> In c (digits ++ ["."%char]).
Proof. intros c. rewrite is_number_char_mem. apply mem_in. Qed.
Lemma blank_is : forall c, is_blank c = true <-> blank c.
Proof.
  intros c. unfold is_blank, blank. rewrite !Bool.orb_true_iff, !Ascii.eqb_eq.
  change newline with line_end. change tab with (ascii_of_nat 9). tauto.
Qed.

Lemma digit_char : forall d, d <= 9 -> is_digit (ascii_of_nat (48 + d)) = true /\
  digit_of (ascii_of_nat (48 + d)) = Z.of_nat d.
Proof.
  intros d L. do 10 (destruct d as [|d]; [split; vm_compute; reflexivity|]). lia.
Qed.
Lemma digit_inv : forall c, is_digit c = true ->
  exists d, d <= 9 /\ c = ascii_of_nat (48 + d).
Proof.
  intros c D. exists (nat_of_ascii c - 48).
  unfold is_digit, between in D. apply Bool.andb_true_iff in D. destruct D as [A B].
  apply Nat.leb_le in A, B. change (nat_of_ascii "0") with 48 in A. change (nat_of_ascii "9") with 57 in B.
  split; [lia|].
  replace (48 + (nat_of_ascii c - 48)) with (nat_of_ascii c) by lia.
  symmetry. apply ascii_nat_embedding.
Qed.

Lemma no_char : forall (p q : ascii -> bool), (forall c, (p c && q c)%bool = false) ->
  forall c, p c = true -> q c = false.
Proof. intros p q H c P. specialize (H c). rewrite P in H. exact H. Qed.

Lemma number_char_is_name_char : forall c, is_number_char c = true -> is_name_char c = true.
Proof.
  intros c. generalize c. clear c.
  assert (H : forall c, (negb (is_number_char c) || is_name_char c)%bool = true) by all_chars.
  intros c P. specialize (H c). rewrite P in H. exact H.
Qed.

Lemma digit_facts : forall c, is_digit c = true ->
  is_number_char c = true /\ is_name_char c = true /\ is_space c = false /\
  Ascii.eqb c "." = false /\ Ascii.eqb c "e" = false /\ Ascii.eqb c "_" = false /\ Ascii.eqb c "-" = false /\
  Ascii.eqb c "+" = false /\ one_of "-+" c = false /\ one_of "eE" c = false.
Proof.
  intros c D. destruct (digit_inv c D) as [d [L E]]. subst c.
  do 10 (destruct d as [|d]; [vm_compute; intuition reflexivity|]). lia.
Qed.

(** ** take_while *)
Definition head_not (p : ascii -> bool) (t : text) : Prop :=
  match t with [] => True | c :: _ => p c = false end.

Lemma take_while_spec : forall p t, 
  t = fst (take_while p t) ++ snd (take_while p t) /\
  Forall (fun c => p c = true) (fst (take_while p t)) /\ head_not p (snd (take_while p t)).
Proof.
  intros p t. induction t as [|c t IH]; [repeat split; constructor|].
  cbn [take_while]. destruct (p c) eqn:P; cbn [fst snd].
  - destruct IH as [E [F H]]. split; [|split].
    + cbn [app]. f_equal. exact E.
    + constructor; assumption.
    + exact H.
  - split; [reflexivity|split; [constructor|exact P]].
Qed.

Lemma take_while_app : forall p a b, Forall (fun c => p c = true) a -> head_not p b ->
  take_while p (a ++ b) = (a, b).
Proof.
  intros p a b F H. induction F as [|c a P F IH]; cbn [app].
  - destruct b as [|c b]; [reflexivity|]. cbn [take_while]. cbn in H. rewrite H. reflexivity.
  - cbn [take_while]. rewrite P, IH. reflexivity.
Qed.

(** ** Digits *)
Lemma decimal_from : forall ds a, fold_left (fun a d => (10 * a + Z.of_nat d)%Z) ds a =
  (a * 10 ^ Z.of_nat (List.length ds) + decimal ds)%Z.
Proof.
  induction ds as [|d ds IH]; intros a.
  - cbn. lia.
  - unfold decimal. cbn [fold_left List.length]. rewrite (IH (10 * a + Z.of_nat d)%Z), (IH (10 * 0 + Z.of_nat d)%Z).
    rewrite Nat2Z.inj_succ, Z.pow_succ_r by lia. ring.
Qed.
Lemma decimal_app : forall a b, decimal (a ++ b) = (decimal a * 10 ^ Z.of_nat (List.length b) + decimal b)%Z.
Proof. intros a b. unfold decimal at 1. rewrite fold_left_app. apply decimal_from. Qed.
Lemma decimal_nonneg : forall ds, (0 <= decimal ds)%Z.
Proof.
  intros ds. induction ds as [|d ds IH] using rev_ind; [reflexivity|].
  rewrite decimal_app. unfold decimal at 2. cbn. nia.
Qed.

Definition digits_end (t : text) : Prop :=
  match t with [] => True | c :: _ => is_digit c = false /\ Ascii.eqb c "_" = false end.

Lemma digit_chars_all : forall ds, are_digits ds -> Forall (fun c => is_digit c = true) (digit_chars ds).
Proof.
  intros ds F. induction F as [|d ds L F IH]; [constructor|].
  cbn [digit_chars map]. constructor; [apply digit_char; exact L|exact IH].
Qed.
Lemma digit_chars_length : forall ds, List.length (digit_chars ds) = List.length ds.
Proof. intros ds. apply map_length. Qed.

Lemma digits_of : forall t, Forall (fun c => is_digit c = true) t -> exists ds, are_digits ds /\ t = digit_chars ds.
Proof.
  intros t F. induction F as [|c t D F IH]; [exists []; split; [constructor|reflexivity]|].
  destruct IH as [ds [A E]]. destruct (digit_inv c D) as [d [L Ec]].
  exists (d :: ds). split; [constructor; assumption|]. cbn [digit_chars map]. rewrite Ec, E. reflexivity.
Qed.

Lemma read_digits_app : forall ds t acc n, are_digits ds -> digits_end t ->
  read_digits acc n (digit_chars ds ++ t) =
  ((fold_left (fun a d => (10 * a + Z.of_nat d)%Z) ds acc, n + List.length ds), t).
Proof.
  intros ds. induction ds as [|d ds IH]; intros t acc n A E.
  - cbn [digit_chars map app fold_left List.length]. rewrite Nat.add_0_r.
    destruct t as [|c t]; [reflexivity|]. destruct E as [E1 E2]. cbn [read_digits]. rewrite E1, E2. reflexivity.
  - inversion A as [|? ? L A']; subst. destruct (digit_char d L) as [D1 D2].
    unfold digit_chars. cbn [map app]. fold (digit_chars ds).
    cbn [read_digits]. rewrite D1, D2, IH by assumption.
    cbn [fold_left List.length]. f_equal. f_equal; [|lia]. f_equal. lia.
Qed.
Lemma read_digits_0 : forall ds t, are_digits ds -> digits_end t ->
  read_digits 0 0 (digit_chars ds ++ t) = ((decimal ds, List.length ds), t).
Proof. intros ds t A E. rewrite read_digits_app by assumption. reflexivity. Qed.

(** ** Powers of ten *)
Lemma pow_nonzero : forall k, (0 <= k)%Z -> qz (10 ^ k) <> 0%Qc.
Proof.
  intros k H E. assert (P : (0 < 10 ^ k)%Z) by (apply Z.pow_pos_nonneg; lia).
  change 0%Qc with (qz 0) in E. apply qz_inj in E. lia.
Qed.
Lemma ten_to_nonneg : forall e, (0 <= e)%Z -> ten_to e = qz (10 ^ e).
Proof. intros e H. destruct e; [reflexivity|reflexivity|lia]. Qed.
Lemma ten_to_neg : forall k, (0 <= k)%Z -> ten_to (- k) = (1 / qz (10 ^ k))%Qc.
Proof.
  intros k H. destruct k; [|reflexivity|lia].
  cbn. change (qz 1) with 1%Qc. field. intros E. discriminate E.
Qed.
Lemma ten_to_shift : forall e k, (0 <= k)%Z -> (0 <= e + k)%Z ->
  (ten_to e * qz (10 ^ k))%Qc = qz (10 ^ (e + k)).
Proof.
  intros e k H S. destruct (Z.le_gt_cases 0 e) as [P|P].
  - rewrite ten_to_nonneg by exact P. rewrite <- qz_mult, <- Z.pow_add_r by lia. reflexivity.
  - replace e with (- (- e))%Z at 1 by lia. rewrite ten_to_neg by lia.
    replace (10 ^ k)%Z with (10 ^ (e + k) * 10 ^ (- e))%Z
      by (rewrite <- Z.pow_add_r by lia; f_equal; lia).
    rewrite qz_mult. field. apply pow_nonzero. lia.
Qed.
Lemma cancel : forall a b c : Qc, c <> 0%Qc -> (a * c)%Qc = (b * c)%Qc -> a = b.
Proof.
  intros a b c N E.
  replace a with (a * c / c)%Qc by (field; exact N).
  replace b with (b * c / c)%Qc by (field; exact N).
  rewrite E. reflexivity.
Qed.
Lemma ten_to_add : forall a b, ten_to (a + b) = (ten_to a * ten_to b)%Qc.
Proof.
  intros a b. set (k := (Z.abs a)%Z). set (l := (Z.abs b)%Z).
  apply (cancel _ _ (qz (10 ^ k) * qz (10 ^ l))%Qc).
  - intros E. apply Qcmult_integral in E. destruct E as [E|E]; revert E; apply pow_nonzero; lia.
  - rewrite <- qz_mult, <- Z.pow_add_r by lia.
    rewrite ten_to_shift by lia.
    replace (ten_to a * ten_to b * qz (10 ^ (k + l)))%Qc
      with ((ten_to a * qz (10 ^ k)) * (ten_to b * qz (10 ^ l)))%Qc
      by (rewrite Z.pow_add_r by lia; rewrite qz_mult; ring).
    rewrite !ten_to_shift by lia. rewrite <- qz_mult, <- Z.pow_add_r by lia.
    f_equal. f_equal. lia.
Qed.
Lemma scale10_is : forall e v, scale10 e v = (v * ten_to e)%Qc.
Proof.
  intros e v. unfold scale10, power10. destruct (Z.leb 0 e) eqn:E.
  - apply Z.leb_le in E. rewrite Z2Nat.id by exact E. rewrite ten_to_nonneg by exact E. reflexivity.
  - apply Z.leb_gt in E. rewrite Z2Nat.id by lia.
    replace e with (- (- e))%Z at 2 by lia. rewrite ten_to_neg by lia.
    field. apply pow_nonzero. lia.
Qed.
Lemma fraction_is : forall w f, (qz (decimal w) + qz (decimal f) / power10 (List.length f))%Qc =
  (qz (decimal (w ++ f)) * ten_to (- Z.of_nat (List.length f)))%Qc.
Proof.
  intros w f. rewrite decimal_app, ten_to_neg by lia. unfold power10.
  rewrite qz_plus, qz_mult. field. apply pow_nonzero. lia.
Qed.

(** ** Stripping *)
Definition no_space (t : text) : Prop := Forall (fun c => is_space c = false) t.
Definition spaces (t : text) : Prop := Forall (fun c => is_space c = true) t.

Lemma strip_left_spaces : forall a t, spaces a -> strip_left (a ++ t) = strip_left t.
Proof.
  intros a t S. unfold strip_left. induction S as [|c a H S IH]; [reflexivity|].
  cbn [app take_while]. rewrite H. cbn [snd]. exact IH.
Qed.
Lemma strip_left_head : forall t, head_not is_space t -> strip_left t = t.
Proof.
  intros t H. unfold strip_left. destruct t as [|c t]; [reflexivity|]. cbn in *. rewrite H. reflexivity.
Qed.
Lemma head_not_app : forall p (a b : text), a <> [] -> head_not p a -> head_not p (a ++ b).
Proof. intros p [|c a] b N H; [congruence|exact H]. Qed.
Lemma no_space_head : forall t, no_space t -> head_not is_space t.
Proof. intros t N. destruct N; [exact I|assumption]. Qed.

Lemma strip_around : forall a s b, spaces a -> no_space s -> spaces b -> strip (a ++ s ++ b) = s.
Proof.
  intros a s b Sa Ns Sb. unfold strip. rewrite strip_left_spaces by exact Sa.
  destruct s as [|c s].
  - cbn [app]. rewrite <- (app_nil_r b), strip_left_spaces by exact Sb. reflexivity.
  - rewrite (strip_left_head ((c :: s) ++ b)) by (inversion Ns; assumption).
    rewrite rev_app_distr, strip_left_spaces by (apply Forall_rev; exact Sb).
    rewrite strip_left_head by (apply no_space_head, Forall_rev; exact Ns).
    apply rev_involutive.
Qed.
Lemma strip_none : forall s, no_space s -> strip s = s.
Proof.
  intros s N. pose proof (strip_around [] s [] (Forall_nil _) N (Forall_nil _)) as H.
  cbn [app] in H. rewrite app_nil_r in H. exact H.
Qed.

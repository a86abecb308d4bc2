(** Versions. *)
From Coq Require Import PeanoNat NArith Ascii Lia.
From Verif Require Import Base BaseLemmas Version_Model Version_Spec.
Local Open Scope list_scope.
Local Open Scope N_scope.

(** digits *)
Lemma digit_of_spec : forall c d, digit_of c = Some d <-> is_digit c d.
Proof.
  intros c d. unfold digit_of, is_digit. destruct (N.leb_spec 48 (N_of_ascii c)); destruct (N.leb_spec (N_of_ascii c) 57); cbn [andb]; split; intros E; try discriminate E.
  - injection E as <-. lia.
  - f_equal. lia.
  - exfalso. lia.
  - exfalso. lia.
  - exfalso. lia.
Qed.
Definition digits (ds : text) : Prop := Forall (fun c => exists d, is_digit c d) ds.
Lemma number_of_snoc : forall ds c d, is_digit c d -> number_of (ds ++ [c]) = 10 * number_of ds + d.
Proof. intros ds c d D. unfold number_of. rewrite fold_left_app. cbn [fold_left]. apply digit_of_spec in D. rewrite D. reflexivity. Qed.
Lemma written_spec : forall ds n, written ds n <-> ds <> [] /\ digits ds /\ number_of ds = n.
Proof.
  intros ds n. split.
  - intros W. induction W as [c d D|ds n c d W (N & A & E) D].
    + split; [discriminate|]. split; [constructor; [exists d; exact D|constructor]|]. exact (number_of_snoc [] c d D).
    + split; [destruct ds; discriminate|]. split; [apply Forall_app; split; [exact A|constructor; [exists d; exact D|constructor]]|]. rewrite (number_of_snoc ds c d D). congruence.
  - revert n. induction ds as [|c ds IH] using rev_ind; intros n (N & A & E); [congruence|]. apply Forall_app in A as [A B]. apply Forall_inv in B as [d D]. rewrite (number_of_snoc ds c d D) in E. subst n.
    destruct ds as [|x ds]; [exact (written_digit c d D)|]. apply written_more; [|exact D]. apply IH. split; [discriminate|]. split; [exact A|reflexivity].
Qed.

(** the digits at the start *)
Definition no_digit_first (t : text) : Prop := match t with [] => True | c :: _ => digit_of c = None end.
Lemma leading_digits_app : forall ds rest, digits ds -> no_digit_first rest -> leading_digits (ds ++ rest) = (ds, rest).
Proof.
  induction ds as [|c ds IH]; intros rest A R.
  - destruct rest as [|c rest]; [reflexivity|]. cbn in *. rewrite R. reflexivity.
  - inversion A as [|? ? [d D] A']; subst. apply digit_of_spec in D. cbn [app leading_digits]. rewrite D, (IH rest A' R). reflexivity.
Qed.
Lemma leading_digits_spec : forall t ds rest, leading_digits t = (ds, rest) -> t = ds ++ rest /\ digits ds /\ no_digit_first rest.
Proof.
  induction t as [|c t IH]; intros ds rest E; cbn [leading_digits] in E.
  - injection E as <- <-. repeat split. constructor.
  - destruct (digit_of c) as [d|] eqn:D.
    + destruct (leading_digits t) as [x y] eqn:L. injection E as <- <-. destruct (IH x y eq_refl) as (-> & A & R). split; [reflexivity|]. split; [|exact R]. constructor; [exists d; apply digit_of_spec; exact D|exact A].
    + injection E as <- <-. split; [reflexivity|]. split; [constructor|exact D].
Qed.
Definition group_text (g : option text) : text := match g with Some ds => "."%char :: ds | None => [] end.
Definition group_ok (g : option text) : Prop := match g with Some ds => ds <> [] /\ digits ds | None => True end.
Definition no_part_first (t : text) : Prop := match t with c :: d :: _ => c = "."%char -> digit_of d = None | _ => True end.
Lemma dotted_spec : forall t g rest, no_digit_first t -> dotted t = (g, rest) -> t = group_text g ++ rest /\ group_ok g /\ no_digit_first rest /\ (g = None -> rest = t).
Proof.
  intros t g rest N E. destruct t as [|c t]; cbn [dotted] in E; [injection E as <- <-; repeat split|].
  destruct (Ascii.eqb_spec c ".") as [->|X]; [|injection E as <- <-; repeat split; exact N].
  destruct (leading_digits t) as [ds r] eqn:L. apply leading_digits_spec in L as (-> & A & R). destruct ds as [|d ds]; injection E as <- <-.
  - repeat split; exact N.
  - split; [reflexivity|]. split; [split; [discriminate|exact A]|]. split; [exact R|discriminate].
Qed.
Lemma dotted_some : forall ds rest, ds <> [] -> digits ds -> no_digit_first rest -> dotted ("."%char :: ds ++ rest) = (Some ds, rest).
Proof. intros ds rest N A R. cbn [dotted]. rewrite Ascii.eqb_refl, (leading_digits_app ds rest A R). destruct ds; [congruence|reflexivity]. Qed.
Lemma at_end_spec : forall t, at_end t = true <-> t = [] \/ t = ["010"%char].
Proof.
  intros [|c [|d t]]; cbn [at_end].
  - split; auto.
  - rewrite Ascii.eqb_eq. split; [intros ->; auto|]. intros [E|E]; [discriminate E|congruence].
  - split; [discriminate|]. intros [E|E]; discriminate E.
Qed.
Lemma end_no_digit : forall t, t = [] \/ t = ["010"%char] -> no_digit_first t.
Proof. intros t [->| ->]; cbn; auto. Qed.
Lemma end_not_dotted : forall t, t = [] \/ t = ["010"%char] -> dotted t = (None, t).
Proof. intros t [->| ->]; reflexivity. Qed.
Lemma group_no_digit : forall g rest, no_digit_first rest -> no_digit_first (group_text g ++ rest).
Proof. intros [ds|] rest R; [reflexivity|exact R]. Qed.
(** the pattern *)
Lemma match_version_spec : forall t a b c, match_version t = Some (a, b, c) <->
  exists e, t = a ++ group_text b ++ group_text c ++ e /\ a <> [] /\ digits a /\ group_ok b /\ group_ok c /\ (b = None -> c = None) /\ (e = [] \/ e = ["010"%char]).
Proof.
  intros t a b c. unfold match_version. split.
  - destruct (leading_digits t) as [a' r1] eqn:L. apply leading_digits_spec in L as (-> & A & R1). destruct a' as [|x a']; [discriminate|].
    destruct (dotted r1) as [b' r2] eqn:D1. destruct (dotted r2) as [c' r3] eqn:D2. destruct (at_end r3) eqn:AE; [|discriminate]. intros E. injection E as <- <- <-.
    apply at_end_spec in AE. pose proof (dotted_spec r1 b' r2 R1 D1) as (E1 & O1 & R2 & S1). pose proof (dotted_spec r2 c' r3 R2 D2) as (E2 & O2 & R3 & _).
    exists r3. split; [cbn [app]; do 2 f_equal; congruence|]. split; [discriminate|]. split; [exact A|]. split; [exact O1|]. split; [exact O2|]. split; [|exact AE].
    intros Z. subst b'. rewrite (S1 eq_refl) in D2. congruence.
  - intros (e & -> & N & A & B & C & BC & AE). pose proof (end_no_digit e AE) as NE.
    rewrite (leading_digits_app a _ A (group_no_digit b _ (group_no_digit c _ NE))). destruct a as [|x a]; [congruence|].
    assert (DC : dotted (group_text c ++ e) = (c, e)).
    { destruct c as [ds|]; cbn [group_text app]; [destruct C as [C1 C2]; exact (dotted_some ds e C1 C2 NE)|exact (end_not_dotted e AE)]. }
    assert (DB : dotted (group_text b ++ group_text c ++ e) = (b, group_text c ++ e)).
    { destruct b as [ds|]; [destruct B as [B1 B2]; exact (dotted_some ds _ B1 B2 (group_no_digit c e NE))|]. rewrite (BC eq_refl). cbn [group_text app]. exact (end_not_dotted e AE). }
    rewrite DB, DC. apply at_end_spec in AE. rewrite AE. reflexivity.
Qed.
Lemma further_spec : forall t n, further t n <-> exists g, t = group_text g /\ group_ok g /\ n = match g with Some ds => number_of ds | None => 0 end.
Proof.
  intros t n. split.
  - intros [|ds m W]; [exists None; repeat split|]. apply written_spec in W as (N & A & E). exists (Some ds). repeat split; auto.
  - intros ([ds|] & -> & O & ->); [|constructor]. destruct O as [N A]. constructor. apply written_spec. auto.
Qed.

(** a leading v *)
Definition without_v (t : text) : text := match t with c :: r => if Ascii.eqb c "v"%char || Ascii.eqb c "V"%char then r else t | [] => t end.
Lemma without_v_of : forall v a r, v = [] \/ v = ["v"%char] \/ v = ["V"%char] -> a <> [] -> digits a -> without_v (v ++ a ++ r) = a ++ r.
Proof.
  intros v a r [->|[->| ->]] N A; try reflexivity. destruct a as [|c a]; [congruence|]. inversion A as [|? ? [d D] _]; subst. cbn [app without_v].
  destruct (Ascii.eqb_spec c "v") as [->|]; [destruct D as [D1 D2]; change (118 = 48 + d) in D2; lia|]. destruct (Ascii.eqb_spec c "V") as [->|]; [destruct D as [D1 D2]; change (86 = 48 + d) in D2; lia|]. reflexivity.
Qed.
Lemma without_v_spec : forall t, exists v, (v = [] \/ v = ["v"%char] \/ v = ["V"%char]) /\ t = v ++ without_v t.
Proof.
  intros [|c t]; [exists []; auto|]. cbn [without_v]. destruct (Ascii.eqb_spec c "v") as [->|]; [exists ["v"%char]; auto|]. destruct (Ascii.eqb_spec c "V") as [->|]; [exists ["V"%char]; auto|]. exists []. auto.
Qed.
Lemma int_of_short : forall ds, (List.length ds <= 4300)%nat -> int_of ds = Ok (number_of ds).
Proof. intros ds L. unfold int_of, max_digits. destruct (Nat.ltb_spec 4300 (List.length ds)); [lia|reflexivity]. Qed.
Lemma from_string_unfold : forall t, from_string (Some t) = match match_version (without_v t) with
  | None => Ok zero_version | Some (a, b, c) => do x <- int_of a; do y <- int_or_zero b; do z <- int_or_zero c; Ok (mkVersion x y z) end.
Proof. intros [|c t]; reflexivity. Qed.

Lemma parts_read : forall t a b c v, version_parts t a b c -> written a (major v) -> further b (minor v) -> further c (patch v) ->
  (List.length a <= 4300 -> List.length b <= 4301 -> List.length c <= 4301 -> from_string (Some t) = Ok v)%nat.
Proof.
  intros t a b c v (p & e & -> & Pv & Pe & BC) A B C La Lb Lc. apply written_spec in A as (NA & DA & EA). apply further_spec in B as (gb & -> & OB & EB). apply further_spec in C as (gc & -> & OC & EC).
  rewrite from_string_unfold, (without_v_of p a _ Pv NA DA). assert (M : match_version (a ++ group_text gb ++ group_text gc ++ e) = Some (a, gb, gc)).
  { apply match_version_spec. exists e. repeat (split; [first [assumption|reflexivity]|]). split; [|exact Pe]. intros ->. destruct gc; [discriminate (BC eq_refl)|reflexivity]. }
  rewrite M, (int_of_short a La). cbn [bind]. assert (IB : int_or_zero gb = Ok (minor v)).
  { destruct gb as [ds|]; cbn [int_or_zero group_text List.length] in *; [rewrite int_of_short by lia|]; congruence. }
  assert (IC : int_or_zero gc = Ok (patch v)).
  { destruct gc as [ds|]; cbn [int_or_zero group_text List.length] in *; [rewrite int_of_short by lia|]; congruence. }
  rewrite IB, IC. cbn [bind]. rewrite EA. destruct v; reflexivity.
Qed.
Lemma match_is_version : forall t a b c, match_version (without_v t) = Some (a, b, c) ->
  is_version t (mkVersion (number_of a) (match b with Some ds => number_of ds | None => 0 end) (match c with Some ds => number_of ds | None => 0 end)).
Proof.
  intros t a b c M. apply match_version_spec in M as (e & E & N & A & B & C & BC & AE). destruct (without_v_spec t) as (v & V & T). exists a, (group_text b), (group_text c). split; [|split; [|split]].
  - exists v, e. split; [rewrite T at 1; rewrite E; reflexivity|]. split; [exact V|]. split; [exact AE|]. destruct b as [ds|]; cbn [group_text]; [discriminate|]. intros _. rewrite (BC eq_refl). reflexivity.
  - apply written_spec. auto.
  - apply further_spec. exists b. auto.
  - apply further_spec. exists c. auto.
Qed.
Lemma parts_length : forall t a b c, version_parts t a b c -> (List.length a <= List.length t /\ List.length b <= List.length t /\ List.length c <= List.length t)%nat.
Proof. intros t a b c (v & e & -> & _). rewrite !app_length. lia. Qed.
Lemma is_version_read : forall t v, (List.length t <= 4300)%nat -> is_version t v -> from_string (Some t) = Ok v.
Proof. intros t v L (a & b & c & P & A & B & C). pose proof (parts_length _ _ _ _ P). eapply parts_read; eauto; lia. Qed.

Lemma versions_read : forall t v, (List.length t <= 4300)%nat ->
  (from_string (Some t) = Ok v <-> is_version t v \/ ((major v = 0 /\ minor v = 0 /\ patch v = 0) /\ ~ exists w, is_version t w)).
Proof.
  intros t v L. split.
  - intros E. destruct (match_version (without_v t)) as [[[a b] c]|] eqn:M.
    + pose proof (match_is_version t a b c M) as W. pose proof (is_version_read t _ L W) as R. left. rewrite E in R. injection R as ->. exact W.
    + right. rewrite from_string_unfold, M in E. injection E as <-. split; [repeat split|]. intros (w & a & b & c & (p & e & -> & Pv & Pe & BC) & A & B & C).
      apply written_spec in A as (NA & DA & EA). apply further_spec in B as (gb & -> & OB & EB). apply further_spec in C as (gc & -> & OC & EC). rewrite (without_v_of p a _ Pv NA DA) in M.
      assert (X : match_version (a ++ group_text gb ++ group_text gc ++ e) = Some (a, gb, gc)); [|congruence].
      apply match_version_spec. exists e. repeat (split; [first [assumption|reflexivity]|]). split; [|exact Pe]. intros ->. destruct gc; [discriminate (BC eq_refl)|reflexivity].
  - intros [W|[(E1 & E2 & E3) N]]; [exact (is_version_read t v L W)|]. rewrite from_string_unfold. destruct (match_version (without_v t)) as [[[a b] c]|] eqn:M.
    + destruct N. eexists. exact (match_is_version t a b c M).
    + destruct v; cbn in *; subst. reflexivity.
Qed.

(** printing *)
Lemma digit_char_is : forall d, d < 10 -> is_digit (digit_char d) d.
Proof. intros d L. split; [exact L|]. unfold digit_char. apply N_ascii_embedding. lia. Qed.
Lemma digits_of_written : forall fuel n, n < 2 ^ N.of_nat fuel * 10 -> written (digits_of fuel n) n.
Proof.
  induction fuel as [|fuel IH]; intros n L; cbn [digits_of].
  - cbn in L. rewrite N.mod_small by lia. constructor. apply digit_char_is. lia.
  - destruct (N.ltb_spec n 10) as [S|S]; [constructor; apply digit_char_is; exact S|].
    assert (M : n mod 10 < 10) by (apply N.mod_lt; discriminate). pose proof (N.div_mod n 10 ltac:(discriminate)) as D.
    rewrite D at 3. apply written_more; [|apply digit_char_is; exact M]. apply IH. rewrite Nat2N.inj_succ, N.pow_succ_r' in L. set (q := n / 10) in *. set (r := n mod 10) in *. clearbody q r. set (p := 2 ^ N.of_nat fuel) in *. clearbody p. lia.
Qed.
Lemma size_bound : forall n, n < 2 ^ N.of_nat (N.size_nat n) * 10.
Proof.
  intros n. assert (n < 2 ^ N.of_nat (N.size_nat n)); [|lia]. destruct n as [|p]; [reflexivity|]. cbn [N.size_nat].
  pose proof (N.size_gt (Npos p)) as G. cbn [N.size] in G. replace (N.of_nat (Pos.size_nat p)) with (Npos (Pos.size p)); [exact G|]. clear G. induction p as [p IH|p IH|]; cbn [Pos.size_nat Pos.size]; try reflexivity; rewrite Nat2N.inj_succ, <- IH; reflexivity.
Qed.
Lemma str_of_written : forall n ds, str_of n = Ok ds -> written ds n /\ (List.length ds <= 4300)%nat.
Proof.
  intros n ds E. unfold str_of, max_digits in E. destruct (Nat.ltb_spec 4300 (List.length (digits_of (N.size_nat n) n))) as [L|L]; [discriminate E|]. injection E as <-. split; [|exact L]. apply digits_of_written, size_bound.
Qed.
Lemma printed_read : forall v t p, to_string v = Ok t -> p = [] \/ p = ["v"%char] \/ p = ["V"%char] -> from_string (Some (p ++ t)) = Ok v.
Proof.
  intros v t p E P. unfold to_string in E. destruct (str_of (major v)) as [a|] eqn:A; [|discriminate E]. destruct (str_of (minor v)) as [b|] eqn:B; [|discriminate E]. destruct (str_of (patch v)) as [c|] eqn:C; [|discriminate E]. cbn [bind] in E. injection E as <-.
  apply str_of_written in A as [A LA]. apply str_of_written in B as [B LB]. apply str_of_written in C as [C LC].
  apply (parts_read _ a ("."%char :: b) ("."%char :: c) v); [|exact A|constructor; exact B|constructor; exact C|exact LA|cbn; lia|cbn; lia].
  exists p, []. split; [rewrite app_nil_r; reflexivity|]. split; [exact P|]. split; [left; reflexivity|discriminate].
Qed.
Lemma printed_is_version : forall v t, to_string v = Ok t -> is_version t v.
Proof.
  intros v t E. unfold to_string in E. destruct (str_of (major v)) as [a|] eqn:A; [|discriminate E]. destruct (str_of (minor v)) as [b|] eqn:B; [|discriminate E]. destruct (str_of (patch v)) as [c|] eqn:C; [|discriminate E]. cbn [bind] in E. injection E as <-.
  apply str_of_written in A as [A _]. apply str_of_written in B as [B _]. apply str_of_written in C as [C _]. exists a, ("."%char :: b), ("."%char :: c).
  split; [|split; [exact A|split; constructor; assumption]]. exists [], []. split; [rewrite app_nil_r; reflexivity|]. split; [left; reflexivity|]. split; [left; reflexivity|discriminate].
Qed.

(** the order *)
Lemma compare_spec : forall v w, CompareSpec (v = w) (older v w) (older w v) (compare v w).
Proof.
  intros [a b c] [x y z]. unfold compare, older. cbn. destruct (N.compare_spec a x); [destruct (N.compare_spec b y); [destruct (N.compare_spec c z)|..]|..]; constructor; try congruence; lia.
Qed.
Lemma older_irreflexive : forall v, ~ older v v.
Proof. intros v. unfold older. lia. Qed.
Lemma older_asym : forall v w, older v w -> ~ older w v.
Proof. intros v w. unfold older. lia. Qed.
Lemma order_of_versions :
  (forall v w, (lt v w = true <-> older v w) /\ (gt v w = true <-> older w v) /\ (le v w = true <-> older v w \/ v = w) /\ (ge v w = true <-> older w v \/ v = w) /\
               (eq v w = true <-> v = w) /\ (ne v w = true <-> v <> w)) /\
  (forall v, ~ older v v) /\ (forall u v w, older u v -> older v w -> older u w) /\ (forall v w, older v w \/ v = w \/ older w v).
Proof.
  split; [|split; [exact older_irreflexive|split; [intros u v w; unfold older; lia|]]].
  - intros v w. unfold lt, gt, le, ge, eq, ne. pose proof (older_irreflexive v) as I. pose proof (older_irreflexive w) as I'. destruct (compare_spec v w) as [E|O|O]; [subst w| |].
    + intuition congruence.
    + pose proof (older_asym _ _ O). assert (v <> w) by (intros ->; auto). intuition congruence.
    + pose proof (older_asym _ _ O). assert (v <> w) by (intros ->; auto). intuition congruence.
  - intros v w. destruct (compare_spec v w); auto.
Qed.

(** what is not a version *)
Lemma invalid_refuted : exists t u v w, (* 10.0.0-rc1 and 2.0 *)
  t = ["1"; "0"; "."; "0"; "."; "0"; "-"; "r"; "c"; "1"]%char /\ u = ["2"; "."; "0"]%char /\
  from_string (Some t) = Ok v /\ from_string (Some u) = Ok w /\ older v w /\ from_string None = Ok v.
Proof. eexists _, _, _, _. split; [reflexivity|]. split; [reflexivity|]. split; [reflexivity|]. split; [reflexivity|]. split; [left; reflexivity|reflexivity]. Qed.
Lemma nines_written : forall k, (0 < k)%nat -> exists n, written (repeat "9"%char k) n.
Proof.
  intros k L. exists (number_of (repeat "9"%char k)). apply written_spec. split; [destruct k; [lia|discriminate]|]. split; [|reflexivity]. apply Forall_forall. intros c I. apply repeat_spec in I. subst c. exists 9. split; reflexivity.
Qed.
Lemma long_refuted : exists t v, is_version t v /\ from_string (Some t) = Err ValueError.
Proof.
  destruct (nines_written (S max_digits)) as (n & W); [unfold max_digits; lia|]. set (a := repeat "9"%char (S max_digits)) in *. assert (L : List.length a = S max_digits) by apply repeat_length. clearbody a. exists a, (mkVersion n 0 0). split.
  - exists a, [], []. split; [|split; [exact W|split; constructor]]. exists [], []. split; [rewrite !app_nil_r; reflexivity|]. auto.
  - apply written_spec in W as (N & A & _). rewrite from_string_unfold. pose proof (without_v_of [] a [] (or_introl eq_refl) N A) as Z. rewrite app_nil_r in Z. cbn [app] in Z. rewrite Z.
    assert (M : match_version a = Some (a, None, None)). { apply match_version_spec. exists []. split; [symmetry; apply app_nil_r|]. cbn. auto 10. }
    rewrite M. unfold int_of. rewrite L. destruct (Nat.ltb_spec max_digits (S max_digits)) as [_|X]; [reflexivity|lia].
Qed.

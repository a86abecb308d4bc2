(** Places that are shown the same are the same. *)
From Coq Require Import PeanoNat String Ascii DecimalString DecimalZ Lia ZArith.
From Verif Require Import Base Location_Model Location_Spec.
Local Open Scope list_scope.

Definition plain (t : text) : Prop := forall c, In c t -> ~ separator c.
Lemma plain_app : forall a b, plain a -> plain b -> plain (a ++ b).
Proof. intros a b A B c I. apply in_app_or in I as [I|I]; auto. Qed.
Lemma digit_plain : forall n, (n < 10)%nat -> ~ separator (digit n).
Proof. intros n L. do 10 (destruct n as [|n]; [intros [E|E]; discriminate E|]). lia. Qed.
Lemma digit_inj : forall n m, (n < 10)%nat -> (m < 10)%nat -> digit n = digit m -> n = m.
Proof. intros n m N M E. unfold digit in E. apply (f_equal nat_of_ascii) in E. rewrite !nat_ascii_embedding in E by lia. lia. Qed.
Lemma two_plain : forall n, (n < 100)%nat -> plain (two_digits n).
Proof.
  intros n L c [<-|[<-|[]]]; apply digit_plain; [apply Nat.div_lt_upper_bound; lia|apply Nat.mod_upper_bound; lia].
Qed.
Lemma pair_inj : forall a b c d : ascii, [a; b] = [c; d] -> a = c /\ b = d.
Proof. intros a b c d E. injection E as -> ->. auto. Qed.
Lemma two_inj : forall n m, (n < 100)%nat -> (m < 100)%nat -> two_digits n = two_digits m -> n = m.
Proof.
  intros n m N M E. destruct (pair_inj _ _ _ _ E) as [E1 E2]. clear E.
  assert (n / 10 < 10)%nat by (apply Nat.div_lt_upper_bound; lia). assert (m / 10 < 10)%nat by (apply Nat.div_lt_upper_bound; lia).
  pose proof (Nat.mod_upper_bound n 10 ltac:(lia)). pose proof (Nat.mod_upper_bound m 10 ltac:(lia)).
  apply digit_inj in E1; [|assumption|assumption]. apply digit_inj in E2; [|assumption|assumption].
  pose proof (Nat.div_mod n 10 ltac:(lia)) as F1. pose proof (Nat.div_mod m 10 ltac:(lia)) as F2. lia.
Qed.
Lemma year_parts : forall d, proper_day d -> (d_year d / 100 < 100 /\ d_year d mod 100 < 100)%nat.
Proof. intros d (Y & _). split; [apply Nat.div_lt_upper_bound; lia|apply Nat.mod_upper_bound; lia]. Qed.
Lemma date_plain : forall d, proper_day d -> plain (date_to_string d).
Proof.
  intros d P. destruct (year_parts d P). destruct P as (_ & M & D). unfold date_to_string. repeat apply plain_app; try (apply two_plain; assumption); intros c [<-|[]] [E|E]; discriminate E.
Qed.
Lemma cons2_inj : forall (a b c d : ascii) x y, a :: b :: x = c :: d :: y -> [a; b] = [c; d] /\ x = y.
Proof. intros a b c d x y E. injection E as -> -> ->. auto. Qed.
Lemma two_app : forall n m x y, two_digits n ++ x = two_digits m ++ y -> two_digits n = two_digits m /\ x = y.
Proof. intros n m x y E. apply (cons2_inj _ _ _ _ _ _ E). Qed.
Lemma date_inj : forall d e, proper_day d -> proper_day e -> date_to_string d = date_to_string e -> d = e.
Proof.
  intros d e P P' E. destruct (year_parts d P) as [A B]. destruct (year_parts e P') as [A' B']. destruct P as (_ & M & D). destruct P' as (_ & M' & D'). unfold date_to_string in E.
  apply two_app in E as [E1 E]. apply two_app in E as [E2 E]. apply app_inv_head in E. apply two_app in E as [E3 E]. apply app_inv_head in E.
  apply two_inj in E1, E2, E3, E; try assumption. destruct d as [y m z], e as [y' m' z']. cbn [d_year d_month d_day] in *. subst. f_equal. pose proof (Nat.div_mod y 100 ltac:(lia)) as F1. pose proof (Nat.div_mod y' 100 ltac:(lia)) as F2. lia.
Qed.
Lemma uint_plain : forall u, plain (list_ascii_of_string (NilEmpty.string_of_uint u)).
Proof. induction u; cbn; intros c I; try contradiction; (destruct I as [<-|I]; [intros [E|E]; discriminate E|exact (IHu c I)]). Qed.
Lemma int_plain : forall i, plain (show_int i).
Proof. intros i. unfold show_int. destruct (Z.to_int i) as [u|u]; cbn; [apply uint_plain|]. intros c [<-|I]; [intros [E|E]; discriminate E|exact (uint_plain u c I)]. Qed.
Lemma int_inj : forall i j, show_int i = show_int j -> i = j.
Proof.
  intros i j E. unfold show_int in E. apply (f_equal string_of_list_ascii) in E. rewrite !string_of_list_ascii_of_string in E. apply (f_equal NilEmpty.int_of_string) in E. rewrite !NilEmpty.isi in E. injection E as E. apply (f_equal Z.of_int) in E. rewrite !DecimalZ.of_to in E. exact E.
Qed.

(** what follows a key is nothing or starts with a separator *)
Definition ended (t : text) : Prop := match t with [] => True | c :: _ => separator c end.
Lemma split_unique : forall a b x y, plain a -> plain b -> ended x -> ended y -> a ++ x = b ++ y -> a = b /\ x = y.
Proof.
  induction a as [|c a IH]; intros [|d b] x y A B X Y E; cbn [app] in E.
  - auto.
  - subst x. destruct (B d (or_introl eq_refl) X).
  - subst y. destruct (A c (or_introl eq_refl) Y).
  - injection E as -> E. destruct (IH b x y) as [-> ->]; auto; intros z I; [apply A|apply B]; right; exact I.
Qed.
Lemma rest_ended : forall keys, ended (path false keys).
Proof. intros [|[s|i|d] keys]; cbn; unfold separator; auto. Qed.
Lemma bracket_plain : forall i, plain (show_int i ++ ["]"%char]).
Proof. intros i. apply plain_app; [apply int_plain|]. intros c [<-|[]] [E|E]; discriminate E. Qed.
Lemma cons_same : forall (c : ascii) x y, c :: x = c :: y -> x = y.
Proof. intros c x y E. injection E as ->. reflexivity. Qed.
Lemma rest_inj : forall keys keys', Forall proper keys -> Forall proper keys' -> path false keys = path false keys' -> keys = keys'.
Proof.
  induction keys as [|k keys IH]; intros [|k' keys'] P P' E.
  - reflexivity.
  - destruct k'; cbn in E; discriminate E.
  - destruct k; cbn in E; discriminate E.
  - inversion P as [|? ? Pk Pr]; subst. inversion P' as [|? ? Pk' Pr']; subst.
    destruct k as [s|i|d], k' as [s'|i'|d']; cbn [path app] in E; try discriminate E; apply cons_same in E.
    + destruct Pk as (_ & A & _), Pk' as (_ & B & _). apply split_unique in E as [-> E]; auto using rest_ended. f_equal. auto.
    + destruct Pk as (_ & A & N). apply split_unique in E as [-> E]; auto using rest_ended, date_plain. destruct (N d' Pk' eq_refl).
    + change (show_int i ++ ["]"%char] ++ path false keys = show_int i' ++ ["]"%char] ++ path false keys') in E. rewrite !app_assoc in E.
      apply split_unique in E as [X E]; auto using rest_ended, bracket_plain. apply app_inv_tail in X. apply int_inj in X as ->. f_equal. auto.
    + destruct Pk' as (_ & A & N). apply split_unique in E as [X E]; auto using rest_ended, date_plain. destruct (N d Pk). congruence.
    + apply split_unique in E as [X E]; auto using rest_ended, date_plain. apply date_inj in X as ->; auto. f_equal. auto.
Qed.
Lemma name_first : forall s t x y, s <> [] -> plain s -> separator x -> s ++ t = x :: y -> False.
Proof. intros [|c s] t x y N A X E; [contradiction|]. injection E as -> E. exact (A x (or_introl eq_refl) X). Qed.
Lemma shown_once : forall keys keys', Forall proper keys -> Forall proper keys' -> as_dot_separated keys = as_dot_separated keys' -> keys = keys'.
Proof.
  unfold as_dot_separated. intros [|k keys] [|k' keys'] P P' E; [reflexivity| | |].
  - destruct k' as [s| |]; cbn in E; try discriminate E. apply Forall_inv in P' as [N _]. destruct s; [contradiction|discriminate E].
  - destruct k as [s| |]; cbn in E; try discriminate E. apply Forall_inv in P as [N _]. destruct s; [contradiction|discriminate E].
  - pose proof P as Q. pose proof P' as Q'. inversion P as [|? ? Pk Pr]; subst. inversion P' as [|? ? Pk' Pr']; subst.
    destruct k as [s|i|d], k' as [s'|i'|d']; try (apply rest_inj; [exact Q|exact Q'|exact E]).
    + cbn [path app] in E. destruct Pk as (_ & A & _), Pk' as (_ & B & _). apply split_unique in E as [-> E]; auto using rest_ended. f_equal. apply rest_inj; assumption.
    + exfalso. cbn [path app] in E. destruct Pk as (N & A & _). exact (name_first _ _ _ _ N A (or_intror eq_refl) E).
    + exfalso. cbn [path app] in E. destruct Pk as (N & A & _). exact (name_first _ _ _ _ N A (or_introl eq_refl) E).
    + exfalso. cbn [path app] in E. destruct Pk' as (N & A & _). symmetry in E. exact (name_first _ _ _ _ N A (or_intror eq_refl) E).
    + exfalso. cbn [path app] in E. destruct Pk' as (N & A & _). symmetry in E. exact (name_first _ _ _ _ N A (or_introl eq_refl) E).
Qed.
Lemma dots_refuted : exists a b c, as_dot_separated [Name a] = as_dot_separated [Name b; Name c] /\ b <> [] /\ c <> [].
Proof. exists (list_ascii_of_string "gas.oil"), (list_ascii_of_string "gas"), (list_ascii_of_string "oil"). repeat split; discriminate. Qed.
Lemma dates_refuted : exists a s d, proper (Name a) /\ proper_day d /\ (forall c, In c s -> ~ separator c) /\ as_dot_separated [Name a; Name s] = as_dot_separated [Name a; Date d].
Proof.
  exists (list_ascii_of_string "MODEL"), (list_ascii_of_string "2020-01-31"), (mkDay 2020 1 31).
  assert (D : proper_day (mkDay 2020 1 31)) by (repeat split; cbn [d_year d_month d_day]; lia).
  repeat split; try (cbn [d_year d_month d_day]; lia).
  - discriminate.
  - cbn. intros c I [-> | ->]; repeat (destruct I as [I|I]; [discriminate I|]); exact I.
  - intros d _ E. discriminate E.
  - cbn. intros c I [-> | ->]; repeat (destruct I as [I|I]; [discriminate I|]); exact I.
Qed.

(** Proofs about number formatting. *)
From Coq Require Import String Qround PeanoNat.
From Verif Require Import QcTac BaseLemmas Num Flash_Model Flash_Proofs Pump_Proofs Base Numbers_Model Numbers_Spec.
Local Open Scope list_scope.
Local Open Scope Qc_scope.

Lemma qz_le : forall a b, (a <= b)%Z <-> qz a <= qz b.
Proof.
  intros a b. unfold qz. rewrite Qcle_this, !this_Q2Qc. unfold Qle, inject_Z. cbn. rewrite !Z.mul_1_r. reflexivity.
Qed.
Lemma qz_lt : forall a b, (a < b)%Z <-> qz a < qz b.
Proof.
  intros a b. unfold qz. rewrite Qclt_this, !this_Q2Qc. unfold Qlt, inject_Z. cbn. rewrite !Z.mul_1_r. reflexivity.
Qed.
Lemma le_to : forall a b, (a <= b)%Z -> qz a <= qz b. Proof. intros. now apply (proj1 (qz_le a b)). Qed.
Lemma le_of : forall a b, qz a <= qz b -> (a <= b)%Z. Proof. intros. now apply (proj2 (qz_le a b)). Qed.
Lemma lt_to : forall a b, (a < b)%Z -> qz a < qz b. Proof. intros. now apply (proj1 (qz_lt a b)). Qed.
Lemma lt_of : forall a b, qz a < qz b -> (a < b)%Z. Proof. intros. now apply (proj2 (qz_lt a b)). Qed.
Lemma qz_add : forall a b, qz (a + b) = qz a + qz b.
Proof. intros. apply Qc_is_canon. rewrite this_plus. unfold qz. rewrite !this_Q2Qc, inject_Z_plus. reflexivity. Qed.
Lemma qz_mul : forall a b, qz (a * b) = qz a * qz b.
Proof. intros. apply Qc_is_canon. rewrite this_mult. unfold qz. rewrite !this_Q2Qc, inject_Z_mult. reflexivity. Qed.
Lemma qz_inj : forall a b, qz a = qz b -> a = b.
Proof. intros a b E. apply Z.le_antisymm; apply le_of; rewrite E; apply Qcle_refl. Qed.
Lemma qz_0 : qz 0 = 0. Proof. apply Qc_is_canon. reflexivity. Qed.
Lemma qz_1 : qz 1 = 1. Proof. apply Qc_is_canon. reflexivity. Qed.

Lemma ten_pos : forall n, (0 <= n)%Z -> 0 < qz (10 ^ n).
Proof. intros n H. rewrite <- qz_0. apply lt_to. apply Z.pow_pos_nonneg; lia. Qed.

(** ** digits *)
Lemma ndigits_ok : forall fuel n, (1 <= n)%Z -> (Z.log2 n < Z.of_nat fuel)%Z ->
  (1 <= ndigits fuel n)%Z /\ (10 ^ (ndigits fuel n - 1) <= n)%Z /\ (n < 10 ^ ndigits fuel n)%Z.
Proof.
  induction fuel as [|fuel IH]; intros n H L.
  - pose proof (Z.log2_nonneg n). lia.
  - cbn [ndigits]. destruct (n <? 10)%Z eqn:E.
    + apply Z.ltb_lt in E. cbn. lia.
    + apply Z.ltb_ge in E. assert (1 <= n / 10)%Z as H1 by (apply Z.div_le_lower_bound; lia).
      assert (10 * (n / 10) <= n)%Z as H2 by (apply Z.mul_div_le; lia).
      assert (n < 10 * (n / 10) + 10)%Z as H3 by (pose proof (Z.mod_pos_bound n 10); pose proof (Z.div_mod n 10); lia).
      destruct (IH (n / 10)%Z H1) as (I1 & I2 & I3).
      { assert (Z.log2 (2 * (n / 10)) <= Z.log2 n)%Z as M by (apply Z.log2_le_mono; lia). rewrite Z.log2_double in M by lia. lia. }
      set (d := ndigits fuel (n / 10)) in *. split; [lia|]. split.
      * replace (1 + d - 1)%Z with (1 + (d - 1))%Z by lia. rewrite Z.pow_add_r by lia. change (10 ^ 1)%Z with 10%Z. lia.
      * rewrite Z.pow_add_r by lia. change (10 ^ 1)%Z with 10%Z. lia.
Qed.
Lemma digits_of_ok : forall n, (1 <= n)%Z -> (1 <= digits_of n)%Z /\ (10 ^ (digits_of n - 1) <= n)%Z /\ (n < 10 ^ digits_of n)%Z.
Proof. intros n H. apply ndigits_ok; auto. pose proof (Z.log2_nonneg n). lia. Qed.

Lemma floor_bounds : forall x, qz (Qfloor (this x)) <= x /\ x < qz (Qfloor (this x) + 1).
Proof.
  intros x. split.
  - apply Qcle_this. unfold qz. rewrite this_Q2Qc. apply Qfloor_le.
  - apply Qclt_this. unfold qz. rewrite this_Q2Qc. apply Qlt_floor.
Qed.
Lemma ceiling_bounds : forall x, x <= qz (Qceiling (this x)) /\ qz (Qceiling (this x) - 1) < x.
Proof.
  intros x. split.
  - apply Qcle_this. unfold qz. rewrite this_Q2Qc. apply Qle_ceiling.
  - apply Qclt_this. unfold qz. rewrite this_Q2Qc. apply Qceiling_lt.
Qed.

Lemma abs_pos : forall x, x <> 0 -> 0 < Qcabs x.
Proof. intros x N. qc_cases; qc_lra. Qed.

Lemma adjusted_small : forall x, x <> 0 -> Qcabs x < 1 -> (adjusted x < 0)%Z.
Proof.
  intros x N L. unfold adjusted. apply Qcltb_lt in L as L'. rewrite L'. pose proof (abs_pos x N) as P. set (a := Qcabs x) in *.
  assert (1 < 1 / a) as G.
  { assert (a * (1 / a) = 1) as E by (field; now apply lt_neq). destruct (Qclt_le_dec 1 (1 / a)) as [C|C]; auto. exfalso.
    assert (a * (1 / a) <= a * 1) as Q. { rewrite (Qcmult_comm a), (Qcmult_comm a 1). apply Qcmult_le_compat_r; [exact C|now apply Qclt_le_weak]. }
    rewrite E in Q. replace (a * 1) with a in Q by ring. qc_lra. }
  destruct (ceiling_bounds (1 / a)) as [C1 C2]. set (c := Qceiling (this (1 / a))) in *.
  assert (1 < c)%Z. { apply lt_of. rewrite qz_1. qc_lra. }
  destruct (digits_of_ok (c - 1)) as [D _]; lia.
Qed.

Lemma adjusted_large : forall x, 1 <= Qcabs x ->
  (0 <= adjusted x)%Z /\ qz (10 ^ adjusted x) <= Qcabs x /\ Qcabs x < qz (10 ^ (adjusted x + 1)).
Proof.
  intros x L. unfold adjusted. replace (Qcltb (Qcabs x) 1) with false by (symmetry; now apply Qcltb_ge).
  set (a := Qcabs x) in *. destruct (floor_bounds a) as [F1 F2]. set (f := Qfloor (this a)) in *.
  assert (1 <= f)%Z. { assert (1 < f + 1)%Z; [|lia]. apply lt_of. rewrite qz_1. qc_lra. }
  destruct (digits_of_ok f) as (D1 & D2 & D3); [lia|]. split; [lia|]. split.
  - apply le_to in D2. qc_lra.
  - replace (digits_of f - 1 + 1)%Z with (digits_of f) by lia. assert (f + 1 <= 10 ^ digits_of f)%Z as Q by lia. apply le_to in Q. qc_lra.
Qed.

Lemma adjusted_unique : forall x e, (0 <= e)%Z -> qz (10 ^ e) <= Qcabs x -> Qcabs x < qz (10 ^ (e + 1)) -> adjusted x = e.
Proof.
  intros x e H L1 L2. assert (1 <= Qcabs x) as L.
  { assert (1 <= 10 ^ e)%Z as Q by (pose proof (Z.pow_pos_nonneg 10 e); lia). apply le_to in Q. rewrite qz_1 in Q. qc_lra. }
  destruct (adjusted_large x L) as (A & B & C). set (a := adjusted x) in *.
  destruct (Z.lt_trichotomy a e) as [Q|[Q|Q]]; auto; exfalso.
  - assert (10 ^ (a + 1) <= 10 ^ e)%Z as R by (apply Z.pow_le_mono_r; lia). apply le_to in R. qc_lra.
  - assert (10 ^ (e + 1) <= 10 ^ a)%Z as R by (apply Z.pow_le_mono_r; lia). apply le_to in R. qc_lra.
Qed.

Lemma kept_ok : forall x p, x <> 0 -> (-1 <= p)%Z -> (Qcabs x < 1 -> (0 <= p)%Z) ->
  decimals_kept x p (new_precision x p) /\ (0 <= new_precision x p)%Z.
Proof.
  intros x p N Hp H0. unfold new_precision, decimals_kept. destruct (Qclt_le_dec (Qcabs x) 1) as [L|L].
  - pose proof (adjusted_small x N L) as A. apply Z.ltb_lt in A. rewrite A. auto.
  - destruct (adjusted_large x L) as (A & B & C). replace (adjusted x <? 0)%Z with false by (symmetry; apply Z.ltb_ge; lia).
    destruct (adjusted x <? p)%Z eqn:E; [apply Z.ltb_lt in E|apply Z.ltb_ge in E]; (split; [right; exists (adjusted x); repeat split; auto; lia|lia]).
Qed.
Lemma kept_unique : forall x p n n', decimals_kept x p n -> decimals_kept x p n' -> n = n'.
Proof.
  intros x p n n' [[A ->]|(e & A & B & C & ->)] [[A' ->]|(e' & A' & B' & C' & ->)]; auto.
  - exfalso. assert (1 <= 10 ^ e')%Z as Q by (pose proof (Z.pow_pos_nonneg 10 e'); lia). apply le_to in Q. rewrite qz_1 in Q. qc_lra.
  - exfalso. assert (1 <= 10 ^ e)%Z as Q by (pose proof (Z.pow_pos_nonneg 10 e); lia). apply le_to in Q. rewrite qz_1 in Q. qc_lra.
  - rewrite <- (adjusted_unique x e), <- (adjusted_unique x e'); auto.
Qed.

(** ** the printed decimal *)
Lemma trim_value : forall l, fraction_value (trim l) = fraction_value l.
Proof.
  induction l as [|d l IH]; [reflexivity|]. cbn [trim]. destruct (trim l) as [|d' l'] eqn:E.
  - cbn [fraction_value] in *. rewrite <- IH. destruct (d =? 0)%Z eqn:Z0; [|reflexivity]. apply Z.eqb_eq in Z0. subst. rewrite qz_0. cbn [fraction_value]. field. discriminate.
  - cbn [fraction_value] in *. rewrite IH. reflexivity.
Qed.
Lemma trim_in : forall l d, In d (trim l) -> In d l.
Proof.
  induction l as [|d l IH]; intros x H; [destruct H|]. cbn [trim] in H. destruct (trim l) as [|d' l'] eqn:E.
  - destruct (d =? 0)%Z; [destruct H|]. destruct H as [<-|[]]. now left.
  - destruct H as [<-|H]; [now left|right]. apply IH. exact H.
Qed.
Lemma trim_last : forall l k d, trim l = k ++ [d] -> d <> 0%Z.
Proof.
  induction l as [|x l IH]; intros k d E; [destruct k; discriminate E|]. cbn [trim] in E. destruct (trim l) as [|d' l'] eqn:T.
  - destruct (x =? 0)%Z eqn:Z0; [destruct k; discriminate E|]. apply Z.eqb_neq in Z0. destruct k as [|a [|b k]]; try discriminate E. cbn in E. congruence.
  - destruct k as [|a k]; [discriminate E|]. cbn in E. injection E as -> E. eapply IH. exact E.
Qed.
Lemma trim_length : forall l, (List.length (trim l) <= List.length l)%nat.
Proof.
  induction l as [|d l IH]; [cbn; lia|]. cbn [trim]. destruct (trim l) as [|d' l'] eqn:E; [destruct (d =? 0)%Z; cbn; lia|]. cbn in *. lia.
Qed.

Lemma fraction_digits_ok : forall n r, (0 <= r < 10 ^ Z.of_nat n)%Z ->
  fraction_value (fraction_digits n r) = qz r / qz (10 ^ Z.of_nat n) /\
  (forall d, In d (fraction_digits n r) -> (0 <= d < 10)%Z) /\ List.length (fraction_digits n r) = n.
Proof.
  induction n as [|n IH]; intros r H.
  - cbn in *. assert (r = 0)%Z by lia. subst. split; [rewrite qz_0, qz_1; field; discriminate|]. split; [intros d []|reflexivity].
  - cbn [fraction_digits fraction_value]. set (w := (10 ^ Z.of_nat n)%Z) in *.
    assert (0 < w)%Z as W by (apply Z.pow_pos_nonneg; lia).
    assert (10 ^ Z.of_nat (S n) = 10 * w)%Z as E10. { unfold w. rewrite Nat2Z.inj_succ, Z.pow_succ_r by lia. reflexivity. }
    destruct (IH (r mod w)%Z) as (I1 & I2 & I3); [now apply Z.mod_pos_bound|]. rewrite I1, E10, qz_mul. split; [|split].
    + assert (qz r = qz w * qz (r / w) + qz (r mod w)) as ER by (rewrite <- qz_mul, <- qz_add; f_equal; apply Z.div_mod; lia).
      rewrite ER. field. split; apply lt_neq; [rewrite <- qz_0; now apply lt_to|reflexivity].
    + intros d [<-|Hd]; [|now apply I2]. split; [apply Z.div_pos; lia|]. apply Z.div_lt_upper_bound; lia.
    + cbn. now rewrite I3.
Qed.

Lemma nearest_low : forall x k, qz k <= x -> (k <= nearest x)%Z.
Proof.
  intros x k H. pose proof (nearest_close x) as C. destruct (Z.le_gt_cases k (nearest x)) as [L|L]; auto. exfalso.
  assert (nearest x + 1 <= k)%Z as Q by lia. apply le_to in Q. rewrite qz_add, qz_1 in Q. set (m := qz (nearest x)) in *. clearbody m. unfold qc in *. revert C. qc_cases; intros; qc_lra.
Qed.
Lemma nearest_high : forall x k, x <= qz k -> (nearest x <= k)%Z.
Proof.
  intros x k H. pose proof (nearest_close x) as C. destruct (Z.le_gt_cases (nearest x) k) as [L|L]; auto. exfalso.
  assert (k + 1 <= nearest x)%Z as Q by lia. apply le_to in Q. rewrite qz_add, qz_1 in Q. set (m := qz (nearest x)) in *. clearbody m. unfold qc in *. revert C. qc_cases; intros; qc_lra.
Qed.
Lemma nearest_qz : forall k, nearest (qz k) = k.
Proof. intros k. apply Z.le_antisymm; [apply nearest_high|apply nearest_low]; apply Qcle_refl. Qed.

Lemma close_div : forall a w q, 0 < w -> Qcabs (q - a * w) <= qc 1 2 -> Qcabs (q / w - a) <= qc 1 2 / w.
Proof.
  intros a w q P C. assert (q / w - a = (q - a * w) / w) as -> by (field; now apply lt_neq).
  set (u := q - a * w) in *. clearbody u.
  assert (forall v, v <= qc 1 2 -> v / w <= qc 1 2 / w) as D.
  { intros v V2. assert (0 <= (qc 1 2 - v) / w) as Q by (apply div_nn; [unfold qc in *; qc_lra|exact P]).
    replace ((qc 1 2 - v) / w) with (qc 1 2 / w - v / w) in Q by (field; now apply lt_neq). qc_lra. }
  assert (u <= qc 1 2) as U1 by (revert C; qc_cases; intros; qc_lra). assert (- u <= qc 1 2) as U2 by (revert C; qc_cases; intros; qc_lra).
  pose proof (D u U1) as D1. pose proof (D (- u) U2) as D2. replace (- u / w) with (- (u / w)) in D2 by (field; now apply lt_neq).
  set (r := u / w) in *. set (h := qc 1 2 / w) in *. clearbody r h. clear - D1 D2. qc_cases; qc_lra.
Qed.
Lemma whole_and_fraction : forall m n, (0 <= n)%Z -> (0 <= m)%Z ->
  qz (m / 10 ^ n) + fraction_value (trim (fraction_digits (Z.to_nat n) (m mod 10 ^ n))) = qz m / qz (10 ^ n).
Proof.
  intros m n H M0. pose proof (ten_pos n H) as P. assert (0 < 10 ^ n)%Z as P' by (apply Z.pow_pos_nonneg; lia).
  destruct (fraction_digits_ok (Z.to_nat n) (m mod 10 ^ n)) as (F1 & _ & _).
  { rewrite Z2Nat.id by lia. now apply Z.mod_pos_bound. }
  rewrite trim_value, F1, Z2Nat.id by lia.
  assert (qz m = qz (10 ^ n) * qz (m / 10 ^ n) + qz (m mod 10 ^ n)) as ER by (rewrite <- qz_mul, <- qz_add; f_equal; apply Z.div_mod; lia).
  rewrite ER. field. now apply lt_neq.
Qed.
Lemma digits_tidy : forall m n b, (0 <= n)%Z -> (0 <= m)%Z ->
  tidy (mkText b (m / 10 ^ n) (trim (fraction_digits (Z.to_nat n) (m mod 10 ^ n)))) /\
  (Z.of_nat (List.length (trim (fraction_digits (Z.to_nat n) (m mod 10 ^ n)))) <= n)%Z.
Proof.
  intros m n b H M0. assert (0 < 10 ^ n)%Z as P' by (apply Z.pow_pos_nonneg; lia).
  destruct (fraction_digits_ok (Z.to_nat n) (m mod 10 ^ n)) as (_ & F2 & F3).
  { rewrite Z2Nat.id by lia. now apply Z.mod_pos_bound. }
  unfold tidy. cbn [tx_whole tx_fraction]. split; [split; [now apply Z.div_pos|split]|].
  - intros d Hd. apply F2. now apply trim_in.
  - intros l d E. now apply trim_last in E.
  - pose proof (trim_length (fraction_digits (Z.to_nat n) (m mod 10 ^ n))) as TL. rewrite F3 in TL. lia.
Qed.
Lemma abs_times_nn : forall x w, 0 <= w -> 0 <= Qcabs x * w.
Proof. intros. apply mul_nn; [qc_cases; qc_lra|assumption]. Qed.
Lemma scaled_nn : forall x n, (0 <= n)%Z -> (0 <= nearest (Qcabs x * qz (10 ^ n)))%Z.
Proof. intros x n H. apply nearest_low. rewrite qz_0. apply abs_times_nn. now apply Qclt_le_weak, ten_pos. Qed.

Lemma positional_ok : forall x n, (0 <= n)%Z ->
  tidy (format_float_positional x n) /\ (Z.of_nat (List.length (tx_fraction (format_float_positional x n))) <= n)%Z /\
  tx_negative (format_float_positional x n) = Qcltb x 0 /\ (0 <= nearest (Qcabs x * qz (10 ^ n)))%Z /\
  qz (tx_whole (format_float_positional x n)) + fraction_value (tx_fraction (format_float_positional x n)) = qz (nearest (Qcabs x * qz (10 ^ n))) / qz (10 ^ n) /\
  Qcabs (qz (nearest (Qcabs x * qz (10 ^ n))) / qz (10 ^ n) - Qcabs x) <= qc 1 2 / qz (10 ^ n).
Proof.
  intros x n H. pose proof (ten_pos n H) as P. pose proof (scaled_nn x n H) as M0. unfold format_float_positional. cbn [tx_whole tx_fraction tx_negative].
  destruct (digits_tidy _ n (Qcltb x 0) H M0) as [T1 T2]. pose proof (whole_and_fraction _ n H M0) as W. pose proof (nearest_close (Qcabs x * qz (10 ^ n))) as C.
  split; [exact T1|]. split; [exact T2|]. split; [reflexivity|]. split; [exact M0|]. split; [exact W|]. exact (close_div _ _ _ P C).
Qed.

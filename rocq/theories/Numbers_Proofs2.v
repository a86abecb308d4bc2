(** The theorems about number formatting. *)
From Coq Require Import String Qround PeanoNat.
From Verif Require Import QcTac BaseLemmas Num Flash_Model Flash_Proofs Pump_Proofs Base Numbers_Model Numbers_Spec Numbers_Proofs.
Local Open Scope list_scope.
Local Open Scope Qc_scope.

Lemma abs_nn : forall x, 0 <= Qcabs x. Proof. intros. qc_cases; qc_lra. Qed.
Lemma abs_0 : Qcabs 0 = 0. Proof. apply Qc_is_canon. reflexivity. Qed.
Lemma zero_value : float_of_text (mkText false 0 []) = 0.
Proof. unfold float_of_text. cbn [tx_negative tx_whole tx_fraction fraction_value]. rewrite qz_0. ring. Qed.
Lemma zero_tidy : tidy (mkText false 0 []).
Proof. split; [cbn; lia|]. split; [intros d []|]. intros [|a l] d E; discriminate E. Qed.

Lemma threshold : forall p, (0 <= p)%Z -> 0 < 1 / qz (10 ^ (p + 1)) /\ 1 / qz (10 ^ (p + 1)) <= qc 1 2 / qz (10 ^ p).
Proof.
  intros p H. pose proof (ten_pos p H) as P. rewrite Z.pow_add_r, qz_mul by lia. change (10 ^ 1)%Z with 10%Z. split.
  - apply div_pos; [reflexivity|]. apply mul_pos; [exact P|reflexivity].
  - assert (0 <= (qc 1 2 - 1 / qz 10) / qz (10 ^ p)) as Q by (apply div_nn; [discriminate|exact P]).
    replace ((qc 1 2 - 1 / qz 10) / qz (10 ^ p)) with (qc 1 2 / qz (10 ^ p) - 1 / (qz (10 ^ p) * qz 10)) in Q; [qc_lra|].
    field. split; [discriminate|now apply lt_neq].
Qed.

(** rounding *)
Theorem format_proof : forall x precision, (0 <= precision)%Z ->
  exists t, format_to_precision x precision = Ok t /\ tidy t /\
    forall n, decimals_kept x precision n ->
      (Z.of_nat (List.length (tx_fraction t)) <= n)%Z /\ Qcabs (float_of_text t - x) <= qc 1 2 / qz (10 ^ n).
Proof.
  intros x p H. unfold format_to_precision. replace (p <? -1)%Z with false by (symmetry; apply Z.ltb_ge; lia).
  destruct (Qcleb (Qcabs x) (1 / qz (10 ^ (p + 1)))) eqn:C.
  - apply Qcleb_le in C. eexists. split; [reflexivity|]. split; [exact zero_tidy|]. intros n K. rewrite zero_value.
    destruct (threshold p H) as [T1 T2]. replace (0 - x) with (- x) by ring.
    assert (Qcabs (- x) = Qcabs x) as -> by (apply Qcle_antisym; qc_cases; qc_lra).
    destruct K as [[K1 ->]|(e & K1 & K2 & K3 & K4)]; [split; [cbn; lia|qc_lra]|].
    exfalso. assert (1 <= 10 ^ e)%Z as Q by (pose proof (Z.pow_pos_nonneg 10 e); lia). apply le_to in Q. rewrite qz_1 in Q.
    assert (1 / qz (10 ^ (p + 1)) < 1); [|qc_lra].
    assert (0 < (qz (10 ^ (p + 1)) - 1) / qz (10 ^ (p + 1))) as D.
    { apply div_pos; [|apply ten_pos; lia]. assert (1 < 10 ^ (p + 1))%Z as Q2 by (apply Z.pow_gt_1; lia). apply lt_to in Q2. rewrite qz_1 in Q2. qc_lra. }
    replace ((qz (10 ^ (p + 1)) - 1) / qz (10 ^ (p + 1))) with (1 - 1 / qz (10 ^ (p + 1))) in D by (field; apply lt_neq, ten_pos; lia). qc_lra.
  - apply Qcleb_gt in C. assert (x <> 0) as N.
    { intros ->. destruct (threshold p H) as [T1 _]. pose proof abs_0 as Z0. rewrite Z0 in C. qc_lra. }
    destruct (kept_ok x p N) as [K K0]; [lia|auto|].
    eexists. split; [reflexivity|]. destruct (positional_ok x (new_precision x p) K0) as (P1 & P2 & P3 & P4 & P5 & P6).
    split; [exact P1|]. intros n Kn. rewrite (kept_unique x p n _ Kn K). split; [exact P2|].
    unfold float_of_text. rewrite P5, P3. set (v := _ / _) in *. set (w := qc 1 2 / _) in *. clearbody v w. clear - P6.
    destruct (Qcltb x 0) eqn:S; [apply Qcltb_lt in S|apply Qcltb_ge in S]; revert P6; qc_cases; intros; qc_lra.
Qed.

Theorem format_error_proof : forall x precision,
  (format_to_precision x precision = Err ValueError <-> (precision < -1)%Z) /\
  ((-1 <= precision)%Z -> exists t, format_to_precision x precision = Ok t).
Proof.
  intros x p. unfold format_to_precision. destruct (p <? -1)%Z eqn:E; [apply Z.ltb_lt in E|apply Z.ltb_ge in E].
  - split; [tauto|lia].
  - destruct (Qcleb _ _); (split; [split; [intros X; discriminate X|lia]|eauto]).
Qed.

(** a text is determined by its sign and value *)
Lemma fraction_bounds : forall l, (forall d, In d l -> (0 <= d < 10)%Z) -> 0 <= fraction_value l /\ fraction_value l < 1.
Proof.
  induction l as [|d l IH]; intros H; cbn [fraction_value]; [split; [apply Qcle_refl|reflexivity]|].
  destruct IH as [I1 I2]; [intros x Hx; apply H; now right|]. destruct (H d (or_introl eq_refl)) as [D1 D2].
  apply le_to in D1. rewrite qz_0 in D1. assert (d <= 9)%Z as D3 by lia. apply le_to in D3. split.
  - apply div_nn; [qc_lra|reflexivity].
  - assert (0 < (qz 10 - (qz d + fraction_value l)) / qz 10) as Q.
    { apply div_pos; [|reflexivity]. replace (qz 10) with (qz 9 + 1) by (apply Qc_is_canon; reflexivity). qc_lra. }
    replace ((qz 10 - (qz d + fraction_value l)) / qz 10) with (1 - (qz d + fraction_value l) / qz 10) in Q by (field; discriminate). qc_lra.
Qed.
Lemma integer_part : forall a b f g, 0 <= f -> f < 1 -> 0 <= g -> g < 1 -> qz a + f = qz b + g -> a = b /\ f = g.
Proof.
  intros a b f g F1 F2 G1 G2 E. assert (a = b) as ->; [|split; auto; replace f with (qz b + f - qz b) by ring; rewrite E; ring].
  destruct (Z.lt_trichotomy a b) as [L|[L|L]]; auto; exfalso.
  - assert (a + 1 <= b)%Z as Q by lia. apply le_to in Q. rewrite qz_add, qz_1 in Q. qc_lra.
  - assert (b + 1 <= a)%Z as Q by lia. apply le_to in Q. rewrite qz_add, qz_1 in Q. qc_lra.
Qed.
Lemma fraction_unique : forall l k, (forall d, In d l -> (0 <= d < 10)%Z) -> (forall d, In d k -> (0 <= d < 10)%Z) ->
  (forall m d, l = m ++ [d] -> d <> 0%Z) -> (forall m d, k = m ++ [d] -> d <> 0%Z) -> fraction_value l = fraction_value k -> l = k.
Proof.
  assert (forall l, (forall d, In d l -> (0 <= d < 10)%Z) -> (forall m d, l = m ++ [d] -> d <> 0%Z) -> l <> [] -> fraction_value l <> 0) as NZ.
  { induction l as [|d l IH]; intros H T N E; [congruence|]. cbn [fraction_value] in E.
    destruct (fraction_bounds l) as [B1 B2]; [intros x Hx; apply H; now right|]. destruct (H d (or_introl eq_refl)) as [D1 D2]. apply le_to in D1. rewrite qz_0 in D1.
    assert (qz d + fraction_value l = 0) as E'. { replace (qz d + fraction_value l) with ((qz d + fraction_value l) / qz 10 * qz 10) by (field; discriminate). rewrite E. ring. }
    assert (qz d = 0) as Ed by (apply Qcle_antisym; qc_lra). assert (fraction_value l = 0) as El by (apply Qcle_antisym; qc_lra).
    destruct l as [|d' l].
    - apply (T [] d eq_refl). apply qz_inj. now rewrite qz_0.
    - apply IH in El; [exact El| | |discriminate].
      + intros x Hx. apply H. now right.
      + intros m x Ex. apply (T (d :: m) x). now rewrite Ex. }
  induction l as [|d l IH]; intros [|b k] H1 H2 T1 T2 E.
  - reflexivity.
  - exfalso. apply (NZ (b :: k)); auto; discriminate.
  - exfalso. apply (NZ (d :: l)); auto; discriminate.
  - cbn [fraction_value] in E.
    destruct (fraction_bounds l) as [B1 B2]; [intros x Hx; apply H1; now right|]. destruct (fraction_bounds k) as [C1 C2]; [intros x Hx; apply H2; now right|].
    assert (qz d + fraction_value l = qz b + fraction_value k) as E'.
    { replace (qz d + fraction_value l) with ((qz d + fraction_value l) / qz 10 * qz 10) by (field; discriminate). rewrite E. field. discriminate. }
    destruct (integer_part d b (fraction_value l) (fraction_value k) B1 B2 C1 C2 E') as [-> F]. f_equal. apply IH; auto.
    + intros x Hx. apply H1. now right.
    + intros x Hx. apply H2. now right.
    + intros m x Ex. apply (T1 (b :: m) x). now rewrite Ex.
    + intros m x Ex. apply (T2 (b :: m) x). now rewrite Ex.
Qed.
Theorem text_unique_proof : forall t u, tidy t -> tidy u -> tx_negative t = tx_negative u -> float_of_text t = float_of_text u -> t = u.
Proof.
  intros [n w f] [n' w' f'] (T1 & T2 & T3) (U1 & U2 & U3) N E. cbn [tx_negative tx_whole tx_fraction] in *. subst n'. unfold float_of_text in E. cbn [tx_negative tx_whole tx_fraction] in E.
  destruct (fraction_bounds f T2) as [B1 B2]. destruct (fraction_bounds f' U2) as [C1 C2].
  assert (qz w + fraction_value f = qz w' + fraction_value f') as E'.
  { destruct n; auto. replace (qz w + fraction_value f) with (- - (qz w + fraction_value f)) by ring. rewrite E. ring. }
  destruct (integer_part w w' _ _ B1 B2 C1 C2 E') as [-> F]. f_equal. now apply fraction_unique.
Qed.

(** numbers that already have no more decimals than are kept are printed exactly *)
Lemma exact_positional : forall x n k, (0 <= n)%Z -> Qcabs x * qz (10 ^ n) = qz k -> float_of_text (format_float_positional x n) = x.
Proof.
  intros x n k H E. destruct (positional_ok x n H) as (_ & _ & P3 & _ & P5 & _). unfold float_of_text. rewrite P5, P3, E, nearest_qz.
  assert (qz k / qz (10 ^ n) = Qcabs x) as ->. { rewrite <- E. field. apply lt_neq. now apply ten_pos. }
  destruct (Qcltb x 0) eqn:S; [apply Qcltb_lt in S|apply Qcltb_ge in S]; apply Qcle_antisym; qc_cases; qc_lra.
Qed.

Lemma abs_opp : forall x, Qcabs (- x) = Qcabs x. Proof. intros. apply Qcle_antisym; qc_cases; qc_lra. Qed.
Lemma abs_of_nn : forall x, 0 <= x -> Qcabs x = x. Proof. intros. apply Qcle_antisym; qc_cases; qc_lra. Qed.

(** integers from one upwards are printed as they are *)
Theorem integer_proof : forall k precision, (0 <= precision)%Z -> k <> 0%Z ->
  exists t, format_to_precision (qz k) precision = Ok t /\ float_of_text t = qz k /\ tx_fraction t = [].
Proof.
  intros k p H N. unfold format_to_precision. replace (p <? -1)%Z with false by (symmetry; apply Z.ltb_ge; lia).
  assert (Qcabs (qz k) = qz (Z.abs k)) as EA.
  { destruct (Z.abs_spec k) as [[L E]|[L E]]; rewrite E.
    - apply abs_of_nn. rewrite <- qz_0. now apply le_to.
    - assert (qz (- k) = - qz k) as EO. { assert (qz (- k) + qz k = 0) as Q by (rewrite <- qz_add, Z.add_opp_diag_l; apply qz_0). replace (qz (- k)) with (qz (- k) + qz k - qz k) by ring. rewrite Q. ring. }
      rewrite EO, <- abs_opp. apply abs_of_nn. rewrite <- EO, <- qz_0. apply le_to. lia. }
  assert (1 <= Qcabs (qz k)) as L1. { rewrite EA, <- qz_1. apply le_to. lia. }
  assert (1 / qz (10 ^ (p + 1)) < 1) as T.
  { assert (0 < (qz (10 ^ (p + 1)) - 1) / qz (10 ^ (p + 1))) as D.
    { apply div_pos; [|apply ten_pos; lia]. assert (1 < 10 ^ (p + 1))%Z as Q2 by (apply Z.pow_gt_1; lia). apply lt_to in Q2. rewrite qz_1 in Q2. qc_lra. }
    replace ((qz (10 ^ (p + 1)) - 1) / qz (10 ^ (p + 1))) with (1 - 1 / qz (10 ^ (p + 1))) in D by (field; apply lt_neq, ten_pos; lia). qc_lra. }
  replace (Qcleb (Qcabs (qz k)) (1 / qz (10 ^ (p + 1)))) with false by (symmetry; apply Qcleb_gt; qc_lra).
  assert (qz k <> 0) as NK. { intros E. apply N. apply qz_inj. now rewrite qz_0. }
  destruct (kept_ok (qz k) p NK) as [_ K0]; [lia|auto|]. set (n := new_precision (qz k) p) in *.
  assert (float_of_text (format_float_positional (qz k) n) = qz k) as EV.
  { apply (exact_positional (qz k) n (Z.abs k * 10 ^ n)); auto. rewrite EA, qz_mul. reflexivity. }
  eexists. split; [reflexivity|]. split; [exact EV|].
  destruct (positional_ok (qz k) n K0) as (P1 & _ & P3 & _).
  assert (format_float_positional (qz k) n = mkText (Qcltb (qz k) 0) (Z.abs k) []) as ->; [|reflexivity].
  apply text_unique_proof; [exact P1| |exact P3|].
  - split; [cbn; lia|]. split; [intros d []|]. intros [|a l] d E; discriminate E.
  - rewrite EV. unfold float_of_text. cbn [tx_negative tx_whole tx_fraction fraction_value]. rewrite <- EA.
    destruct (Qcltb (qz k) 0) eqn:S; [apply Qcltb_lt in S|apply Qcltb_ge in S]; apply Qcle_antisym; qc_cases; qc_lra.
Qed.

Lemma above_threshold : forall m n p, (0 <= n)%Z -> (n <= p)%Z -> (1 <= m)%Z -> 1 / qz (10 ^ (p + 1)) < qz m / qz (10 ^ n).
Proof.
  intros m n p K0 Np M1. pose proof (ten_pos n K0) as W.
  assert (1 / qz (10 ^ n) <= qz m / qz (10 ^ n)) as Q1.
  { assert (0 <= (qz m - 1) / qz (10 ^ n)) as Q by (apply div_nn; [|exact W]; apply le_to in M1; rewrite qz_1 in M1; qc_lra).
    replace ((qz m - 1) / qz (10 ^ n)) with (qz m / qz (10 ^ n) - 1 / qz (10 ^ n)) in Q by (field; now apply lt_neq). qc_lra. }
  assert (1 / qz (10 ^ (p + 1)) < 1 / qz (10 ^ n)) as Q2; [|qc_lra].
  assert (10 ^ (p + 1) = 10 ^ (p + 1 - n) * 10 ^ n)%Z as EP by (rewrite <- Z.pow_add_r by lia; f_equal; lia). rewrite EP, qz_mul.
  assert (1 < 10 ^ (p + 1 - n))%Z as Q3 by (apply Z.pow_gt_1; lia). apply lt_to in Q3. rewrite qz_1 in Q3. set (a := qz (10 ^ (p + 1 - n))) in *. clearbody a.
  assert (0 < (a - 1) / (a * qz (10 ^ n))) as Q by (apply div_pos; [qc_lra|apply mul_pos; [qc_lra|exact W]]).
  replace ((a - 1) / (a * qz (10 ^ n))) with (1 / qz (10 ^ n) - 1 / (a * qz (10 ^ n))) in Q; [qc_lra|].
  field. split; [now apply lt_neq|apply lt_neq; qc_lra].
Qed.
Lemma same_decimals : forall x y p n n' m, (0 <= n)%Z -> decimals_kept x p n -> decimals_kept y p n' -> m = nearest (Qcabs x * qz (10 ^ n)) ->
  Qcabs y = qz m / qz (10 ^ n) -> exists k, Qcabs y * qz (10 ^ n') = qz k.
Proof.
  intros x y p n n' m K0 K K' EM0 EA. pose proof (ten_pos n K0) as W.
    assert ((exists k, Qcabs y = qz k) \/ n' = n) as [[k Ek]|En].
      - destruct K as [[L En]|(e & He & L1 & L2 & En)].
        + assert (m <= 10 ^ n)%Z as LM. { rewrite EM0. apply nearest_high. assert (0 <= (1 - Qcabs x) * qz (10 ^ n)) as Q by (apply mul_nn; [qc_lra|now apply Qclt_le_weak]).
            replace ((1 - Qcabs x) * qz (10 ^ n)) with (qz (10 ^ n) - Qcabs x * qz (10 ^ n)) in Q by ring. qc_lra. }
          destruct (Z.eq_dec m (10 ^ n)) as [EM|EM].
          * left. exists 1%Z. rewrite EA, EM, qz_1. field. now apply lt_neq.
          * right. apply (kept_unique y p); [exact K'|]. left. split; [|exact En]. rewrite EA. assert (0 < (qz (10 ^ n) - qz m) / qz (10 ^ n)) as Q.
            { apply div_pos; [|exact W]. assert (m < 10 ^ n)%Z as Q by lia. apply lt_to in Q. qc_lra. }
            replace ((qz (10 ^ n) - qz m) / qz (10 ^ n)) with (1 - qz m / qz (10 ^ n)) in Q by (field; now apply lt_neq). qc_lra.
        + destruct (Z.le_gt_cases p e) as [Hpe|Hpe].
          * left. assert (n = 0)%Z as N0 by lia. exists m. rewrite EA, N0. change (10 ^ 0)%Z with 1%Z. rewrite qz_1. field. discriminate.
          * assert (n = p - e)%Z as En' by lia.
            assert (10 ^ (e + n) <= m)%Z as LM1. { rewrite EM0. apply nearest_low. rewrite Z.pow_add_r, qz_mul by lia. apply Qcmult_le_compat_r; [exact L1|now apply Qclt_le_weak]. }
            assert (m <= 10 ^ (e + 1 + n))%Z as LM2. { rewrite EM0. apply nearest_high. rewrite (Z.pow_add_r _ (e + 1) n), qz_mul by lia. apply Qcmult_le_compat_r; now apply Qclt_le_weak. }
            destruct (Z.eq_dec m (10 ^ (e + 1 + n))) as [EM|EM].
            -- left. exists (10 ^ (e + 1))%Z. rewrite EA, EM, (Z.pow_add_r _ (e + 1) n), qz_mul by lia. field. now apply lt_neq.
            -- right. apply (kept_unique y p); [exact K'|]. right. exists e. split; [exact He|]. rewrite EA.
               assert (m < 10 ^ (e + 1 + n))%Z as LM3 by lia. apply le_to in LM1. apply lt_to in LM3. rewrite Z.pow_add_r, qz_mul in LM1 by lia. rewrite (Z.pow_add_r _ (e + 1) n), qz_mul in LM3 by lia.
               split; [|split; [|exact En]].
               ++ assert (0 <= (qz m - qz (10 ^ e) * qz (10 ^ n)) / qz (10 ^ n)) as Q by (apply div_nn; [qc_lra|exact W]).
                  replace ((qz m - qz (10 ^ e) * qz (10 ^ n)) / qz (10 ^ n)) with (qz m / qz (10 ^ n) - qz (10 ^ e)) in Q by (field; now apply lt_neq). qc_lra.
               ++ assert (0 < (qz (10 ^ (e + 1)) * qz (10 ^ n) - qz m) / qz (10 ^ n)) as Q by (apply div_pos; [qc_lra|exact W]).
                  replace ((qz (10 ^ (e + 1)) * qz (10 ^ n) - qz m) / qz (10 ^ n)) with (qz (10 ^ (e + 1)) - qz m / qz (10 ^ n)) in Q by (field; now apply lt_neq). qc_lra.
      - exists (k * 10 ^ n')%Z. rewrite Ek, qz_mul. reflexivity.
      - exists m. rewrite En, EA. field. now apply lt_neq. 
Qed.
(** formatting twice *)
Theorem idempotent_proof : forall x precision t, (0 <= precision)%Z -> format_to_precision x precision = Ok t ->
  exists u, format_to_precision (float_of_text t) precision = Ok u /\ float_of_text u = float_of_text t /\
    (float_of_text t <> 0 -> u = t).
Proof.
  intros x p t H E. unfold format_to_precision in E. replace (p <? -1)%Z with false in E by (symmetry; apply Z.ltb_ge; lia).
  assert (format_to_precision 0 p = Ok (mkText false 0 [])) as E0.
  { unfold format_to_precision. replace (p <? -1)%Z with false by (symmetry; apply Z.ltb_ge; lia).
    destruct (threshold p H) as [T1 _]. pose proof abs_0 as Z0. rewrite Z0.
    replace (Qcleb 0 (1 / qz (10 ^ (p + 1)))) with true by (symmetry; apply Qcleb_le; qc_lra). reflexivity. }
  destruct (Qcleb (Qcabs x) (1 / qz (10 ^ (p + 1)))) eqn:C.
  - assert (t = mkText false 0 []) as -> by congruence. rewrite zero_value. exists (mkText false 0 []). split; [exact E0|]. split; [apply zero_value|]. intros X. congruence.
  - apply Qcleb_gt in C. assert (t = format_float_positional x (new_precision x p)) as -> by congruence. clear E.
    assert (x <> 0) as N.
    { intros ->. destruct (threshold p H) as [T1 _]. pose proof abs_0 as Z0. rewrite Z0 in C. qc_lra. }
    destruct (kept_ok x p N) as [K K0]; [lia|auto|]. set (n := new_precision x p) in *.
    destruct (positional_ok x n K0) as (P1 & P2 & P3 & P4 & P5 & P6). set (m := nearest (Qcabs x * qz (10 ^ n))) in *.
    set (t := format_float_positional x n) in *. pose proof (ten_pos n K0) as W.
    assert (float_of_text t = (if Qcltb x 0 then - (qz m / qz (10 ^ n)) else qz m / qz (10 ^ n))) as EV by (unfold float_of_text; now rewrite P5, P3).
    set (y := float_of_text t) in *.
    assert (Qcabs y = qz m / qz (10 ^ n)) as EA.
    { rewrite EV. assert (0 <= qz m / qz (10 ^ n)) as Q by (apply div_nn; [rewrite <- qz_0; now apply le_to|exact W]). destruct (Qcltb x 0); [rewrite abs_opp|]; now apply abs_of_nn. }
    destruct (Z.eq_dec m 0) as [M0|M0].
    { assert (y = 0) as ->. { rewrite EV, M0, qz_0. destruct (Qcltb x 0); field; now apply lt_neq. } exists (mkText false 0 []). split; [exact E0|]. split; [apply zero_value|]. intros X. congruence. }
    assert (1 <= m)%Z as M1 by lia.
    assert (y <> 0) as NY. { intros E. rewrite E in EA. pose proof abs_0 as Z0. rewrite Z0 in EA.
      assert (0 < qz m / qz (10 ^ n)) as Q by (apply div_pos; [rewrite <- qz_0; apply lt_to; lia|exact W]). rewrite <- EA in Q. revert Q. apply Qcle_not_lt, Qcle_refl. }
    assert (n <= p)%Z as Np. { destruct K as [[_ ->]|(e & K1 & _ & _ & ->)]; lia. }
    (* it is above the threshold *)
    unfold format_to_precision. replace (p <? -1)%Z with false by (symmetry; apply Z.ltb_ge; lia).
    assert (1 / qz (10 ^ (p + 1)) < Qcabs y) as TH by (rewrite EA; now apply above_threshold).
    replace (Qcleb (Qcabs y) (1 / qz (10 ^ (p + 1)))) with false by (symmetry; now apply Qcleb_gt).
    (* an integer, or with the same number of decimals *)
    destruct (kept_ok y p NY) as [K' K0']; [lia|auto|]. set (n' := new_precision y p) in *.
    destruct (same_decimals x y p n n' m K0 K K' eq_refl EA) as [k Ek].
    pose proof (exact_positional y n' k K0' Ek) as EX. eexists. split; [reflexivity|]. split; [exact EX|]. intros _.
    destruct (positional_ok y n' K0') as (P1' & _ & P3' & _). apply text_unique_proof; auto. rewrite P3', P3.
    assert (0 < qz m / qz (10 ^ n)) as Q by (apply div_pos; [rewrite <- qz_0; apply lt_to; lia|exact W]).
    destruct (Qcltb x 0) eqn:S.
    + apply Qcltb_lt. rewrite EV. qc_lra.
    + apply Qcltb_ge. rewrite EV. qc_lra.
Qed.

(** the sign survives: a small negative number is printed as "-0" *)
Theorem minus_zero_refuted_proof : exists x precision t u, (0 <= precision)%Z /\ format_to_precision x precision = Ok t /\
  format_to_precision (float_of_text t) precision = Ok u /\ u <> t.
Proof.
  exists (- qc 4 1000), 2%Z, (mkText true 0 []), (mkText false 0 []). split; [lia|]. split; [vm_compute; reflexivity|]. split; [vm_compute; reflexivity|discriminate].
Qed.
(** precision -1 is accepted, and prints one as zero *)
Theorem precision_refuted_proof : exists x t, format_to_precision x (-1) = Ok t /\ float_of_text t = 0 /\ x = 1.
Proof. exists 1, (mkText false 0 []). split; [vm_compute; reflexivity|]. split; [apply zero_value|reflexivity]. Qed.

(** ** whole results *)
Section TreeInd.
Variable P : tree -> Prop.
Hypothesis Hm : forall l, Forall (fun kv => P (snd kv)) l -> P (TModel l).
Hypothesis Hd : forall l, Forall (fun kv => P (snd kv)) l -> P (TDict l).
Hypothesis Hl : forall l, Forall P l -> P (TList l).
Hypothesis Hf : forall x, P (TFloat x).
Hypothesis Ho : forall n, P (TOther n).
Fixpoint tree_induction (t : tree) : P t :=
  let entries := fix entries (l : list (string * tree)) : Forall (fun kv => P (snd kv)) l :=
    match l with [] => Forall_nil _ | kv :: r => Forall_cons kv (tree_induction (snd kv)) (entries r) end in
  let items := fix items (l : list tree) : Forall P l :=
    match l with [] => Forall_nil _ | v :: r => Forall_cons v (tree_induction v) (items r) end in
  match t with
  | TModel l => Hm l (entries l) | TDict l => Hd l (entries l) | TList l => Hl l (items l) | TFloat x => Hf x | TOther n => Ho n
  end.
End TreeInd.

Theorem results_proof : forall precision t, (0 <= precision)%Z ->
  exists t', round_tree precision t = Ok t' /\ rounded precision t t' /\ round_tree precision t' = Ok t'.
Proof.
  intros p t H. induction t as [l F|l F|l F|x|n] using tree_induction.
  - assert (exists l', (fix entries_of (l : list (string * tree)) : result (list (string * tree)) :=
      match l with [] => Ok [] | (k, v) :: r => do v' <- round_tree p v; do r' <- entries_of r; Ok ((k, v') :: r') end) l = Ok l' /\
      Forall2 (fun a b => fst a = fst b /\ rounded p (snd a) (snd b)) l l' /\
      (fix entries_of (l : list (string * tree)) : result (list (string * tree)) :=
      match l with [] => Ok [] | (k, v) :: r => do v' <- round_tree p v; do r' <- entries_of r; Ok ((k, v') :: r') end) l' = Ok l') as (l' & E & R & E').
    { induction F as [|[k v] r (v' & E1 & R1 & E1') F' (r' & E2 & R2 & E2')]; [exists []; auto|].
      exists ((k, v') :: r'). cbn [snd] in *. rewrite E1. cbn [bind]. rewrite E2. cbn [bind]. split; [reflexivity|]. split; [constructor; auto|]. rewrite E1'. cbn [bind]. rewrite E2'. reflexivity. }
    exists (TModel l'). cbn [round_tree]. rewrite E. cbn [bind]. split; [reflexivity|]. split; [now constructor|]. rewrite E'. reflexivity.
  - assert (exists l', (fix entries_of (l : list (string * tree)) : result (list (string * tree)) :=
      match l with [] => Ok [] | (k, v) :: r => do v' <- round_tree p v; do r' <- entries_of r; Ok ((k, v') :: r') end) l = Ok l' /\
      Forall2 (fun a b => fst a = fst b /\ rounded p (snd a) (snd b)) l l' /\
      (fix entries_of (l : list (string * tree)) : result (list (string * tree)) :=
      match l with [] => Ok [] | (k, v) :: r => do v' <- round_tree p v; do r' <- entries_of r; Ok ((k, v') :: r') end) l' = Ok l') as (l' & E & R & E').
    { induction F as [|[k v] r (v' & E1 & R1 & E1') F' (r' & E2 & R2 & E2')]; [exists []; auto|].
      exists ((k, v') :: r'). cbn [snd] in *. rewrite E1. cbn [bind]. rewrite E2. cbn [bind]. split; [reflexivity|]. split; [constructor; auto|]. rewrite E1'. cbn [bind]. rewrite E2'. reflexivity. }
    exists (TDict l'). cbn [round_tree]. rewrite E. cbn [bind]. split; [reflexivity|]. split; [now constructor|]. rewrite E'. reflexivity.
  - assert (exists l', (fix items_of (l : list tree) : result (list tree) :=
      match l with [] => Ok [] | v :: r => do v' <- round_tree p v; do r' <- items_of r; Ok (v' :: r') end) l = Ok l' /\
      Forall2 (rounded p) l l' /\
      (fix items_of (l : list tree) : result (list tree) :=
      match l with [] => Ok [] | v :: r => do v' <- round_tree p v; do r' <- items_of r; Ok (v' :: r') end) l' = Ok l') as (l' & E & R & E').
    { induction F as [|v r (v' & E1 & R1 & E1') F' (r' & E2 & R2 & E2')]; [exists []; auto|].
      exists (v' :: r'). rewrite E1. cbn [bind]. rewrite E2. cbn [bind]. split; [reflexivity|]. split; [constructor; auto|]. rewrite E1'. cbn [bind]. rewrite E2'. reflexivity. }
    exists (TList l'). cbn [round_tree]. rewrite E. cbn [bind]. split; [reflexivity|]. split; [now constructor|]. rewrite E'. reflexivity.
  - destruct (format_proof x p H) as (s & E & _). destruct (idempotent_proof x p s H E) as (u & Eu & Vu & _).
    exists (TFloat (float_of_text s)). cbn [round_tree]. rewrite E. cbn [bind]. split; [reflexivity|]. split; [now constructor|]. rewrite Eu. cbn [bind]. now rewrite Vu.
  - exists (TOther n). split; [reflexivity|]. split; [constructor|reflexivity].
Qed.

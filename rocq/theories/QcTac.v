(** Automation for the canonical rationals [Qc] of the standard library:
    linear and polynomial arithmetic is discharged by translating to [Q]. *)
From Coq Require Export QArith Qcanon Qabs Lqa.
From Coq Require Import ZArith List Bool Lia Psatz.

Lemma Qc_eq_Qeq : forall x y : Qc, x = y <-> (this x == this y)%Q.
Proof.
  intros x y; split; intros H.
  - now rewrite H.
  - now apply Qc_is_canon.
Qed.

Lemma this_plus : forall x y : Qc, (this (x + y)%Qc == this x + this y)%Q.
Proof. intros x y; unfold Qcplus, Q2Qc; cbn [this]; apply Qred_correct. Qed.
Lemma this_mult : forall x y : Qc, (this (x * y)%Qc == this x * this y)%Q.
Proof. intros x y; unfold Qcmult, Q2Qc; cbn [this]; apply Qred_correct. Qed.
Lemma this_opp : forall x : Qc, (this (- x)%Qc == - this x)%Q.
Proof. intros x; unfold Qcopp, Q2Qc; cbn [this]; apply Qred_correct. Qed.
Lemma this_minus : forall x y : Qc, (this (x - y)%Qc == this x - this y)%Q.
Proof. intros x y; unfold Qcminus; rewrite this_plus, this_opp; reflexivity. Qed.
Lemma this_inv : forall x : Qc, (this (/ x)%Qc == / this x)%Q.
Proof. intros x; unfold Qcinv, Q2Qc; cbn [this]; apply Qred_correct. Qed.
Lemma this_div : forall x y : Qc, (this (x / y)%Qc == this x / this y)%Q.
Proof. intros x y; unfold Qcdiv; rewrite this_mult, this_inv; reflexivity. Qed.
Lemma this_Q2Qc : forall q : Q, (this (Q2Qc q) == q)%Q.
Proof. intros q; unfold Q2Qc; cbn [this]; apply Qred_correct. Qed.

Lemma Qclt_this : forall x y : Qc, (x < y)%Qc <-> (this x < this y)%Q.
Proof. intros; reflexivity. Qed.
Lemma Qcle_this : forall x y : Qc, (x <= y)%Qc <-> (this x <= this y)%Q.
Proof. intros; reflexivity. Qed.

Ltac qc_push :=
  repeat match goal with
  | |- context [this (Qcplus ?x ?y)] => rewrite (this_plus x y)
  | |- context [this (Qcminus ?x ?y)] => rewrite (this_minus x y)
  | |- context [this (Qcmult ?x ?y)] => rewrite (this_mult x y)
  | |- context [this (Qcopp ?x)] => rewrite (this_opp x)
  | |- context [this (Qcdiv ?x ?y)] => rewrite (this_div x y)
  | |- context [this (Qcinv ?x)] => rewrite (this_inv x)
  | |- context [this (Q2Qc ?x)] => rewrite (this_Q2Qc x)
  | H : context [this (Qcplus ?x ?y)] |- _ => rewrite (this_plus x y) in H
  | H : context [this (Qcminus ?x ?y)] |- _ => rewrite (this_minus x y) in H
  | H : context [this (Qcmult ?x ?y)] |- _ => rewrite (this_mult x y) in H
  | H : context [this (Qcopp ?x)] |- _ => rewrite (this_opp x) in H
  | H : context [this (Qcdiv ?x ?y)] |- _ => rewrite (this_div x y) in H
  | H : context [this (Qcinv ?x)] |- _ => rewrite (this_inv x) in H
  | H : context [this (Q2Qc ?x)] |- _ => rewrite (this_Q2Qc x) in H
  end.

(** translate every [Qc] hypothesis and the goal to [Q] *)
Ltac qc_to_q :=
  repeat match goal with
  | H : not (@eq Qc _ _) |- _ => rewrite Qc_eq_Qeq in H
  | H : @eq Qc _ _ |- _ => rewrite Qc_eq_Qeq in H
  | H : not (Qclt _ _) |- _ => apply Qcnot_lt_le in H
  | H : not (Qcle _ _) |- _ => apply Qcnot_le_lt in H
  end;
  match goal with
  | |- not (@eq Qc _ _) => rewrite Qc_eq_Qeq
  | |- @eq Qc _ _ => rewrite Qc_eq_Qeq
  | |- not (Qclt _ _) => apply Qcle_not_lt
  | |- not (Qcle _ _) => apply Qclt_not_le
  | |- _ => idtac
  end;
  unfold Qclt, Qcle in *;
  qc_push.

Ltac qc_lra := qc_to_q; lra.
Ltac qc_nra := qc_to_q; nra.

(** decidable comparisons as booleans *)
Definition Qcltb (x y : Qc) : bool := if Qclt_le_dec x y then true else false.
Definition Qcleb (x y : Qc) : bool := if Qclt_le_dec y x then false else true.
Definition Qceqb (x y : Qc) : bool := if Qc_eq_dec x y then true else false.

Lemma Qcltb_lt : forall x y, Qcltb x y = true <-> (x < y)%Qc.
Proof.
  intros x y; unfold Qcltb; destruct (Qclt_le_dec x y) as [H|H]; split; intros H'; try easy.
  exfalso; now apply (Qcle_not_lt _ _ H).
Qed.
Lemma Qcltb_ge : forall x y, Qcltb x y = false <-> (y <= x)%Qc.
Proof.
  intros x y; unfold Qcltb; destruct (Qclt_le_dec x y) as [H|H]; split; intros H'; try easy.
  exfalso; now apply (Qcle_not_lt _ _ H').
Qed.
Lemma Qcleb_le : forall x y, Qcleb x y = true <-> (x <= y)%Qc.
Proof.
  intros x y; unfold Qcleb; destruct (Qclt_le_dec y x) as [H|H]; split; intros H'; try easy.
  exfalso; now apply (Qcle_not_lt _ _ H').
Qed.
Lemma Qcleb_gt : forall x y, Qcleb x y = false <-> (y < x)%Qc.
Proof.
  intros x y; unfold Qcleb; destruct (Qclt_le_dec y x) as [H|H]; split; intros H'; try easy.
  exfalso; now apply (Qcle_not_lt _ _ H).
Qed.
Lemma Qceqb_eq : forall x y, Qceqb x y = true <-> x = y.
Proof. intros x y; unfold Qceqb; destruct (Qc_eq_dec x y); split; intros; easy. Qed.
Lemma Qceqb_neq : forall x y, Qceqb x y = false <-> x <> y.
Proof. intros x y; unfold Qceqb; destruct (Qc_eq_dec x y); split; intros; easy. Qed.

Definition Qcmax (x y : Qc) : Qc := if Qcleb x y then y else x.
Definition Qcmin (x y : Qc) : Qc := if Qcleb x y then x else y.
Definition Qcabs (x : Qc) : Qc := if Qcleb 0 x then x else (- x)%Qc.

(** case split on every boolean [Qc] comparison in sight *)
Ltac qc_cases :=
  unfold Qcmax, Qcmin, Qcabs in *;
  repeat match goal with
  | |- context [Qcltb ?x ?y] => let E := fresh "E" in destruct (Qcltb x y) eqn:E;
        [apply Qcltb_lt in E | apply Qcltb_ge in E]
  | |- context [Qcleb ?x ?y] => let E := fresh "E" in destruct (Qcleb x y) eqn:E;
        [apply Qcleb_le in E | apply Qcleb_gt in E]
  | |- context [Qceqb ?x ?y] => let E := fresh "E" in destruct (Qceqb x y) eqn:E;
        [apply Qceqb_eq in E | apply Qceqb_neq in E]
  | H : context [Qcltb ?x ?y] |- _ => let E := fresh "E" in destruct (Qcltb x y) eqn:E;
        [apply Qcltb_lt in E | apply Qcltb_ge in E]
  | H : context [Qcleb ?x ?y] |- _ => let E := fresh "E" in destruct (Qcleb x y) eqn:E;
        [apply Qcleb_le in E | apply Qcleb_gt in E]
  | H : context [Qceqb ?x ?y] |- _ => let E := fresh "E" in destruct (Qceqb x y) eqn:E;
        [apply Qceqb_eq in E | apply Qceqb_neq in E]
  end.

(** literals: [qc n d] is the rational n/d *)
Definition qc (n : Z) (d : positive) : Qc := Q2Qc (n # d).
Definition qz (n : Z) : Qc := Q2Qc (inject_Z n).

Lemma this_qz : forall n, (this (qz n) == inject_Z n)%Q.
Proof. intros; apply this_Q2Qc. Qed.

Lemma qz_plus : forall a b, qz (a + b) = (qz a + qz b)%Qc.
Proof. intros; apply Qc_is_canon; rewrite this_plus, !this_qz; rewrite inject_Z_plus; reflexivity. Qed.
Lemma qz_minus : forall a b, qz (a - b) = (qz a - qz b)%Qc.
Proof.
  intros; apply Qc_is_canon; rewrite this_minus, !this_qz. unfold Z.sub.
  rewrite inject_Z_plus, inject_Z_opp; reflexivity.
Qed.
Lemma qz_mult : forall a b, qz (a * b) = (qz a * qz b)%Qc.
Proof. intros; apply Qc_is_canon; rewrite this_mult, !this_qz; rewrite inject_Z_mult; reflexivity. Qed.
Lemma qz_lt : forall a b, (a < b)%Z <-> (qz a < qz b)%Qc.
Proof. intros; rewrite Qclt_this, !this_qz; rewrite Zlt_Qlt; reflexivity. Qed.
Lemma qz_le : forall a b, (a <= b)%Z <-> (qz a <= qz b)%Qc.
Proof. intros; rewrite Qcle_this, !this_qz; rewrite Zle_Qle; reflexivity. Qed.
Lemma qz_inj : forall a b, qz a = qz b -> a = b.
Proof.
  intros a b H; apply Qc_eq_Qeq in H; rewrite !this_qz in H.
  unfold Qeq, inject_Z in H; cbn in H; lia.
Qed.
Lemma qz_0 : qz 0 = 0%Qc. Proof. reflexivity. Qed.
Lemma qz_1 : qz 1 = 1%Qc. Proof. reflexivity. Qed.

Example qc_lra_test : forall x y : Qc, (x < y)%Qc -> (0 <= x)%Qc -> (x + x < y + y + 1)%Qc.
Proof. intros; qc_lra. Qed.

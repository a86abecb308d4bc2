(** Proofs about the boolean maximisation helper and the tolerant comparison. *)
From Coq Require Import List Bool ZArith Lia.
From Verif Require Import QcTac Search_Model Search_Spec Search_Proofs.
Import ListNotations.
Open Scope Qc_scope.

Lemma Qcabs_nonneg : forall x, 0 <= Qcabs x.
Proof.
  intros x; unfold Qcabs; destruct (Qcleb 0 x) eqn:E.
  - apply Qcleb_le; assumption.
  - apply Qcleb_gt in E. qc_lra.
Qed.
Lemma Qcabs_of_nonneg : forall x, 0 <= x -> Qcabs x = x.
Proof. intros x H; unfold Qcabs. apply Qcleb_le in H. rewrite H. reflexivity. Qed.

Lemma max2_pos : forall a b, a <> b -> 0 < Qcmax (Qcabs a) (Qcabs b).
Proof.
  intros a b H. destruct (Qclt_le_dec 0 (Qcmax (Qcabs a) (Qcabs b))) as [|Hle]; [assumption|].
  exfalso. apply H.
  unfold Qcmax, Qcabs in Hle.
  destruct (Qcleb 0 a) eqn:Ea; destruct (Qcleb 0 b) eqn:Eb;
  match type of Hle with context [Qcleb ?x ?y] => destruct (Qcleb x y) eqn:Ec end;
  repeat match goal with
  | E : Qcleb _ _ = true |- _ => apply Qcleb_le in E
  | E : Qcleb _ _ = false |- _ => apply Qcleb_gt in E
  end; qc_lra.
Qed.

Lemma div_le_mul : forall a b c, 0 < b -> a / b <= c -> a <= c * b.
Proof.
  intros a b c Hb H.
  assert (E : a = (a / b) * b) by (field; intros E; subst b; revert Hb; apply Qcle_not_lt; apply Qcle_refl).
  rewrite E. apply Qcmult_le_compat_r; [assumption | apply Qclt_le_weak; assumption].
Qed.

(** the relative distance that stops the loop *)
Definition max_rel (x0 x1 : Qc) : Qc :=
  if Qceqb x0 x1 then 0 else Qcabs (x1 - x0) / Qcmax (Qcabs x0) (Qcabs x1).

Lemma max_rel_nonneg : forall x0 x1, 0 <= max_rel x0 x1.
Proof.
  intros x0 x1; unfold max_rel. destruct (Qceqb x0 x1) eqn:E; [apply Qcle_refl|].
  apply Qceqb_neq in E. pose proof (max2_pos _ _ E) as Hp.
  destruct (Qclt_le_dec (Qcabs (x1 - x0) / Qcmax (Qcabs x0) (Qcabs x1)) 0) as [H|]; [|assumption].
  exfalso. apply (div_lt_mul _ _ _ Hp) in H.
  pose proof (Qcabs_nonneg (x1 - x0)) as H2. apply (Qclt_not_le _ _ H).
  assert (E0 : 0 * Qcmax (Qcabs x0) (Qcabs x1) = 0) by ring. rewrite E0. exact H2.
Qed.

Lemma max_rel_le : forall tol x0 x1, 0 <= tol -> x0 <= x1 -> Qcabs (max_rel x0 x1) <= tol ->
  x1 - x0 <= tol * Qcmax (Qcabs x0) (Qcabs x1).
Proof.
  intros tol x0 x1 Ht Hle H. rewrite Qcabs_of_nonneg in H by apply max_rel_nonneg.
  unfold max_rel in H. destruct (Qceqb x0 x1) eqn:E.
  - apply Qceqb_eq in E. subst x1.
    assert (E0 : x0 - x0 = 0) by ring. rewrite E0.
    assert (Hm : 0 <= Qcmax (Qcabs x0) (Qcabs x0)).
    { unfold Qcmax. destruct (Qcleb _ _); apply Qcabs_nonneg. }
    generalize dependent (Qcmax (Qcabs x0) (Qcabs x0)). intros m Hm. qc_nra.
  - apply Qceqb_neq in E. pose proof (max2_pos _ _ E) as Hp.
    apply (div_le_mul _ _ _ Hp) in H. rewrite Qcabs_of_nonneg in H; [exact H|]. qc_lra.
Qed.

Lemma maximize_loop_invariant : forall (St : Type) (p : Qc -> bool) tol (I : Qc -> Qc -> Prop),
  0 <= tol ->
  (forall x0 x1, x0 <= x1 -> I x0 x1 ->
     let x2 := (x0 + x1) / qz 2 in
     I (if p x2 then x2 else x0) (if p x2 then x1 else x2)) ->
  forall n rel x0 x1 (s : St), x0 <= x1 -> I x0 x1 ->
  (Qcabs rel <= tol -> x1 - x0 <= tol * Qcmax (Qcabs x0) (Qcabs x1)) ->
  exists y1 y0,
    maximize_loop (pure_call p) tol n rel x0 x1 s = (Return y0, s) /\ I y0 y1 /\
    x0 <= y0 /\ y1 <= x1 /\ small_relative tol n x0 x1 y0 y1.
Proof.
  intros St p tol I Ht Hstep n; induction n as [|n IH]; intros rel x0 x1 s Hle HI Hrel; cbn [maximize_loop].
  - exists x1, x0. split; [reflexivity|]. split; [assumption|]. split; [apply Qcle_refl|]. split; [apply Qcle_refl|].
    split; [assumption|]. right. cbn [Qcpower]. field. discriminate.
  - destruct (Qcltb tol (Qcabs rel)) eqn:Et.
    + set (x2 := (x0 + x1) / qz 2). unfold bind, pure_call at 1; cbn [ret].
      pose proof (half_between x0 x1 Hle) as [Hx0 Hx1]. fold x2 in Hx0, Hx1.
      specialize (Hstep x0 x1 Hle HI) as HI'. cbv zeta in HI'. fold x2 in HI'.
      set (y0 := if p x2 then x2 else x0) in *. set (y1 := if p x2 then x1 else x2) in *.
      assert (Hy : x0 <= y0 /\ y0 <= y1 /\ y1 <= x1).
      { unfold y0, y1; destruct (p x2); repeat split; try assumption; apply Qcle_refl. }
      destruct Hy as [Hy0 [Hy01 Hy1]].
      assert (Hw : y1 - y0 = (x1 - x0) / qz 2).
      { unfold y0, y1; destruct (p x2); [apply half_width_lo | apply half_width_hi]. }
      destruct (IH (max_rel y0 y1) y0 y1 s Hy01 HI' (max_rel_le tol y0 y1 Ht Hy01))
        as [z1 [z0 [E [Hz [H0 [H1 [H2 H3]]]]]]].
      exists z1, z0. split; [exact E|]. split; [assumption|].
      split; [eapply Qcle_trans; eassumption|]. split; [eapply Qcle_trans; eassumption|].
      split; [assumption|]. destruct H3 as [H3|H3]; [left; assumption|right].
      rewrite H3, Hw. cbn [Qcpower]. field. split; [|discriminate].
      intros E0. pose proof (pow2_pos n) as Hp. rewrite E0 in Hp. discriminate Hp.
    + apply Qcltb_ge in Et. exists x1, x0. split; [reflexivity|]. split; [assumption|].
      split; [apply Qcle_refl|]. split; [apply Qcle_refl|]. split; [assumption|].
      left. apply Hrel. assumption.
Qed.

Lemma Qcabs_100 : Qcabs (qz 100) = qz 100.
Proof. reflexivity. Qed.

(** any condition: the result is the lower end or a point where it holds *)
Lemma maximize_x_any : forall (St : Type) (p : Qc -> bool) x_min x_max tol n (s : St),
  x_min <= x_max -> 0 <= tol -> tol < qz 100 ->
  exists x, maximize_x x_min x_max (pure_call p) tol n s = (Return x, s) /\
    x_min <= x /\ x <= x_max /\ (x = x_min \/ p x = true) /\
    exists y, (y = x_max \/ p y = false) /\ y <= x_max /\ small_relative tol (S n) x_min x_max x y.
Proof.
  intros St p x_min x_max tol n s Hle Ht Ht100.
  destruct (maximize_loop_invariant St p tol
    (fun x0 x1 => (x0 = x_min \/ p x0 = true) /\ (x1 = x_max \/ p x1 = false)) Ht) with
    (n := S n) (rel := qz 100) (x0 := x_min) (x1 := x_max) (s := s)
    as [y [x [E [[H0 H1] [Hx [Hy Hs]]]]]].
  - intros x0 x1 Hl [H0 H1] x2. destruct (p x2) eqn:Ep; split; auto.
  - assumption.
  - split; left; reflexivity.
  - intros H. rewrite Qcabs_100 in H. exfalso. apply (Qclt_not_le _ _ Ht100). exact H.
  - exists x. split; [exact E|]. split; [assumption|].
    split; [destruct Hs as [Hs _]; eapply Qcle_trans; eassumption|].
    split; [assumption|]. exists y. split; [assumption|]. split; assumption.
Qed.

(** a condition that holds up to a threshold *)
Lemma maximize_x_threshold : forall (St : Type) (p : Qc -> bool) threshold x_min x_max tol n (s : St),
  x_min <= x_max -> 0 <= tol -> tol < qz 100 ->
  switches_off p threshold -> x_min <= threshold ->
  exists x y, maximize_x x_min x_max (pure_call p) tol n s = (Return x, s) /\
    p x = true /\ x_min <= x /\ x <= threshold /\ x <= x_max /\
    (threshold < y \/ y = x_max) /\ small_relative tol (S n) x_min x_max x y.
Proof.
  intros St p threshold x_min x_max tol n s Hle Ht Ht100 Hp Hthr.
  destruct (maximize_x_any St p x_min x_max tol n s Hle Ht Ht100)
    as [x [E [Hx0 [Hx1 [Hx [y [Hy [_ Hs]]]]]]]].
  assert (Hpx : p x = true).
  { destruct Hx as [->|Hx]; [apply Hp; assumption|assumption]. }
  exists x, y. split; [exact E|]. split; [assumption|]. split; [assumption|].
  split; [apply Hp; assumption|]. split; [assumption|].
  split; [|assumption]. destruct Hy as [->|Hy]; [right; reflexivity|left].
  apply Qcnot_le_lt. intros H. apply Hp in H. congruence.
Qed.

(** number and place of the evaluations *)
Lemma maximize_loop_recorded : forall f tol n rel x0 x1 seen,
  x0 <= x1 ->
  exists new, snd (maximize_loop (recorded f) tol n rel x0 x1 seen) = seen ++ new /\
    (length new <= n)%nat /\ Forall (fun x => x0 <= x /\ x <= x1) new.
Proof.
  intros f tol n; induction n as [|n IH]; intros rel x0 x1 seen Hle; cbn [maximize_loop].
  - exists []. rewrite app_nil_r. split; [reflexivity|]. split; [apply le_n|constructor].
  - destruct (Qcltb tol (Qcabs rel)).
    2:{ exists []. rewrite app_nil_r. split; [reflexivity|]. split; [cbn [length]; lia|constructor]. }
    set (x2 := (x0 + x1) / qz 2). pose proof (half_between x0 x1 Hle) as [Hx0 Hx1]. fold x2 in Hx0, Hx1.
    unfold bind, recorded at 1. destruct (f x2) as [ok|e].
    2:{ exists [x2]. split; [reflexivity|]. split; [cbn [length]; lia|]. constructor; [split; assumption|constructor]. }
    cbn [fst snd].
    set (y0 := if ok then x2 else x0) in *. set (y1 := if ok then x1 else x2) in *.
    assert (Hy : x0 <= y0 /\ y0 <= y1 /\ y1 <= x1).
    { unfold y0, y1; destruct ok; repeat split; try assumption; apply Qcle_refl. }
    destruct Hy as [Hy0 [Hy01 Hy1]].
    match goal with |- context [maximize_loop _ _ _ ?r y0 y1 _] =>
      destruct (IH r y0 y1 (seen ++ [x2]) Hy01) as [new [Hs [Hl Hin]]] end.
    exists (x2 :: new). split; [rewrite Hs, <- app_assoc; reflexivity|].
    split; [cbn [length]; lia|]. constructor; [split; assumption|].
    eapply Forall_impl; [|exact Hin]. intros a [Ha Hb]; split; eapply Qcle_trans; eassumption.
Qed.

Lemma maximize_x_bounded : forall f x_min x_max tol n,
  x_min <= x_max ->
  let seen := snd (maximize_x x_min x_max (recorded f) tol n []) in
  (length seen <= S n)%nat /\ Forall (fun x => x_min <= x /\ x <= x_max) seen.
Proof.
  intros f x_min x_max tol n Hle.
  destruct (maximize_loop_recorded f tol (S n) (qz 100) x_min x_max [] Hle) as [new [Hs [Hl Hin]]].
  cbv zeta. unfold maximize_x. rewrite Hs. split; assumption.
Qed.

(** it does not look at the lower end: a condition that never holds still gets an answer *)
Lemma maximize_x_infeasible : exists (p : Qc -> bool) (x_min x_max x : Qc),
  x_min < x_max /\
  maximize_x x_min x_max (pure_call p) default_tolerance 50 tt = (Return x, tt) /\ p x = false.
Proof.
  exists (fun _ => false), (qz 1), (qz 2), (qz 1).
  split; [reflexivity|]. split; [|reflexivity].
  destruct (maximize_loop_invariant unit (fun _ => false) default_tolerance
    (fun x0 x1 => x0 = qz 1)) with
    (n := 51%nat) (rel := qz 100) (x0 := qz 1) (x1 := qz 2) (s := tt)
    as [y [x [E [H0 _]]]].
  - vm_compute; discriminate.
  - intros x0 x1 _ H x2. exact H.
  - vm_compute; discriminate.
  - reflexivity.
  - intros H. exfalso. revert H. vm_compute. intros H. apply H. reflexivity.
  - unfold maximize_x. rewrite H0 in E. exact E.
Qed.

(** the tolerance is not reached when the range is wide and the edge is near zero:
    after the twenty steps of the default search the answer is off by a large factor *)
Lemma lowest_true_far_from_edge : exists (p : Qc -> bool) edge b x,
  switches_on p edge /\ within b edge /\
  lowest_true default_tolerance default_iterations b (pure_call p) tt = (Return (Some x), tt) /\
  default_tolerance * Qcmax (Qcabs x) 1 < x - edge.
Proof.
  exists (fun x => Qcleb 1 x), 1, (mk_boundary 0 (qz 1000000000)), (qc 1000000000 1048576).
  split; [intros x; apply Qcleb_le|].
  split; [split; vm_compute; discriminate|].
  split; [|vm_compute; reflexivity].
  assert (E : fst (lowest_true default_tolerance default_iterations
     (mk_boundary 0 (qz 1000000000)) (@pure_call unit _ _ (fun x => Qcleb 1 x)) tt) =
     Return (Some (qc 1000000000 1048576))).
  { assert (E1 : exists z, fst (lowest_true default_tolerance default_iterations
     (mk_boundary 0 (qz 1000000000)) (@pure_call unit _ _ (fun x => Qcleb 1 x)) tt) = Return (Some z)
       /\ z = qc 1000000000 1048576).
    { eexists. split; [vm_compute; reflexivity|]. apply Qc_is_canon. vm_compute. reflexivity. }
    destruct E1 as [z [E1 E2]]. rewrite E1, E2. reflexivity. }
  destruct (lowest_true _ _ _ _ tt) as [o u]. cbn [fst] in E. rewrite E. destruct u. reflexivity.
Qed.

(** ** Comparison with a tolerance *)
Lemma fc_close_spec : forall c x, 0 <= fc_abs_tol c ->
  fc_is_close c x = true <-> (fc_value c - fc_abs_tol c <= x /\ x <= fc_value c + fc_abs_tol c).
Proof.
  intros [v t] x Ht; unfold fc_is_close; cbn [fc_value fc_abs_tol] in *.
  rewrite orb_true_iff, Qceqb_eq, Qcleb_le. unfold Qcabs.
  destruct (Qcleb 0 (v - x)) eqn:E; [apply Qcleb_le in E | apply Qcleb_gt in E];
    (split; [intros [H|H]; split; qc_lra | intros [H1 H2]; right; qc_lra]).
Qed.

Lemma fc_compare_spec : forall c x, 0 <= fc_abs_tol c ->
  let low := fc_value c - fc_abs_tol c in
  let high := fc_value c + fc_abs_tol c in
  (fc_eq c x = true <-> low <= x /\ x <= high) /\
  (fc_ne c x = true <-> x < low \/ high < x) /\
  (fc_lt c x = true <-> high < x) /\ (fc_le c x = true <-> low <= x) /\
  (fc_gt c x = true <-> x < low) /\ (fc_ge c x = true <-> x <= high).
Proof.
  intros c x Ht low high. pose proof (fc_close_spec c x Ht) as Hc. fold low high in Hc.
  assert (Hn : fc_is_close c x = false <-> x < low \/ high < x).
  { destruct (fc_is_close c x); split; intros H.
    - discriminate.
    - exfalso. assert (Hx : low <= x /\ x <= high) by (apply Hc; reflexivity).
      destruct Hx as [H1 H2]. destruct H as [H|H]; [apply (Qclt_not_le _ _ H H1) | apply (Qclt_not_le _ _ H H2)].
    - destruct (Qclt_le_dec x low) as [|H1]; [left; assumption|].
      destruct (Qclt_le_dec high x) as [|H2]; [right; assumption|].
      exfalso. assert (Hf : false = true) by (apply Hc; split; assumption). discriminate.
    - reflexivity. }
  assert (Hlv : low <= fc_value c) by (unfold low; qc_lra).
  assert (Hhv : fc_value c <= high) by (unfold high; qc_lra).
  assert (Hlt : fc_lt c x = true <-> high < x).
  { unfold fc_lt. rewrite andb_true_iff, negb_true_iff, Hn, Qcltb_lt. split.
    - intros [[H|H] H2]; [|assumption]. exfalso. clear -H H2 Hlv. qc_lra.
    - intros H. split; [right; assumption|]. clear -H Hhv. qc_lra. }
  assert (Hgt : fc_gt c x = true <-> x < low).
  { unfold fc_gt. rewrite andb_true_iff, negb_true_iff, Hn, Qcltb_lt. split.
    - intros [[H|H] H2]; [assumption|]. exfalso. clear -H H2 Hhv. qc_lra.
    - intros H. split; [left; assumption|]. clear -H Hlv. qc_lra. }
  split; [exact Hc|]. split; [unfold fc_ne; rewrite negb_true_iff; exact Hn|].
  split; [exact Hlt|]. split.
  { unfold fc_le. rewrite orb_true_iff, Hlt, Hc. split.
    - intros [H|[H _]]; [clear -H Hlv Hhv; qc_lra | assumption].
    - intros H. destruct (Qclt_le_dec high x); [left|right; split]; assumption. }
  split; [exact Hgt|].
  unfold fc_ge. rewrite orb_true_iff, Hgt, Hc. split.
  - intros [H|[_ H]]; [clear -H Hlv Hhv; qc_lra | assumption].
  - intros H. destruct (Qclt_le_dec x low); [left|right; split]; assumption.
Qed.

(** exactly one of <, == and > *)
Lemma fc_trichotomy : forall c x, 0 <= fc_abs_tol c ->
  (fc_lt c x = true /\ fc_eq c x = false /\ fc_gt c x = false) \/
  (fc_lt c x = false /\ fc_eq c x = true /\ fc_gt c x = false) \/
  (fc_lt c x = false /\ fc_eq c x = false /\ fc_gt c x = true).
Proof.
  intros c x Ht. unfold fc_lt, fc_eq, fc_gt.
  destruct (fc_is_close c x) eqn:E; cbn [negb andb].
  - right; left; repeat split; reflexivity.
  - destruct (Qcltb (fc_value c) x) eqn:E1; destruct (Qcltb x (fc_value c)) eqn:E2.
    + exfalso. apply Qcltb_lt in E1, E2. clear -E1 E2. qc_lra.
    + left; repeat split; reflexivity.
    + right; right; repeat split; reflexivity.
    + exfalso. apply Qcltb_ge in E1, E2.
      assert (Hc : fc_is_close c x = true).
      { unfold fc_is_close. apply orb_true_iff; left. apply Qceqb_eq. clear -E1 E2. qc_lra. }
      congruence.
Qed.

(** equality within a tolerance is not transitive *)
Lemma fc_eq_not_transitive : exists tol a b x,
  0 < tol /\ fc_eq (mk_constraint a tol) b = true /\ fc_eq (mk_constraint b tol) x = true
  /\ fc_eq (mk_constraint a tol) x = false.
Proof.
  exists (qc 1 1000), 0, (qc 1 1000), (qc 2 1000).
  repeat split; vm_compute; reflexivity.
Qed.

(** Proofs about the bisection searches. *)
From Coq Require Import List Bool ZArith Lia.
From Verif Require Import QcTac Search_Model Search_Spec.
Import ListNotations.
Open Scope Qc_scope.

Lemma half_mul : forall x, x / qz 2 = x * qc 1 2.
Proof. intros x; unfold Qcdiv; f_equal; apply Qc_is_canon; reflexivity. Qed.

Lemma half_between : forall x0 x1, x0 <= x1 -> x0 <= (x0 + x1) / qz 2 /\ (x0 + x1) / qz 2 <= x1.
Proof.
  intros x0 x1 H.
  rewrite half_mul; unfold qc; split; qc_lra.
Qed.

Lemma half_width_lo : forall x0 x1, x1 - (x0 + x1) / qz 2 = (x1 - x0) / qz 2.
Proof. intros; rewrite !half_mul; unfold qc; qc_lra. Qed.
Lemma half_width_hi : forall x0 x1, (x0 + x1) / qz 2 - x0 = (x1 - x0) / qz 2.
Proof. intros; rewrite !half_mul; unfold qc; qc_lra. Qed.

Lemma pow2_pos : forall n, 0 < (qz 2) ^ n.
Proof.
  induction n as [|n IH]; cbn [Qcpower].
  - reflexivity.
  - assert (H2 : 0 < qz 2) by reflexivity. qc_nra.
Qed.

Lemma max3_pos : forall a b, 0 < Qcmax (Qcmax (Qcabs a) (Qcabs b)) 1.
Proof. intros a b; unfold Qcmax at 1; destruct (Qcleb _ 1) eqn:E; [reflexivity|].
  apply Qcleb_gt in E. assert (H : 0 < 1) by reflexivity. qc_lra. Qed.

Lemma div_lt_mul : forall a b c, 0 < b -> a / b < c -> a < c * b.
Proof.
  intros a b c Hb H.
  assert (E : a = (a / b) * b) by (field; intros E; subst b; revert Hb; apply Qcle_not_lt; apply Qcle_refl).
  rewrite E. apply Qcmult_lt_compat_r; assumption.
Qed.

Lemma rel_diff_lt : forall tol x0 x1, rel_diff x0 x1 < tol ->
  x1 - x0 < tol * Qcmax (Qcmax (Qcabs x0) (Qcabs x1)) 1.
Proof. intros tol x0 x1 H; apply div_lt_mul; [apply max3_pos | exact H]. Qed.

(** ** What was probed *)
Lemma bisect_loop_recorded : forall f tol n x0 x1 last seen,
  x0 <= x1 ->
  exists new,
    snd (bisect_loop (recorded f) tol n x0 x1 last seen) = seen ++ new /\
    (length new <= n)%nat /\
    (n <> O -> new <> []) /\
    Forall (fun x => x0 <= x /\ x <= x1) new /\
    match fst (bisect_loop (recorded f) tol n x0 x1 last seen) with
    | Return (Some x) => last_accepted_in f new x \/ (last = Some x /\ Forall (rejected f) new)
    | Return None => last = None /\ Forall (rejected f) new
    | Raise e => exists before p, new = before ++ [p] /\ f p = Raise e
    end.
Proof.
  intros f tol n; induction n as [|n IH]; intros x0 x1 last seen Hle; cbn [bisect_loop].
  - exists []. cbn [ret fst snd]. rewrite app_nil_r. split; [reflexivity|].
    split; [apply le_n|]. split; [congruence|]. split; [constructor|].
    destruct last; [right|]; split; auto.
  - set (x2 := (x0 + x1) / qz 2). pose proof (half_between x0 x1 Hle) as [Hx0 Hx1]. fold x2 in Hx0, Hx1.
    unfold bind, recorded at 1 3; cbn [fst snd]. destruct (f x2) as [[higher acc]|e] eqn:Ef; cbn [fst snd].
    2:{ exists [x2]. split; [reflexivity|]. split; [cbn [length]; lia|]. split; [congruence|].
        split; [constructor; [split; assumption|constructor]|].
        exists [], x2; split; [reflexivity|assumption]. }
    set (last' := if acc then Some x2 else last).
    set (y0 := if higher then x2 else x0). set (y1 := if higher then x1 else x2).
    assert (Hy : x0 <= y0 /\ y0 <= y1 /\ y1 <= x1).
    { unfold y0, y1; destruct higher; repeat split; try assumption; apply Qcle_refl. }
    destruct Hy as [Hy0 [Hy01 Hy1]].
    assert (Hone : acc = true -> accepted f x2) by (intros ->; exists higher; exact Ef).
    assert (Hrej : acc = false -> rejected f x2) by (intros ->; exists higher; exact Ef).
    destruct (Qcltb (rel_diff y0 y1) tol).
    + exists [x2]. cbn [ret fst snd]. split; [reflexivity|]. split; [cbn [length]; lia|]. split; [congruence|].
      split; [constructor; [split; assumption|constructor]|].
      unfold last'; destruct acc.
      * left. exists [], []. split; [reflexivity|]. split; [apply Hone; reflexivity | constructor].
      * destruct last as [l|]; [right|]; (split; [reflexivity | constructor; [apply Hrej; reflexivity|constructor]]).
    + specialize (IH y0 y1 last' (seen ++ [x2]) Hy01).
      destruct (bisect_loop (recorded f) tol n y0 y1 last' (seen ++ [x2])) as [o s'] eqn:El.
      cbn [fst snd] in IH |- *. destruct IH as [new [Hs [Hlen [Hne [Hin Ho]]]]].
      exists (x2 :: new). split; [rewrite Hs, <- app_assoc; reflexivity|].
      split; [cbn [length]; lia|]. split; [congruence|].
      split.
      { constructor; [split; assumption|]. eapply Forall_impl; [|exact Hin].
        intros a [Ha Hb]; split; eapply Qcle_trans; eassumption. }
      destruct o as [[x|]|e].
      * destruct Ho as [[bef [aft [E [Ha Hr]]]] | [El' Hr]].
        -- left. exists (x2 :: bef), aft. split; [rewrite E; reflexivity|]. split; assumption.
        -- unfold last' in El'; destruct acc.
           ++ left. injection El' as <-. exists [], new. split; [reflexivity|]. split; [apply Hone; reflexivity|assumption].
           ++ right. split; [assumption|]. constructor; [apply Hrej; reflexivity|assumption].
      * destruct Ho as [El' Hr]. unfold last' in El'; destruct acc; [discriminate|].
        split; [assumption|]. constructor; [apply Hrej; reflexivity|assumption].
      * destruct Ho as [bef [p [E Hp]]]. exists (x2 :: bef), p. split; [rewrite E; reflexivity|assumption].
Qed.

Lemma search_returns : forall f tol n b x seen,
  b_min b <= b_max b ->
  search tol n b (recorded f) [] = (Return x, seen) ->
  within b x /\ last_accepted_in f seen x.
Proof.
  intros f tol n b x seen Hb H. unfold search, bisect, bind in H.
  pose proof (bisect_loop_recorded f tol n (b_min b) (b_max b) None [] Hb) as [new [Hs [_ [_ [Hin Ho]]]]].
  destruct (bisect_loop (recorded f) tol n (b_min b) (b_max b) None []) as [[[y|]|e] s'];
    cbn [fst snd ret raise] in *; try discriminate H.
  injection H as -> <-. cbn [app] in Hs. rewrite Hs.
  destruct Ho as [Ho|[? _]]; [|discriminate].
  split; [|exact Ho]. destruct Ho as [bef [aft [E _]]]. rewrite E in Hin.
  apply Forall_app in Hin as [_ Hin]. inversion Hin; assumption.
Qed.

Lemma search_raises : forall f tol n b e seen,
  b_min b <= b_max b ->
  search tol n b (recorded f) [] = (Raise e, seen) ->
  (e = DidNotConverge /\ Forall (rejected f) seen)
  \/ exists before p, seen = before ++ [p] /\ f p = Raise e.
Proof.
  intros f tol n b e seen Hb H. unfold search, bisect, bind in H.
  pose proof (bisect_loop_recorded f tol n (b_min b) (b_max b) None [] Hb) as [new [Hs [_ [_ [Hin Ho]]]]].
  destruct (bisect_loop (recorded f) tol n (b_min b) (b_max b) None []) as [[[y|]|e'] s'];
    cbn [fst snd ret raise] in *; try discriminate H; injection H as -> <-; cbn [app] in Hs; rewrite Hs.
  - left. split; [reflexivity|]. exact (proj2 Ho).
  - right. exact Ho.
Qed.

Lemma search_bounded : forall f tol n b,
  b_min b <= b_max b ->
  let seen := snd (search tol n b (recorded f) []) in
  (length seen <= n)%nat /\ Forall (within b) seen /\ (n <> O -> seen <> []).
Proof.
  intros f tol n b Hb. unfold search, bisect, bind.
  pose proof (bisect_loop_recorded f tol n (b_min b) (b_max b) None [] Hb) as [new [Hs [Hl [Hn [Hin _]]]]].
  destruct (bisect_loop (recorded f) tol n (b_min b) (b_max b) None []) as [[[y|]|e'] s'];
    cbn [fst snd ret raise] in *; cbn [app] in Hs; rewrite Hs; repeat split; assumption.
Qed.

(** ** Where the search ends *)
Lemma bisect_loop_invariant : forall (St : Type) (f : Qc -> bool * bool) tol
    (I : Qc -> Qc -> option Qc -> Prop),
  (forall x0 x1 last, x0 <= x1 -> I x0 x1 last ->
     let x2 := (x0 + x1) / qz 2 in
     I (if fst (f x2) then x2 else x0) (if fst (f x2) then x1 else x2)
       (if snd (f x2) then Some x2 else last)) ->
  forall n x0 x1 last (s : St), x0 <= x1 -> I x0 x1 last ->
  exists y0 y1 l,
    bisect_loop (pure_call f) tol n x0 x1 last s = (Return l, s) /\ I y0 y1 l /\
    x0 <= y0 /\ y0 <= y1 /\ y1 <= x1 /\
    (y1 - y0 < tol * Qcmax (Qcmax (Qcabs y0) (Qcabs y1)) 1 \/ y1 - y0 = (x1 - x0) / (qz 2) ^ n).
Proof.
  intros St f tol I Hstep n; induction n as [|n IH]; intros x0 x1 last s Hle HI; cbn [bisect_loop].
  - exists x0, x1, last. split; [reflexivity|]. split; [assumption|].
    split; [apply Qcle_refl|]. split; [assumption|]. split; [apply Qcle_refl|].
    right. cbn [Qcpower]. field. discriminate.
  - set (x2 := (x0 + x1) / qz 2). unfold bind, pure_call at 1; cbn [ret].
    pose proof (half_between x0 x1 Hle) as [Hx0 Hx1]. fold x2 in Hx0, Hx1.
    specialize (Hstep x0 x1 last Hle HI) as HI'. cbv zeta in HI'. fold x2 in HI'.
    set (y0 := if fst (f x2) then x2 else x0) in *. set (y1 := if fst (f x2) then x1 else x2) in *.
    set (l' := if snd (f x2) then Some x2 else last) in *.
    assert (Hy : x0 <= y0 /\ y0 <= y1 /\ y1 <= x1).
    { unfold y0, y1; destruct (fst (f x2)); repeat split; try assumption; apply Qcle_refl. }
    destruct Hy as [Hy0 [Hy01 Hy1]].
    assert (Hw : y1 - y0 = (x1 - x0) / qz 2).
    { unfold y0, y1; destruct (fst (f x2)); [apply half_width_lo | apply half_width_hi]. }
    destruct (Qcltb (rel_diff y0 y1) tol) eqn:Er.
    + exists y0, y1, l'. cbn [ret]. split; [reflexivity|]. split; [assumption|].
      split; [assumption|]. split; [assumption|]. split; [assumption|].
      left. apply rel_diff_lt. apply Qcltb_lt. exact Er.
    + destruct (IH y0 y1 l' s Hy01 HI') as [z0 [z1 [l [E [Hz [H0 [H1 [H2 H3]]]]]]]].
      exists z0, z1, l. split; [exact E|]. split; [assumption|].
      split; [eapply Qcle_trans; eassumption|]. split; [assumption|].
      split; [eapply Qcle_trans; eassumption|].
      destruct H3 as [H3|H3]; [left; assumption|right].
      rewrite H3, Hw. cbn [Qcpower]. field. split; [|discriminate].
      intros E0. pose proof (pow2_pos n) as Hp. rewrite E0 in Hp. discriminate Hp.
Qed.

Lemma window_cases : forall from to up x,
  (x < from /\ window_probe from to up x = (true, false))
  \/ (from <= x /\ to < x /\ window_probe from to up x = (false, false))
  \/ (from <= x /\ x <= to /\ window_probe from to up x = (up, true)).
Proof.
  intros from to up x. unfold window_probe.
  destruct (Qcltb x from) eqn:E1.
  - left. split; [apply Qcltb_lt; assumption|reflexivity].
  - apply Qcltb_ge in E1. destruct (Qcltb to x) eqn:E2.
    + right; left. apply Qcltb_lt in E2. repeat split; assumption.
    + right; right. apply Qcltb_ge in E2. repeat split; assumption.
Qed.

(** the highest point of a window of feasible points *)
Lemma search_highest_in_window : forall (St : Type) from to tol n b (s : St),
  b_min b <= b_max b ->
  match search tol n b (pure_call (window_probe from to true)) s with
  | (Return x, s') => s' = s /\ from <= x /\ x <= to /\ within b x /\
      exists y, (to < y \/ y = b_max b) /\ y <= b_max b /\ small_bracket tol n b x y
  | (Raise e, s') => s' = s /\ e = DidNotConverge /\
      exists x y, (x < from \/ x = b_min b) /\ (to < y \/ y = b_max b) /\ within b x /\ within b y
                  /\ small_bracket tol n b x y
  end.
Proof.
  intros St from to tol n b s Hb.
  pose (I := fun (x0 x1 : Qc) (l : option Qc) =>
    (to < x1 \/ x1 = b_max b) /\
    match l with
    | None => x0 < from \/ x0 = b_min b
    | Some x => x = x0 /\ from <= x /\ x <= to
    end).
  destruct (bisect_loop_invariant St (window_probe from to true) tol I) with
    (n := n) (x0 := b_min b) (x1 := b_max b) (last := @None Qc) (s := s)
    as [y0 [y1 [l [E [[H1 Hl] [Hx0 [Hle [Hx1 Hw]]]]]]]].
  - intros x0 x1 last Hle [Hhi Hl] x2. unfold I.
    pose proof (half_between x0 x1 Hle) as [Ha Hc]. fold x2 in Ha, Hc.
    destruct (window_cases from to true x2) as [[Hlt E]|[[Hge [Hgt E]]|[Hge [Hle2 E]]]]; rewrite E; cbn [fst snd].
    + split; [assumption|]. destruct last as [z|]; [|left; assumption].
      exfalso. destruct Hl as [-> [Hf _]]. apply (Qclt_not_le _ _ Hlt). eapply Qcle_trans; eassumption.
    + split; [left; assumption|]. assumption.
    + split; [assumption|]. repeat split; assumption.
  - exact Hb.
  - split; right; reflexivity.
  - unfold search, bisect, bind. rewrite E. destruct l as [x|]; cbn [ret raise].
    + destruct Hl as [-> [Hf Ht]]. split; [reflexivity|]. split; [assumption|]. split; [assumption|].
      split; [split; [assumption | eapply Qcle_trans; eassumption]|].
      exists y1. split; [assumption|]. split; [assumption|]. split; assumption.
    + split; [reflexivity|]. split; [reflexivity|]. exists y0, y1.
      split; [assumption|]. split; [assumption|].
      split; [split; [assumption | eapply Qcle_trans; eassumption]|].
      split; [split; [eapply Qcle_trans; eassumption | assumption]|]. split; assumption.
Qed.

(** the lowest point of a window of feasible points *)
Lemma search_lowest_in_window : forall (St : Type) from to tol n b (s : St),
  b_min b <= b_max b ->
  match search tol n b (pure_call (window_probe from to false)) s with
  | (Return x, s') => s' = s /\ from <= x /\ x <= to /\ within b x /\
      exists y, (y < from \/ y = b_min b) /\ b_min b <= y /\ small_bracket tol n b y x
  | (Raise e, s') => s' = s /\ e = DidNotConverge /\
      exists x y, (x < from \/ x = b_min b) /\ (to < y \/ y = b_max b) /\ within b x /\ within b y
                  /\ small_bracket tol n b x y
  end.
Proof.
  intros St from to tol n b s Hb.
  pose (I := fun (x0 x1 : Qc) (l : option Qc) =>
    (x0 < from \/ x0 = b_min b) /\
    match l with
    | None => to < x1 \/ x1 = b_max b
    | Some x => x = x1 /\ from <= x /\ x <= to
    end).
  destruct (bisect_loop_invariant St (window_probe from to false) tol I) with
    (n := n) (x0 := b_min b) (x1 := b_max b) (last := @None Qc) (s := s)
    as [y0 [y1 [l [E [[H1 Hl] [Hx0 [Hle [Hx1 Hw]]]]]]]].
  - intros x0 x1 last Hle [Hhi Hl] x2. unfold I.
    pose proof (half_between x0 x1 Hle) as [Ha Hc]. fold x2 in Ha, Hc.
    destruct (window_cases from to false x2) as [[Hlt E]|[[Hge [Hgt E]]|[Hge [Hle2 E]]]]; rewrite E; cbn [fst snd].
    + split; [left; assumption|]. assumption.
    + split; [assumption|]. destruct last as [z|]; [|left; assumption].
      exfalso. destruct Hl as [-> [_ Hf]]. apply (Qclt_not_le _ _ Hgt). eapply Qcle_trans; eassumption.
    + split; [assumption|]. repeat split; assumption.
  - exact Hb.
  - split; right; reflexivity.
  - unfold search, bisect, bind. rewrite E. destruct l as [x|]; cbn [ret raise].
    + destruct Hl as [-> [Hf Ht]]. split; [reflexivity|]. split; [assumption|]. split; [assumption|].
      split; [split; [eapply Qcle_trans; eassumption | assumption]|].
      exists y0. split; [assumption|]. split; [assumption|]. split; assumption.
    + split; [reflexivity|]. split; [reflexivity|]. exists y0, y1.
      split; [assumption|]. split; [assumption|].
      split; [split; [assumption | eapply Qcle_trans; eassumption]|].
      split; [split; [eapply Qcle_trans; eassumption | assumption]|]. split; assumption.
Qed.

(** ** lowest_true and highest_true *)
Lemma lowest_true_any : forall (St : Type) (p : Qc -> bool) tol n b (s : St),
  b_min b <= b_max b ->
  exists r, lowest_true tol n b (pure_call p) s = (Return r, s) /\
  match r with
  | None => p (b_min b) = false /\ p (b_max b) = false
  | Some x => p x = true /\ within b x /\
      (x = b_min b \/ exists y, p y = false /\ within b y /\ small_bracket tol n b y x)
  end.
Proof.
  intros St p tol n b s Hb. unfold lowest_true, first_true, bind, pure_call; cbn [ret].
  destruct (p (b_min b)) eqn:Emin; cbn [ret].
  { exists (Some (b_min b)). split; [reflexivity|]. split; [assumption|].
    split; [split; [apply Qcle_refl|assumption]|]. left; reflexivity. }
  destruct (p (b_max b)) eqn:Emax; cbn [ret negb].
  2:{ exists None. split; [reflexivity|]. split; auto. }
  pose (I := fun (x0 x1 : Qc) (l : option Qc) =>
    p x0 = false /\ p x1 = true /\ match l with None => x1 = b_max b | Some x => x = x1 end).
  destruct (bisect_loop_invariant St (fun x => (negb (Bool.eqb (p x) true), p x)) tol I) with
    (n := n) (x0 := b_min b) (x1 := b_max b) (last := @None Qc) (s := s)
    as [y0 [y1 [l [E [[H0 [H1 Hl]] [Hx0 [Hle [Hx1 Hw]]]]]]]].
  - intros x0 x1 last Hle [H0 [H1 Hl]] x2. unfold I. cbn [fst snd].
    destruct (p x2) eqn:E2; cbn [Bool.eqb negb].
    + split; [assumption|]. split; [assumption|reflexivity].
    + split; [assumption|]. split; assumption.
  - exact Hb.
  - split; [assumption|]. split; [assumption|reflexivity].
  - unfold bisect. unfold pure_call, ret in E. unfold ret. rewrite E.
    eexists. split; [reflexivity|]. cbv beta iota.
    assert (Ex : (match l with Some x => x | None => b_max b end) = y1)
      by (destruct l; [exact Hl | symmetry; exact Hl]).
    rewrite Ex. split; [assumption|].
    split; [split; [eapply Qcle_trans; eassumption | assumption]|].
    right. exists y0. split; [assumption|].
    split; [split; [assumption | eapply Qcle_trans; eassumption]|]. split; assumption.
Qed.

Lemma highest_true_any : forall (St : Type) (p : Qc -> bool) tol n b (s : St),
  b_min b <= b_max b ->
  exists r, highest_true tol n b (pure_call p) s = (Return r, s) /\
  match r with
  | None => p (b_min b) = false /\ p (b_max b) = false
  | Some x => p x = true /\ within b x /\
      (x = b_max b \/ exists y, p y = false /\ within b y /\ small_bracket tol n b x y)
  end.
Proof.
  intros St p tol n b s Hb. unfold highest_true, first_true, bind, pure_call; cbn [ret].
  destruct (p (b_max b)) eqn:Emin; cbn [ret].
  { exists (Some (b_max b)). split; [reflexivity|]. split; [assumption|].
    split; [split; [assumption|apply Qcle_refl]|]. left; reflexivity. }
  destruct (p (b_min b)) eqn:Emax; cbn [ret negb].
  2:{ exists None. split; [reflexivity|]. split; auto. }
  pose (I := fun (x0 x1 : Qc) (l : option Qc) =>
    p x0 = true /\ p x1 = false /\ match l with None => x0 = b_min b | Some x => x = x0 end).
  destruct (bisect_loop_invariant St (fun x => (negb (Bool.eqb (p x) false), p x)) tol I) with
    (n := n) (x0 := b_min b) (x1 := b_max b) (last := @None Qc) (s := s)
    as [y0 [y1 [l [E [[H0 [H1 Hl]] [Hx0 [Hle [Hx1 Hw]]]]]]]].
  - intros x0 x1 last Hle [H0 [H1 Hl]] x2. unfold I. cbn [fst snd].
    destruct (p x2) eqn:E2; cbn [Bool.eqb negb].
    + split; [assumption|]. split; [assumption|reflexivity].
    + split; [assumption|]. split; assumption.
  - exact Hb.
  - split; [assumption|]. split; [assumption|reflexivity].
  - unfold bisect. unfold pure_call, ret in E. unfold ret. rewrite E.
    eexists. split; [reflexivity|]. cbv beta iota.
    assert (Ex : (match l with Some x => x | None => b_min b end) = y0)
      by (destruct l; [exact Hl | symmetry; exact Hl]).
    rewrite Ex. split; [assumption|].
    split; [split; [assumption | eapply Qcle_trans; eassumption]|].
    right. exists y1. split; [assumption|].
    split; [split; [eapply Qcle_trans; eassumption | assumption]|]. split; assumption.
Qed.

Lemma lowest_true_edge : forall (St : Type) (p : Qc -> bool) edge tol n b (s : St),
  b_min b <= b_max b -> switches_on p edge ->
  (b_max b < edge -> lowest_true tol n b (pure_call p) s = (Return None, s)) /\
  (edge <= b_min b -> lowest_true tol n b (pure_call p) s = (Return (Some (b_min b)), s)) /\
  (b_min b < edge -> edge <= b_max b ->
     exists x y, lowest_true tol n b (pure_call p) s = (Return (Some x), s) /\
       p x = true /\ y < edge /\ edge <= x /\ within b x /\ small_bracket tol n b y x).
Proof.
  intros St p edge tol n b s Hb Hp.
  destruct (lowest_true_any St p tol n b s Hb) as [r [E Hr]].
  assert (Hpf : forall x, p x = false -> x < edge).
  { intros x Hx. apply Qcnot_le_lt. intros H. apply Hp in H. congruence. }
  split; [|split].
  - intros H. destruct r as [x|]; [|exact E].
    destruct Hr as [Hx [[_ Hx2] _]]. apply Hp in Hx. exfalso.
    apply (Qclt_not_le _ _ H). eapply Qcle_trans; eassumption.
  - intros H. apply Hp in H. unfold lowest_true, first_true, bind, pure_call. cbn [ret]. rewrite H. reflexivity.
  - intros H1 H2. destruct r as [x|].
    + destruct Hr as [Hx [Hw [->|[y [Hy [_ Hsm]]]]]].
      * exfalso. apply Hp in Hx. apply (Qclt_not_le _ _ H1). exact Hx.
      * exists x, y. split; [exact E|]. split; [assumption|].
        split; [apply Hpf; assumption|]. split; [apply Hp; assumption|]. split; assumption.
    + exfalso. destruct Hr as [_ Hr]. apply Hpf in Hr. apply (Qclt_not_le _ _ Hr). exact H2.
Qed.

Lemma highest_true_edge : forall (St : Type) (p : Qc -> bool) edge tol n b (s : St),
  b_min b <= b_max b -> switches_off p edge ->
  (edge < b_min b -> highest_true tol n b (pure_call p) s = (Return None, s)) /\
  (b_max b <= edge -> highest_true tol n b (pure_call p) s = (Return (Some (b_max b)), s)) /\
  (b_min b <= edge -> edge < b_max b ->
     exists x y, highest_true tol n b (pure_call p) s = (Return (Some x), s) /\
       p x = true /\ x <= edge /\ edge < y /\ within b x /\ small_bracket tol n b x y).
Proof.
  intros St p edge tol n b s Hb Hp.
  destruct (highest_true_any St p tol n b s Hb) as [r [E Hr]].
  assert (Hpf : forall x, p x = false -> edge < x).
  { intros x Hx. apply Qcnot_le_lt. intros H. apply Hp in H. congruence. }
  split; [|split].
  - intros H. destruct r as [x|]; [|exact E].
    destruct Hr as [Hx [[Hx2 _] _]]. apply Hp in Hx. exfalso.
    apply (Qclt_not_le _ _ H). eapply Qcle_trans; eassumption.
  - intros H. apply Hp in H. unfold highest_true, first_true, bind, pure_call. cbn [ret]. rewrite H. reflexivity.
  - intros H1 H2. destruct r as [x|].
    + destruct Hr as [Hx [Hw [->|[y [Hy [_ Hsm]]]]]].
      * exfalso. apply Hp in Hx. apply (Qclt_not_le _ _ H2). exact Hx.
      * exists x, y. split; [exact E|]. split; [assumption|].
        split; [apply Hp; assumption|]. split; [apply Hpf; assumption|]. split; assumption.
    + exfalso. destruct Hr as [Hr _]. apply Hpf in Hr. apply (Qclt_not_le _ _ Hr). exact H1.
Qed.

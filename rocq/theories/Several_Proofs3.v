(** The rate a section cannot take (C123). *)
From Coq Require Import List Bool ZArith Lia.
From Verif Require Import QcTac Base BaseLemmas Num Stream_Model Stream_Spec Process_Model Search_Model Search_Spec Search_Proofs Solver_Model Solver_Spec Solver_Proofs
  Solver_Proofs2 Solver_Proofs3 Solver_Proofs5 Several_Spec Several_Proofs.
Import ListNotations.
Local Open Scope Qc_scope.

Section Feasible.
Variable ph : physics.
Variable sec : section.
Variable target : float_constraint.
Variable inlet : stream.
Variable h0 : heap.
Hypothesis W : wired sec.
Notation can := (takes ph sec target inlet h0).
Notation cannot := (takes_not ph sec target inlet h0).
Let around (h : heap) : Prop := same_except (own sec) h0 h.

Definition rate_probe (rate : Qc) : M heap (bool * bool) :=
  let* s := lift (with_standard_rate inlet rate) in
  let* ok := is_feasible ph sec target s in ret (ok, true).

Lemma probe_cases : forall rate h o h', around h -> rate_probe rate h = (o, h') ->
  around h' /\ match o with
               | Return (higher, acc) => acc = true /\ if higher then can rate else cannot rate
               | Raise e => with_standard_rate inlet rate = Raise e \/
                   exists s, with_standard_rate inlet rate = Return s /\ fst (find_solution ph sec [target] s h0) = Raise e
               end.
Proof.
  intros rate h o h' A H. unfold rate_probe in H. unfold bind at 1 in H. unfold lift at 1 in H.
  destruct (with_standard_rate inlet rate) as [s|e] eqn:E.
  2: { assert (o = Raise e /\ h = h') as [-> <-] by (split; congruence). split; [exact A|now left]. }
  destruct (independent_proof ph sec [target] s h0 h W A) as [I1 I2].
  pose proof (local_proof ph sec [target] s h0 W) as L.
  unfold is_feasible in H. unfold bind in H. destruct (find_solution ph sec [target] s h) as [[sol|e] h1] eqn:F.
  - cbv [ret] in H. assert (o = Return (success sol, true) /\ h1 = h') as [-> ->] by (split; congruence). cbn [fst snd] in I1, I2.
    split; [eapply same_trans; [exact L|exact I2]|]. split; [reflexivity|].
    destruct (find_solution ph sec [target] s h0) as [o0 g] eqn:F0. cbn [fst snd] in I1. subst o0.
    destruct (success sol) eqn:OK; exists s, sol, g; auto.
  - assert (o = Raise e /\ h1 = h') as [-> ->] by (split; congruence). cbn [fst snd] in I1, I2.
    split; [eapply same_trans; [exact L|exact I2]|]. right. exists s. auto.
Qed.

(** The rate at which an error came up. *)
Definition errs (e : exn) (rate : Qc) : Prop :=
  with_standard_rate inlet rate = Raise e \/
  exists s, with_standard_rate inlet rate = Return s /\ fst (find_solution ph sec [target] s h0) = Raise e.

Lemma rate_loop : forall tol n x0 x1 last h o h', around h -> x0 <= x1 ->
  bisect_loop rate_probe tol n x0 x1 last h = (o, h') ->
  around h' /\ match o with
  | Return r => (n = O /\ r = last) \/
      exists x lo hi, r = Some x /\ x0 <= lo /\ lo <= hi /\ hi <= x1 /\
        (lo = x0 \/ can lo) /\ (hi = x1 \/ cannot hi) /\ ((x = lo /\ can lo) \/ (x = hi /\ cannot hi)) /\
        (hi - lo < tol * Qcmax (Qcmax (Qcabs lo) (Qcabs hi)) 1 \/ hi - lo = (x1 - x0) / (qz 2) ^ n)
  | Raise e => exists rate, x0 <= rate /\ rate <= x1 /\ errs e rate
  end.
Proof.
  intros tol n. induction n as [|n IH]; intros x0 x1 last h o h' A LE H; cbn [bisect_loop] in H.
  - cbv [ret] in H. assert (o = Return last /\ h = h') as [-> <-] by (split; congruence). split; [exact A|left; auto].
  - cbv zeta in H. pose proof (half_between _ _ LE) as [HB1 HB2]. set (m := (x0 + x1) / qz 2) in *.
    unfold bind at 1 in H. destruct (rate_probe m h) as [[[hg acc]|e] h1] eqn:P.
    2: { assert (o = Raise e /\ h1 = h') as [-> ->] by (split; congruence). destruct (probe_cases _ _ _ _ A P) as [A1 X].
         split; [exact A1|]. exists m. split; [exact HB1|]. split; [exact HB2|exact X]. }
    destruct (probe_cases _ _ _ _ A P) as [A1 [-> X]]. cbn [fst snd] in H.
    assert (HALF : (x1 - m) = (x1 - x0) / qz 2 /\ m - x0 = (x1 - x0) / qz 2) by (split; [apply half_width_lo|apply half_width_hi]).
    destruct HALF as [HL HH].
    assert (POW : forall y, y / qz 2 / (qz 2) ^ n = y / (qz 2) ^ (Datatypes.S n)).
    { intros y. change ((qz 2) ^ (Datatypes.S n)) with (qz 2 * (qz 2) ^ n). unfold Qcdiv. rewrite Qcinv_mult_distr. ring. }
    destruct (Qcltb (rel_diff (if hg then m else x0) (if hg then x1 else m)) tol) eqn:ST.
    + apply Qcltb_lt in ST. apply rel_diff_lt in ST. cbv [ret] in H.
      assert (o = Return (Some m) /\ h1 = h') as [-> ->] by (split; congruence). split; [exact A1|]. right.
      destruct hg.
      * exists m, m, x1. repeat split; auto using Qcle_refl.
      * exists m, x0, m. repeat split; auto using Qcle_refl.
    + destruct hg.
      * destruct (IH m x1 (Some m) h1 o h' A1 HB2 H) as [A2 R]. split; [exact A2|]. destruct o as [r|e].
        -- destruct R as [[-> ->]|(x & lo & hi & -> & B1 & B2 & B3 & B4 & B5 & B6 & B7)]; right.
           ++ exists m, m, x1. repeat split; auto using Qcle_refl.
           ++ exists x, lo, hi. split; [reflexivity|]. split; [eapply Qcle_trans; [exact HB1|exact B1]|].
              split; [exact B2|]. split; [exact B3|]. split; [right; destruct B4 as [->|B4]; [exact X|exact B4]|]. split; [exact B5|].
              split; [exact B6|]. destruct B7 as [B7|B7]; [now left|right]. now rewrite B7, HL, POW.
        -- destruct R as (rate & R1 & R2 & R3). exists rate. split; [eapply Qcle_trans; [exact HB1|exact R1]|auto].
      * destruct (IH x0 m (Some m) h1 o h' A1 HB1 H) as [A2 R]. split; [exact A2|]. destruct o as [r|e].
        -- destruct R as [[-> ->]|(x & lo & hi & -> & B1 & B2 & B3 & B4 & B5 & B6 & B7)]; right.
           ++ exists m, x0, m. repeat split; auto using Qcle_refl.
           ++ exists x, lo, hi. split; [reflexivity|]. split; [exact B1|]. split; [exact B2|].
              split; [eapply Qcle_trans; [exact B3|exact HB2]|]. split; [exact B4|].
              split; [right; destruct B5 as [->|B5]; [exact X|exact B5]|].
              split; [exact B6|]. destruct B7 as [B7|B7]; [now left|right]. now rewrite B7, HH, POW.
        -- destruct R as (rate & R1 & R2 & R3). exists rate. split; [exact R1|]. split; [eapply Qcle_trans; [exact R2|exact HB2]|exact R3].
Qed.
End Feasible.

Lemma excess_form : forall ph sec target inlet h, get_excess_rate ph sec target inlet h =
  (if Qcleb (standard_rate inlet) 0 then ret 0
   else let* ok := is_feasible ph sec target inlet in
        if ok then ret 0
        else let* capacity := catch (let* r := bisect_loop (rate_probe ph sec target inlet) (qc 1 10000) 40 0 (standard_rate inlet) None in
                                     match r with None => raise DidNotConverge | Some x => ret x end)
                                    (fun e => match e with DidNotConverge => Some (ret 0) | _ => None end) in
             ret (Qcmax 0 (standard_rate inlet - capacity))) h.
Proof. reflexivity. Qed.

(** Nothing is left over when there is no rate or the section takes it all. *)
Theorem no_excess_proof : forall ph sec target inlet h,
  (standard_rate inlet <= 0 -> get_excess_rate ph sec target inlet h = (Return 0, h)) /\
  (forall sol h', 0 < standard_rate inlet -> find_solution ph sec [target] inlet h = (Return sol, h') -> success sol = true ->
     get_excess_rate ph sec target inlet h = (Return 0, h')).
Proof.
  intros ph sec target inlet h. split.
  - intros L. rewrite excess_form. apply Qcleb_le in L. now rewrite L.
  - intros sol h' L F OK. rewrite excess_form.
    assert (Qcleb (standard_rate inlet) 0 = false) as -> by (apply not_true_iff_false; intros E; apply Qcleb_le in E; qc_lra).
    unfold is_feasible, bind. rewrite F. cbv [ret]. now rewrite OK.
Qed.

Lemma cap_range : forall full x, 0 <= x -> x <= full -> Qcmax 0 (full - x) = full - x.
Proof. intros full x A B. unfold Qcmax. qc_cases; qc_lra. Qed.
Lemma all_range : forall full, 0 < full -> Qcmax 0 (full - 0) = full.
Proof. intros full A. unfold Qcmax. qc_cases; qc_lra. Qed.

Definition capacity_search (ph : physics) (sec : section) (target : float_constraint) (inlet : stream) (n : nat) (full : Qc) : M heap Qc :=
  catch (let* r := bisect_loop (rate_probe ph sec target inlet) (qc 1 10000) n 0 full None in
         match r with None => raise DidNotConverge | Some x => ret x end)
        (fun e => match e with DidNotConverge => Some (ret 0) | _ => None end).

Lemma search_core : forall ph sec target inlet h n full h1 cap h', wired sec -> 0 < full -> n <> O -> same_except (own sec) h h1 ->
  capacity_search ph sec target inlet n full h1 = (Return cap, h') ->
  same_except (own sec) h h' /\
  ((exists lo hi, 0 <= lo /\ lo <= hi /\ hi <= full /\
     (lo = 0 \/ takes ph sec target inlet h lo) /\ (hi = full \/ takes_not ph sec target inlet h hi) /\
     ((cap = lo /\ takes ph sec target inlet h lo) \/ (cap = hi /\ takes_not ph sec target inlet h hi)) /\
     (hi - lo < qc 1 10000 * Qcmax hi 1 \/ hi - lo = full / (qz 2) ^ n)) \/
   (cap = 0 /\ exists rate, 0 <= rate /\ rate <= full /\ errs ph sec target inlet h DidNotConverge rate)).
Proof.
  intros ph sec target inlet h n full h1 cap h' W L NZ A C. unfold capacity_search, catch in C. unfold bind in C.
  destruct (bisect_loop (rate_probe ph sec target inlet) (qc 1 10000) n 0 full None h1) as [o g] eqn:BL.
  destruct (rate_loop ph sec target inlet h W (qc 1 10000) n 0 full None h1 o g A (Qclt_le_weak _ _ L) BL) as [A2 R]. clear BL.
  destruct o as [r|e].
  - destruct R as [[N _]|(x & lo & hi & -> & B1 & B2 & B3 & B4 & B5 & B6 & B7)]; [contradiction|].
    cbv [ret] in C. assert (x = cap /\ g = h') as [-> ->] by (split; congruence). split; [exact A2|].
    left. exists lo, hi.
    split; [exact B1|]. split; [exact B2|]. split; [exact B3|]. split; [exact B4|]. split; [exact B5|]. split; [exact B6|].
    destruct B7 as [B7|B7]; [left|right].
    + eapply Qclt_le_trans; [exact B7|]. clear -B1 B2.
      assert (M : Qcmax (Qcmax (Qcabs lo) (Qcabs hi)) 1 = Qcmax hi 1) by (unfold Qcmax, Qcabs; qc_cases; qc_lra).
      rewrite M. apply Qcle_refl.
    + assert (Z : full - 0 = full) by ring. now rewrite Z in B7.
  - destruct e; try discriminate C. cbv [ret] in C. assert (cap = 0 /\ g = h') as [-> ->] by (split; congruence).
    split; [exact A2|]. right. split; [reflexivity|exact R].
Qed.

Lemma search_form : forall ph sec target inlet u n,
  catch (search (qc 1 10000) n (mk_boundary 0 u)
           (fun rate => let* s := lift (with_standard_rate inlet rate) in
                        let* ok := is_feasible ph sec target s in ret (ok, true)))
        (fun e => match e with DidNotConverge => Some (ret 0) | _ => None end) = capacity_search ph sec target inlet n u.
Proof. reflexivity. Qed.
Lemma capacity_form : forall ph sec target inlet u, largest_feasible_rate ph sec target inlet u = capacity_search ph sec target inlet 40 u.
Proof. intros. exact (search_form ph sec target inlet u 40). Qed.

Lemma excess_search : forall ph sec target inlet h sol h1, 0 < standard_rate inlet ->
  find_solution ph sec [target] inlet h = (Return sol, h1) -> success sol = false ->
  get_excess_rate ph sec target inlet h =
    (let* capacity := capacity_search ph sec target inlet 40 (standard_rate inlet) in
     ret (Qcmax 0 (standard_rate inlet - capacity))) h1.
Proof.
  intros ph sec target inlet h sol h1 L F B. unfold get_excess_rate. rewrite <- capacity_form.
  generalize (largest_feasible_rate ph sec target inlet (standard_rate inlet)). intros c.
  assert (Qcleb (standard_rate inlet) 0 = false) as E0 by (apply not_true_iff_false; intros E; apply Qcleb_le in E; qc_lra).
  cbv zeta. rewrite E0. unfold is_feasible, bind. rewrite F. cbv [ret]. rewrite B. reflexivity.
Qed.

(** What remains after the excess is an end of a small bracket around a rate at which the section stops reaching the target;
    or the section fails to converge at some rate, and then everything is excess. *)
Theorem excess_proof : forall ph sec target inlet h sol h1 excess h', wired sec -> 0 < standard_rate inlet ->
  find_solution ph sec [target] inlet h = (Return sol, h1) -> success sol = false ->
  get_excess_rate ph sec target inlet h = (Return excess, h') ->
  same_except (own sec) h h' /\
  let full := standard_rate inlet in
  0 <= excess /\ excess <= full /\
  ((exists lo hi, 0 <= lo /\ lo <= hi /\ hi <= full /\
     (lo = 0 \/ takes ph sec target inlet h lo) /\ (hi = full \/ takes_not ph sec target inlet h hi) /\
     ((full - excess = lo /\ takes ph sec target inlet h lo) \/ (full - excess = hi /\ takes_not ph sec target inlet h hi)) /\
     (hi - lo < qc 1 10000 * Qcmax hi 1 \/ hi - lo = full / (qz 2) ^ 40)) \/
   (excess = full /\ exists rate, 0 <= rate /\ rate <= full /\
      (with_standard_rate inlet rate = Raise DidNotConverge \/
       exists s, with_standard_rate inlet rate = Return s /\ fst (find_solution ph sec [target] s h) = Raise DidNotConverge))).
Proof.
  intros ph sec target inlet h sol h1 excess h' W L F B H.
  assert (A : same_except (own sec) h h1) by (pose proof (local_proof ph sec [target] inlet h W) as X; now rewrite F in X).
  rewrite (excess_search _ _ _ _ _ _ _ L F B) in H. clear F B.
  generalize (Nat.neq_succ_0 39). intros NZ. remember 40%nat as n eqn:EN. clear EN.
  set (full := standard_rate inlet) in *. clearbody full.
  apply bind_inv in H. destruct H as (cap & h2 & C & H). cbv [ret] in H. assert (h2 = h') as -> by congruence.
  assert (EX : excess = Qcmax 0 (full - cap)) by congruence. clear H.
  destruct (search_core _ _ _ _ _ _ _ _ _ _ W L NZ A C) as (A2 & [(lo & hi & B1 & B2 & B3 & B4 & B5 & B6 & B7)|(-> & R)]).
  - split; [exact A2|]. cbv zeta.
    assert (XR : 0 <= cap /\ cap <= full).
    { destruct B6 as [[-> _]|[-> _]]; split; [exact B1|eapply Qcle_trans; eauto|eapply Qcle_trans; eauto|exact B3]. }
    destruct XR as [X1 X2]. rewrite (cap_range full cap X1 X2) in EX. subst excess.
    split; [clear -X2; qc_lra|]. split; [clear -X1; qc_lra|]. left. exists lo, hi.
    split; [exact B1|]. split; [exact B2|]. split; [exact B3|]. split; [exact B4|]. split; [exact B5|].
    assert (FE : full - (full - cap) = cap) by ring. rewrite FE. split; [exact B6|exact B7].
  - split; [exact A2|]. cbv zeta. rewrite (all_range full L) in EX. subst excess.
    split; [apply Qclt_le_weak; exact L|]. split; [apply Qcle_refl|]. right. split; [reflexivity|exact R].
Qed.

(** A section that takes what is at most its limit: the remaining rate is near the limit. *)
Theorem excess_limit_proof : forall ph sec target inlet h sol h1 excess h' limit, wired sec -> 0 < standard_rate inlet ->
  find_solution ph sec [target] inlet h = (Return sol, h1) -> success sol = false ->
  (forall rate, 0 <= rate -> rate <= standard_rate inlet ->
     if Qcleb rate limit then takes ph sec target inlet h rate else takes_not ph sec target inlet h rate) ->
  0 <= limit -> limit <= standard_rate inlet ->
  get_excess_rate ph sec target inlet h = (Return excess, h') ->
  let full := standard_rate inlet in
  Qcabs (full - excess - limit) <= qc 1 10000 * Qcmax full 1 \/ Qcabs (full - excess - limit) <= full / (qz 2) ^ 40.
Proof.
  intros ph sec target inlet h sol h1 excess h' limit W L F B LIM L0 L1 H. cbv zeta.
  destruct (excess_proof _ _ _ _ _ _ _ _ _ W L F B H) as (_ & X1 & X2 & [(lo & hi & B1 & B2 & B3 & B4 & B5 & B6 & B7)|(_ & rate & R1 & R2 & R3)]);
  clear F B H; set (full := standard_rate inlet) in *; clearbody full.
  - assert (CT : forall rate, 0 <= rate -> rate <= full -> takes ph sec target inlet h rate -> rate <= limit).
    { intros rate A1 A2 (s & so & g & W1 & F1 & S1). specialize (LIM rate A1 A2). destruct (Qcleb rate limit) eqn:E; [now apply Qcleb_le|].
      destruct LIM as (s' & so' & g' & W2 & F2 & S2). exfalso. assert (s = s') as <- by congruence. assert (so = so') as <- by congruence. congruence. }
    assert (CN : forall rate, 0 <= rate -> rate <= full -> takes_not ph sec target inlet h rate -> limit <= rate).
    { intros rate A1 A2 (s & so & g & W1 & F1 & S1). specialize (LIM rate A1 A2). destruct (Qcleb rate limit) eqn:E.
      - destruct LIM as (s' & so' & g' & W2 & F2 & S2). exfalso. assert (s = s') as <- by congruence. assert (so = so') as <- by congruence. congruence.
      - apply Qcleb_gt in E. now apply Qclt_le_weak. }
    assert (LO : lo <= limit) by (destruct B4 as [->|B4]; [exact L0|apply CT; [exact B1|eapply Qcle_trans; eauto|exact B4]]).
    assert (HI : limit <= hi) by (destruct B5 as [->|B5]; [exact L1|apply CN; [eapply Qcle_trans; eauto|exact B3|exact B5]]).
    assert (D : Qcabs (full - excess - limit) <= hi - lo).
    { destruct B6 as [[-> _]|[-> _]]; clear -LO HI; unfold Qcabs; qc_cases; qc_lra. }
    destruct B7 as [B7|B7].
    + left. eapply Qcle_trans; [exact D|]. apply Qclt_le_weak. eapply Qclt_le_trans; [exact B7|]. clear -B3.
      rewrite !(Qcmult_comm (qc 1 10000)). apply Qcmult_le_compat_r; [|vm_compute; discriminate].
      unfold Qcmax. qc_cases; qc_lra.
    + right. rewrite <- B7. exact D.
  - exfalso. specialize (LIM rate R1 R2). destruct R3 as [R3|(s & R3 & R4)].
    + destruct (Qcleb rate limit); destruct LIM as (s' & so' & g' & W2 & _); congruence.
    + destruct (Qcleb rate limit); destruct LIM as (s' & so' & g' & W2 & F2 & _); assert (s = s') as <- by congruence; rewrite F2 in R4; discriminate R4.
Qed.

Lemma some_inj0 : forall A (a b : A), Some a = Some b -> a = b.
Proof. intros A a b H. now injection H. Qed.

(** No memory. *)
Theorem excess_again_proof : forall ph sec target inlet h h2, wired sec -> same_except (own sec) h h2 ->
  fst (get_excess_rate ph sec target inlet h) = fst (get_excess_rate ph sec target inlet h2).
Proof.
  intros ph sec target inlet h h2 W S.
  assert (T : forall s, tame (own sec) (own sec) (own sec) (is_feasible ph sec target s)).
  { intros s. unfold is_feasible. apply tame_bind1; [now apply tame_find_solution|intros; apply tame_ret]. }
  assert (X : tame (own sec) (own sec) (own sec) (get_excess_rate ph sec target inlet)).
  { unfold get_excess_rate. cbv zeta. destruct (Qcleb _ 0); [apply tame_ret|]. apply tame_bind1; [apply T|intros ok].
    destruct ok; [apply tame_ret|]. apply tame_bind1; [|intros; apply tame_ret]. unfold largest_feasible_rate.
    apply tame_catch.
    - apply tame_search. intros x. apply tame_bind1; [apply tame_lift|intros s]. apply tame_bind1; [apply T|intros; apply tame_ret].
    - intros e k E. destruct e; try discriminate E. apply some_inj0 in E. rewrite <- E. apply tame_ret. }
  exact (proj1 (proj1 X h h2 S)).
Qed.

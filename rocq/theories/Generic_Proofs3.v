(** The generic chart from rates and heads holds them. *)
From Coq Require Import PeanoNat.
From Verif Require Import QcTac BaseLemmas Num Interp_Model Interp_Spec Time_Proofs Interp_Proofs Chart_Model Chart_Spec
  Chart_Proofs Chart_Proofs2 Pump_Proofs Compressor_Model Compressor_Spec Compressor_Proofs Compressor_Proofs2 Compressor_Proofs3
  Compressor_Proofs4 Compressor_Proofs5 Compressor_Proofs6 Compressor_Proofs7 Search_Model Search_Proofs Generic_Model Generic_Spec Base Generic_Proofs Generic_Proofs2.
Local Open Scope list_scope.
Local Open Scope Qc_scope.

(** ** the search *)
Lemma maximize_loop_ok : forall (f : Qc -> M unit bool) (p : Qc -> bool) tol n rel x0 x1, x0 <= x1 ->
  (forall x, x0 <= x -> x <= x1 -> f x tt = (Return (p x), tt)) ->
  exists x, maximize_loop f tol n rel x0 x1 tt = (Return x, tt) /\ x0 <= x /\ x <= x1 /\ (x = x0 \/ p x = true).
Proof.
  intros f p tol. induction n as [|n IH]; intros rel x0 x1 L H; cbn [maximize_loop].
  - exists x0. repeat split; auto. apply Qcle_refl.
  - destruct (Qcltb tol (Qcabs rel)); [|exists x0; repeat split; auto; apply Qcle_refl].
    destruct (Search_Proofs.half_between x0 x1 L) as [L1 L2]. set (x2 := (x0 + x1) / qz 2) in *. clearbody x2.
    unfold Search_Model.bind. rewrite H by auto. destruct (p x2) eqn:P.
    + edestruct IH with (x0 := x2) (x1 := x1) as (x & E & A & B & C); auto.
      { intros x A B. apply H; auto. now apply Qcle_trans with x2. }
      exists x. split; [exact E|]. split; [now apply Qcle_trans with x2|]. split; auto. right. destruct C as [->|C]; auto.
    + edestruct IH with (x0 := x0) (x1 := x2) as (x & E & A & B & C); auto.
      { intros x A B. apply H; auto. now apply Qcle_trans with x2. }
      exists x. split; [exact E|]. split; auto. split; auto. now apply Qcle_trans with x2.
Qed.
Lemma maximize_ok : forall x_min x_max (f : Qc -> result bool), x_min <= x_max ->
  (forall x, x_min <= x -> x <= x_max -> exists b, f x = Ok b) ->
  exists x, maximize x_min x_max f = Ok x /\ x_min <= x /\ x <= x_max /\ (x = x_min \/ f x = Ok true).
Proof.
  intros lo hi f L H. unfold maximize, maximize_x.
  destruct (maximize_loop_ok (fun x s => match f x with Ok b => (Return b, s) | Err _ => (Raise OtherProcessError, s) end)
    (fun x => match f x with Ok b => b | Err _ => false end) convergence_tolerance (S maximum_iterations) (qz 100) lo hi L) as (x & E & A & B & C).
  { intros x A B. destruct (H x A B) as (b & ->). reflexivity. }
  rewrite E. cbn [fst]. exists x. split; auto. split; auto. split; auto. destruct C as [C|C]; auto. destruct (f x) as [[|]|]; auto; discriminate.
Qed.

Section Input.
Variables rates heads : list Qc.
Variables e qm hm : Qc.
Hypothesis E0 : 0 <= e.
Hypothesis E1 : e <= 1.
Hypothesis Q0 : 0 < qm.
Hypothesis H0 : 0 < hm.
Hypothesis Hq : forall q, In q rates -> q <= qm.
Hypothesis Hh : forall h, In h heads -> h <= hm.
Local Notation sr := (qm / max_rate_105).
Local Notation sh := (hm / max_head_105).
Local Notation cs R H := [slow_of (R * sr) (H * sh) e; fast_of (R * sr) (H * sh) e].

Lemma sr_pos : 0 < sr. Proof. apply div_pos; auto. reflexivity. Qed.
Lemma sh_pos : 0 < sh. Proof. apply div_pos; auto. reflexivity. Qed.
Lemma sr_max : sr * max_rate_105 = qm. Proof. field. discriminate. Qed.
Lemma sh_max : sh * max_head_105 = hm. Proof. field. discriminate. Qed.

Lemma result_ok : forall R H, 0 < R -> 0 < H -> exists l, chart_result rates heads e sr sh R H = Ok l /\
  Forall2 (fun p c => evaluate_capacity (cs R H) false (fst p) (snd p) = Ok c) (combine rates heads) l.
Proof.
  intros R H R0 H0'. unfold chart_result.
  assert (0 < R * sr) as A by (apply mul_pos; auto; apply sr_pos). assert (0 < H * sh) as B by (apply mul_pos; auto; apply sh_pos).
  rewrite from_design_ok by auto. cbn [bind]. unfold evaluate_capacities.
  destruct (mapM_total _ _ (fun p => evaluate_capacity (cs R H) false (fst p) (snd p)) (combine rates heads)) as (l & E).
  { intros p _. destruct (no_choking_total (R * sr) (H * sh) e A B E0 E1 (fst p) (snd p)) as (c & _ & _ & _ & E & _). now exists c. }
  exists l. split; auto. apply mapM_Ok in E. exact E.
Qed.
Lemma above_ok : forall R H, 0 < R -> 0 < H -> exists b, above_curve rates heads e sr sh R H = Ok b.
Proof. intros R H A B. unfold above_curve. destruct (result_ok R H A B) as (l & -> & _). cbn [bind]. eauto. Qed.
Lemma below_ok : forall R H, 0 < R -> 0 < H -> exists b, below_wall rates heads e sr sh R H = Ok b.
Proof. intros R H A B. unfold below_wall. destruct (result_ok R H A B) as (l & -> & _). cbn [bind]. eauto. Qed.
Lemma not_ok : forall r, (exists b, r = Ok b) -> exists b, not_r r = Ok b.
Proof. intros r (b & ->). exists (negb b). reflexivity. Qed.
Lemma not_true : forall r, not_r r = Ok true -> r = Ok false.
Proof. intros [[|]|] E; try discriminate; reflexivity. Qed.

(** the points of the chart *)
Lemma point_in : forall R H p, 0 < R -> 0 < H -> In p (combine rates heads) -> exists c, evaluate_capacity (cs R H) false (fst p) (snd p) = Ok c /\
  (above_curve rates heads e sr sh R H = Ok false -> ca_rate_exceeds c && ca_head_exceeds c = false) /\
  (below_wall rates heads e sr sh R H = Ok false -> ca_rate_exceeds c && negb (ca_head_exceeds c) = false).
Proof.
  intros R H p A B Hp. destruct (result_ok R H A B) as (l & E & F). unfold above_curve, below_wall. rewrite E. cbn [bind]. clear E.
  assert (forall f : capacity -> bool, existsb f l = false -> forall c, In c l -> f c = false) as X.
  { intros f. clear. induction l as [|a l IH]; intros N c Hc; [destruct Hc|]. cbn in N. apply orb_false_iff in N as [N1 N2]. destruct Hc as [<-|Hc]; auto. }
  assert (exists c, In c l /\ evaluate_capacity (cs R H) false (fst p) (snd p) = Ok c) as (c & Hc & E).
  { clear X. induction F as [|a c l' m E _ IH]; [destruct Hp|]. destruct Hp as [->|Hp]; [exists c; split; [now left|auto]|]. destruct (IH Hp) as (d & Hd & Ed). exists d. split; auto. now right. }
  exists c. split; auto. split; intros Y; injection Y as Y.
  - exact (X (fun c => ca_rate_exceeds c && ca_head_exceeds c) Y c Hc).
  - exact (X (fun c => ca_rate_exceeds c && negb (ca_head_exceeds c)) Y c Hc).
Qed.

Lemma head_fits : forall H h, 1 <= H -> In h heads -> h <= H * sh * max_head_105.
Proof.
  intros H h L Hin. apply Hh in Hin. replace (H * sh * max_head_105) with (H * hm) by (rewrite <- sh_max at 1; ring).
  assert (0 <= (H - 1) * hm) by (apply mul_nn; qc_lra). qc_lra.
Qed.
Lemma rate_fits : forall R q, 1 <= R -> In q rates -> q <= R * sr * max_rate_105.
Proof.
  intros R q L Hin. apply Hq in Hin. replace (R * sr * max_rate_105) with (R * qm) by (rewrite <- sr_max at 1; ring).
  assert (0 <= (R - 1) * qm) by (apply mul_nn; qc_lra). qc_lra.
Qed.

(** a chart without points above its fastest curve holds all points when throttling is allowed *)
Lemma holds : forall R H, 1 <= R -> 1 <= H -> above_curve rates heads e sr sh R H = Ok false ->
  forall q h, In (q, h) (combine rates heads) -> exists c, evaluate_capacity (cs R H) true q h = Ok c /\ ca_exceeds c = false.
Proof.
  intros R H L1 L2 N q h Hin. assert (0 < R) as R0 by qc_lra. assert (0 < H) as H0' by qc_lra.
  assert (0 < R * sr) as A by (apply mul_pos; auto; apply sr_pos). assert (0 < H * sh) as B by (apply mul_pos; auto; apply sh_pos).
  destruct (point_in R H (q, h) R0 H0' Hin) as (c & E & Ab & _). specialize (Ab N). cbn [fst snd] in E.
  apply (choked_ok (R * sr) (H * sh) e A B E0 E1 q h c E).
  - destruct (ca_head_exceeds c) eqn:X; auto. rewrite (above_reported (R * sr) (H * sh) e A B E0 E1 q h c E) in Ab; auto.
    apply head_fits; auto. eapply in_combine_r; eauto.
  - apply rate_fits; auto. eapply in_combine_l; eauto.
Qed.
(** with a large rate there are no points above the fastest curve *)
Lemma wide : forall R H, qc 1507 1000 <= R -> 1 <= H -> above_curve rates heads e sr sh R H = Ok false.
Proof.
  intros R H L1 L2. assert (0 < R) as R0 by (assert (0 < qc 1507 1000) by reflexivity; qc_lra). assert (0 < H) as H0' by qc_lra.
  assert (0 < R * sr) as A by (apply mul_pos; auto; apply sr_pos). assert (0 < H * sh) as B by (apply mul_pos; auto; apply sh_pos).
  destruct (result_ok R H R0 H0') as (l & E & F). unfold above_curve. rewrite E. cbn [bind]. f_equal.
  apply Bool.not_true_is_false. intros X. apply existsb_exists in X as (c & Hc & X). apply andb_true_iff in X as [_ X].
  assert (exists p, In p (combine rates heads) /\ evaluate_capacity (cs R H) false (fst p) (snd p) = Ok c) as ([q h] & Hp & Ep).
  { clear - F Hc. induction F as [|a d l' m E _ IH]; [destruct Hc|]. destruct Hc as [->|Hc]; [exists a; split; [now left|auto]|]. destruct (IH Hc) as (p & Hp & Ep). exists p. split; auto. now right. }
  cbn [fst snd] in Ep. rewrite (left_not_above (R * sr) (H * sh) e A B E0 E1 q h c Ep) in X; [discriminate| |].
  - apply head_fits; auto. eapply in_combine_r; eauto.
  - apply in_combine_l in Hp. apply Hq in Hp. 
    assert (qm <= R * sr * q9 878913798); [|qc_lra].
    replace (R * sr * q9 878913798) with (qm * (R * (q9 878913798 / max_rate_105))) by (field; discriminate).
    assert (1 <= R * (q9 878913798 / max_rate_105)) as Y.
    { assert (qc 1507 1000 * (q9 878913798 / max_rate_105) <= R * (q9 878913798 / max_rate_105)) as Z.
      { rewrite (Qcmult_comm R), (Qcmult_comm (qc 1507 1000)). apply scale_le; auto. reflexivity. }
      eapply Qcle_trans; [|exact Z]. vm_compute. discriminate. }
    assert (0 <= qm * (R * (q9 878913798 / max_rate_105) - 1)) by (apply mul_nn; qc_lra). qc_lra.
Qed.

Definition round_of (n : nat) : Qc := qz (Z.of_nat n) * qc 1 100.
Lemma round_S : forall n, round_of (S n) = qc 1 100 + round_of n.
Proof.
  intros n. unfold round_of. rewrite Nat2Z.inj_succ. unfold Z.succ. rewrite qz_plus, qz_1. ring.
Qed.

Lemma increase_ok : forall n R H, 1 <= R -> 1 <= H -> H <= 1 + change_in_head -> qc 1507 1000 <= R + round_of n ->
  exists R' H', increase rates heads e sr sh n R H = Ok (Some (R', H')) /\ 1 <= R' /\ 1 <= H' /\ above_curve rates heads e sr sh R' H' = Ok false.
Proof.
  induction n as [|n IH]; intros R H L1 L2 L3 L4.
  - assert (qc 1507 1000 <= R) as W by (revert L4; unfold round_of; cbn [Z.of_nat]; replace (qz 0 * qc 1 100) with (0 : Qc) by (apply Qc_is_canon; reflexivity); intros; qc_lra).
    cbn [increase]. rewrite (wide R H W L2). cbn [bind]. exists R, H. split; auto. split; auto. split; auto. now apply wide.
  - cbn [increase]. destruct (above_ok R H) as (b & Eb); try qc_lra. rewrite Eb. cbn [bind]. destruct b.
    + assert (1 <= R + qc 1 100) as L1' by (assert (0 < qc 1 100) by reflexivity; qc_lra).
      destruct (maximize_ok H (1 + change_in_head) (fun x => not_r (below_wall rates heads e sr sh (R + qc 1 100) x)) L3) as (H' & E & A & B & _).
      { intros x A B. apply not_ok. apply below_ok; qc_lra. }
      rewrite E. cbn [bind]. apply IH; auto; [now apply Qcle_trans with H|]. rewrite round_S in L4. qc_lra.
    + exists R, H. split; auto.
Qed.
Lemma increase_more : forall n k R H x, increase rates heads e sr sh n R H = Ok (Some x) -> increase rates heads e sr sh (n + k) R H = Ok (Some x).
Proof.
  induction n as [|n IH]; intros k R H x E.
  - cbn [increase] in E. destruct (above_curve rates heads e sr sh R H) as [[|]|] eqn:A; cbn [bind] in E; try discriminate.
    destruct (0 + k)%nat; cbn [increase]; rewrite A; exact E.
  - cbn [increase Nat.add] in *. destruct (above_curve rates heads e sr sh R H) as [[|]|] eqn:A; cbn [bind] in *; try discriminate; auto.
    destruct (maximize H (1 + change_in_head) _) as [H'|]; cbn [bind] in *; [|discriminate]. now apply IH.
Qed.

Lemma design_ok : In qm rates -> List.length rates = List.length heads ->
  exists R H, 1 <= R /\ 1 <= H /\ above_curve rates heads e sr sh R H = Ok false /\
  forall n, (51 <= n)%nat -> unified_design rates heads e sr sh n = Ok (Some (R, H)).
Proof.
  intros Im Le. assert (0 < (1 : Qc)) as P1 by reflexivity. assert (0 < change_in_head) as CH by reflexivity. assert (0 < change_in_rate) as CR by reflexivity.
  assert (forall R H, 1 <= R -> 1 <= H -> H <= 1 + change_in_head -> exists R' H', 1 <= R' /\ 1 <= H' /\ above_curve rates heads e sr sh R' H' = Ok false /\
    forall n, (51 <= n)%nat -> increase rates heads e sr sh n R H = Ok (Some (R', H'))) as Inc.
  { intros R H A B C. destruct (increase_ok 51 R H A B C) as (R' & H' & E & X & Y & Z).
    - assert (qc 1507 1000 <= 1 + round_of 51) by (vm_compute; discriminate). qc_lra.
    - exists R', H'. repeat (split; [assumption|]). intros n Ln. replace n with (51 + (n - 51))%nat by lia. now apply increase_more. }
  unfold unified_design. destruct (below_ok 1 1 P1 P1) as (below & Eb). rewrite Eb. cbn [bind]. destruct below.
  - set (maximum := 1 + change_in_rate).
    destruct (maximize_ok 0 (maximum - 1) (fun x => not_r (below_wall rates heads e sr sh (maximum - x) 1))) as (x & E & A & B & _).
    { unfold maximum. qc_lra. }
    { intros x A B. apply not_ok. apply below_ok; auto. qc_lra. }
    destruct (Inc (maximum - x) 1) as (R & H & A1 & A2 & A3 & A4); [qc_lra|apply Qcle_refl|qc_lra|].
    exists R, H. split; auto. split; auto. split; auto. intros n Ln. rewrite E. cbn [bind]. now apply A4.
  - destruct (above_ok 1 1 P1 P1) as (above & Ea). rewrite Ea. cbn [bind]. destruct above.
    2:{ exists 1, 1. split; [apply Qcle_refl|]. split; [apply Qcle_refl|]. split; auto. }
    destruct (maximize_ok 1 (1 + change_in_head) (fun x => not_r (below_wall rates heads e sr sh 1 x))) as (H & E & A & B & C).
    { qc_lra. } { intros x A B. apply not_ok. apply below_ok; auto. qc_lra. }
    assert (below_wall rates heads e sr sh 1 H = Ok false) as NB by (destruct C as [->|C]; auto; now apply not_true).
    destruct (above_ok 1 H P1) as (still & Es); [qc_lra|]. destruct still.
    + destruct (Inc 1 H) as (R' & H' & A1 & A2 & A3 & A4); auto; [apply Qcle_refl|].
      exists R', H'. split; auto. split; auto. split; auto. intros n Ln. rewrite E. cbn [bind]. rewrite Es. cbn [bind negb]. now apply A4.
    + destruct (maximize_ok 0 change_in_head (fun x => not_r (above_curve rates heads e sr sh 1 (H - x)))) as (x & Ex & X0 & X1 & Xc).
      { qc_lra. } { intros x X0 X1. apply not_ok. apply above_ok; auto. assert (change_in_head < 1) by reflexivity. qc_lra. }
      assert (x = 0) as ->.
      { destruct Xc as [Xc|Xc]; auto. destruct (Qcle_lt_or_eq _ _ X0) as [X|X]; [exfalso|auto]. apply not_true in Xc.
        assert (0 < H - x) as HX by (assert (change_in_head < 1) by reflexivity; qc_lra). assert (0 < H) as H0' by qc_lra.
        (* the point with the largest rate *)
        assert (exists h, In (qm, h) (combine rates heads)) as (h & Hp).
        { clear - Im Le. revert heads Le. induction rates as [|q l IH]; intros [|h m] Le; try discriminate Le; [destruct Im|].
          destruct Im as [->|Im]; [exists h; now left|]. destruct (IH Im m) as (h' & X); [now injection Le|]. exists h'. now right. }
        assert (forall R, R = 1 -> R * sr * max_rate_105 = qm) as ER by (intros R ->; transitivity (sr * max_rate_105); [ring|apply sr_max]).
        assert (0 < 1 * sr) as AA by (apply mul_pos; auto; apply sr_pos).
        assert (0 < H * sh) as BB by (apply mul_pos; auto; apply sh_pos). assert (0 < (H - x) * sh) as CC by (apply mul_pos; auto; apply sh_pos).
        destruct (point_in 1 H (qm, h) P1 H0' Hp) as (c & Ec & Ab & Be). specialize (Ab Es). specialize (Be NB). cbn [fst snd] in Ec.
        assert (ca_rate_exceeds c = false) as Xr by (destruct (ca_rate_exceeds c), (ca_head_exceeds c); auto; discriminate).
        pose proof (end_exceeds (1 * sr) (H * sh) e AA BB E0 E1 qm h c Ec) as Eh. rewrite (ER 1 eq_refl) in Eh. specialize (Eh (Qcle_refl _) Xr).
        destruct (point_in 1 (H - x) (qm, h) P1 HX Hp) as (d & Ed & Ad & _). specialize (Ad Xc). cbn [fst snd] in Ed.
        assert ((H - x) * sh * min_head_105 < h) as Lh.
        { rewrite Eh. replace ((H - x) * sh * min_head_105) with (H * sh * min_head_105 - x * (sh * min_head_105)) by ring.
          assert (0 < x * (sh * min_head_105)) by (apply mul_pos; auto; apply mul_pos; [apply sh_pos|reflexivity]). qc_lra. }
        assert (ca_rate_exceeds d = true) as Yr.
        { destruct (ca_rate_exceeds d) eqn:Y; auto. exfalso. pose proof (end_exceeds (1 * sr) ((H - x) * sh) e AA CC E0 E1 qm h d Ed) as Z.
          rewrite (ER 1 eq_refl) in Z. specialize (Z (Qcle_refl _) Y). rewrite Z in Lh. qc_lra. }
        assert (ca_head_exceeds d = true) as Yh.
        { destruct (no_choking_total (1 * sr) ((H - x) * sh) e AA CC E0 E1 qm h) as (d' & m & M & f & Ed' & Vf & _ & _ & Xh). rewrite Ed in Ed'. injection Ed' as <-.
          rewrite Xh. apply Qcltb_lt. destruct (generic_ends (1 * sr) ((H - x) * sh) e AA E0 E1) as (_ & _ & _ & FR). destruct (fast_proper (1 * sr) ((H - x) * sh) e AA E0 E1) as [PP NN].
          assert (f = p_head (fast_right (1 * sr) ((H - x) * sh) e)) as ->; [|exact Lh].
          apply (value_at_unique (quantity p_head (fast_of (1 * sr) ((H - x) * sh) e)) qm); auto; [apply quantity_rising; [apply PP|auto]|].
          assert (In (qm, p_head (fast_right (1 * sr) ((H - x) * sh) e)) (quantity p_head (fast_of (1 * sr) ((H - x) * sh) e))) as I.
          { unfold quantity. apply in_map_iff. exists (fast_right (1 * sr) ((H - x) * sh) e). split; [|apply FR]. f_equal. cbn. now apply ER. }
          left. split; [|now left]. split; eexists _, _; (split; [exact I|apply Qcle_refl]). }
        rewrite Yr, Yh in Ad. discriminate. }
      exists 1, H. split; [apply Qcle_refl|]. split; auto. split; auto. intros n _. rewrite E. cbn [bind]. rewrite Es. cbn [bind negb]. rewrite Ex. cbn [bind].
      replace (1 - 0 : Qc) with (1 : Qc) by ring. reflexivity.
Qed.
End Input.

Lemma qc_max_greatest : forall l m, greatest l m -> qc_max_of l = Ok m.
Proof.
  intros l m [Hm Gm]. destruct (qc_max_ok l) as (x & E & Hx & B); [intros ->; destruct Hm|]. rewrite E. f_equal. apply Qcle_antisym; auto.
Qed.

Theorem holds_proof : forall rates heads e qm hm, List.length rates = List.length heads -> greatest rates qm -> greatest heads hm ->
  0 < qm -> 0 < hm -> 0 <= e -> e <= 1 ->
  exists cs rate head, (forall n, (51 <= n)%nat -> from_values n rates heads e = Ok (Some cs)) /\
    design_chart rate head e cs /\ qm <= rate * largest_unified_rate /\ hm <= head * greatest_unified_head /\
    forall q h, In (q, h) (combine rates heads) -> exists c, evaluate_capacity cs true q h = Ok c /\ ca_exceeds c = false.
Proof.
  intros rates heads e qm hm Le Gq Gh Q0 H0 E0 E1.
  destruct (design_ok rates heads e qm hm E0 E1 Q0 H0) as (R & H & L1 & L2 & Ab & D); auto; try apply Gq; try apply Gh.
  assert (0 < R * (qm / max_rate_105)) as A by (apply mul_pos; [qc_lra|now apply sr_pos]).
  exists [slow_of (R * (qm / max_rate_105)) (H * (hm / max_head_105)) e; fast_of (R * (qm / max_rate_105)) (H * (hm / max_head_105)) e],
    (R * (qm / max_rate_105)), (H * (hm / max_head_105)). split; [|split; [|split; [|split]]].
  - intros n Ln. unfold from_values. rewrite (qc_max_greatest rates qm Gq), (qc_max_greatest heads hm Gh). cbn [bind]. rewrite D by auto. cbn [bind].
    rewrite from_design_ok by auto. reflexivity.
  - reflexivity.
  - apply (rate_fits rates qm Q0); auto; apply Gq.
  - apply (head_fits heads hm H0); auto; apply Gh.
  - apply (holds rates heads e qm hm); auto; [apply Gq|apply Gh].
Qed.

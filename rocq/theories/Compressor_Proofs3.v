(** Points inside and outside a compressor chart. *)
From Coq Require Import PeanoNat.
From Verif Require Import QcTac Base BaseLemmas Num Interp_Model Interp_Spec Time_Proofs Interp_Proofs Chart_Model Chart_Spec
  Chart_Proofs Chart_Proofs2 Pump_Proofs Compressor_Model Compressor_Spec Compressor_Proofs Compressor_Proofs2.
Local Open Scope list_scope.
Local Open Scope Qc_scope.

(** ** a quantity of the end points at the speed of a curve *)
Lemma across_on : forall (ends : curve -> Qc * Qc * Qc -> Prop) (g : Qc * Qc * Qc -> Qc) cs c y,
  StronglySorted Qclt (map cv_speed cs) -> In c cs -> across ends g cs (cv_speed c) y -> exists p, ends c p /\ y = g p.
Proof.
  intros ends g cs c y S Hc (d & F & V).
  assert (exists a, In a d /\ fst a = cv_speed c /\ exists p, ends c p /\ snd a = g p) as (a & Ia & Fa & p & Hp & Ga).
  { clear - F Hc. induction F as [|x a cs d (A & B) _ IH]; [destruct Hc|]. destruct Hc as [->|Hc].
    - exists a. split; [now left|]. auto.
    - destruct (IH Hc) as (b & Ib & H). exists b. split; [now right|auto]. }
  exists p. split; auto.
  assert (map fst d = map cv_speed cs) as Ed by (clear - F; induction F as [|x a l m [H _] _ IH]; cbn; congruence).
  assert (rising d) as R.
  { rewrite <- Ed in S. clear - S. induction d as [|q d IH]; [exact I|]. cbn [map] in S.
    apply StronglySorted_inv in S as [S F]. split; auto. intros r Hr. rewrite Forall_forall in F. apply F. now apply in_map. }
  eapply value_at_unique; [exact R|exact V|]. left. destruct a as [a ya]. cbn [fst snd] in *. subst a ya. split.
  - split; exists (cv_speed c), (g p); split; auto; apply Qcle_refl.
  - left. auto.
Qed.

(** a quantity of the end points lies within the bounds of that quantity *)
Lemma across_above : forall (ends : curve -> Qc * Qc * Qc -> Prop) (g : Qc * Qc * Qc -> Qc) cs s y m,
  (forall c p p', In c cs -> ends c p -> ends c p' -> g p = g p') ->
  proper_chart cs -> within_speeds cs s -> (forall c p, In c cs -> ends c p -> m < g p) -> across ends g cs s y -> m < y.
Proof.
  intros ends g cs s y m U (N & P & S) W B A. destruct (curve_by_speed cs s) as [c|] eqn:E.
  - apply curve_by_speed_some in E as [Hc <-]. destruct (across_on _ _ _ _ _ S Hc A) as (p & Hp & ->). eauto.
  - destruct (split_at_speed cs s S W (curve_by_speed_none _ _ E)) as (before & c1 & c2 & after & Ec & L1 & L2).
    destruct (across_between ends g cs s y before c1 c2 after) as (p1 & p2 & H1 & H2 & ->); auto.
    destruct (weight_ok _ _ _ L1 L2) as (W1 & W2 & _).
    assert (In c1 cs /\ In c2 cs) as [I1 I2] by (rewrite Ec; split; apply in_or_app; right; [left|right; left]; reflexivity).
    pose proof (B c1 p1 I1 H1). pose proof (B c2 p2 I2 H2). revert W1 W2. generalize ((s - cv_speed c1) / (cv_speed c2 - cv_speed c1)).
    intros w W1 W2. unfold mix. qc_nra.
Qed.

(** the smallest rate lies below the largest *)
Lemma range_apart : forall cs s lo hi, proper_chart cs -> within_speeds cs s -> smallest_rate cs s lo -> largest_rate cs s hi -> lo < hi.
Proof.
  intros cs s lo hi PC W Lo Hi. pose proof PC as (N & P & S). destruct (curve_by_speed cs s) as [c|] eqn:E.
  - apply curve_by_speed_some in E as [Hc <-]. destruct (across_on _ _ _ _ _ S Hc Lo) as (p & Hp & ->).
    destruct (across_on _ _ _ _ _ S Hc Hi) as (q & Hq & ->). destruct (P c Hc). eapply ends_apart; eauto.
  - destruct (split_at_speed cs s S W (curve_by_speed_none _ _ E)) as (before & c1 & c2 & after & Ec & L1 & L2).
    destruct (across_between left_end p_rate cs s lo before c1 c2 after) as (p1 & p2 & H1 & H2 & ->); auto.
    { intros c p p' _. apply left_unique. }
    destruct (across_between right_end p_rate cs s hi before c1 c2 after) as (q1 & q2 & K1 & K2 & ->); auto.
    { intros c p p' _. apply right_unique. }
    assert (In c1 cs /\ In c2 cs) as [I1 I2] by (rewrite Ec; split; apply in_or_app; right; [left|right; left]; reflexivity).
    destruct (weight_ok _ _ _ L1 L2) as (W1 & W2 & _). destruct (P c1 I1), (P c2 I2). apply mix_lt; auto; [now apply (ends_apart c1)|now apply (ends_apart c2)].
Qed.

(** ** all cases *)
Lemma placed_ok : forall cs speed rate choke asv s increased flag, proper_chart cs ->
  (forall c p, In c cs -> right_end c p -> EPSILON < p_rate p) -> EPSILON < rate \/ asv = true ->
  runs_at cs choke speed s ->
  (increased = false /\ flag = InternalPoint /\ s = speed) \/ (increased = true /\ flag = BelowMinimumSpeed /\ choke = true /\ lowest_speed cs s /\ speed < s) ->
  exists r, (do minimum <- minimum_rate_of_speed cs s;
    do maximum <- maximum_rate_of_speed cs s;
    let '(valid, rate_to_use) :=
      if Qcltb rate minimum then if asv then (true, minimum) else (false, rate) else (true, rate) in
    let '(valid, flag) :=
      if Qcleb rate EPSILON then (valid, NoFlowRate)
      else if Qcltb rate minimum then (valid, if increased then BelowMinimumSpeedAndFlowRate else BelowMinimumFlowRate)
      else if Qcltb maximum rate then
        (false, if increased then BelowMinimumSpeedAboveMaximumFlowRate else AboveMaximumFlowRate)
      else (valid, flag) in
    do he <- head_and_efficiency cs valid s rate_to_use flag;
    Ok (mkChartPoint (fst he) (snd he) flag valid)) = Ok r /\ flagged EPSILON cs choke speed rate (cp_flag r) /\ answer cs speed rate choke asv r.
Proof.
  intros cs speed rate choke asv s increased flag PC HE HR RA HF.
  pose proof (runs_within _ _ _ _ RA) as W.
  destruct (smallest_ok cs s PC) as (lo & -> & Lo & _). destruct (largest_ok cs s PC) as (hi & -> & Hi & _). cbn [bind].
  pose proof (range_apart cs s lo hi PC W Lo Hi) as LH.
  assert (EPSILON < hi) as EH.
  { eapply across_above; [|exact PC|exact W|exact HE|exact Hi]. intros c p p' _. apply right_unique. }
  assert (EPSILON < rate -> lo <= rate -> rate <= hi -> flagged EPSILON cs choke speed rate flag) as FI.
  { intros A B C. destruct HF as [(-> & -> & ->)|(-> & -> & -> & D & E)]; cbn [flagged].
    - split; auto. split; auto. exists lo, hi. auto.
    - exists s. split; auto. split; auto. right. split; auto. exists lo, hi. auto. }
  destruct (Qcltb rate lo) eqn:RL.
  - apply Qcltb_lt in RL. assert (Qcmax lo rate = lo) as QM by (qc_cases; qc_lra).
    destruct asv.
    + (* the rate is increased *)
      set (fl := if Qcleb rate EPSILON then NoFlowRate else if increased then BelowMinimumSpeedAndFlowRate else BelowMinimumFlowRate).
      assert ((let '(valid, flag) := if Qcleb rate EPSILON then (true, NoFlowRate)
          else (true, if increased then BelowMinimumSpeedAndFlowRate else BelowMinimumFlowRate) in
          do he <- head_and_efficiency cs valid s lo flag; Ok (mkChartPoint (fst he) (snd he) flag valid)) =
          (do he <- head_and_efficiency cs true s lo fl; Ok (mkChartPoint (fst he) (snd he) fl true))) as ->.
      { unfold fl. destruct (Qcleb rate EPSILON); reflexivity. }
      destruct (inside_ok cs s lo lo hi fl PC W Lo Hi (Qcle_refl _) (Qclt_le_weak _ _ LH)) as (h & e & -> & A & B). cbn [bind fst snd].
      eexists. split; [reflexivity|]. cbn [cp_flag]. split.
      * unfold fl. destruct (Qcleb rate EPSILON) eqn:R0; cbn [flagged].
        -- apply Qcleb_le in R0. split; auto. exists s. auto.
        -- apply Qcleb_gt in R0. destruct HF as [(-> & -> & ->)|(-> & -> & -> & D & E)]; cbn [flagged].
           ++ split; auto. split; auto. exists lo. auto.
           ++ split; auto. split; auto. exists s, lo. auto.
      * right. exists s, lo, hi. split; auto. split; auto. split; auto. exists h, e. cbn [cp_head cp_eff cp_valid]. split; auto. split; auto.
        left. rewrite QM. repeat split; auto. qc_lra.
    + destruct HR as [HR|HR]; [|discriminate]. rewrite (proj2 (Qcleb_gt rate EPSILON) HR).
      destruct (along_speed_ok _ _ _ cs s head_min_ends PC) as (h & Eh & Ah). destruct (along_speed_ok _ _ _ cs s eff_min_ends PC) as (e & Ee & Ae).
      assert (head_and_efficiency cs false s rate (if increased then BelowMinimumSpeedAndFlowRate else BelowMinimumFlowRate) = Ok (Some h, Some e)) as ->.
      { unfold head_and_efficiency, extrapolated. destruct increased; rewrite Eh, Ee; reflexivity. }
      cbn [bind fst snd]. eexists. split; [reflexivity|]. cbn [cp_flag]. split.
      * destruct HF as [(-> & -> & ->)|(-> & -> & -> & D & E)]; cbn [flagged].
        -- split; auto. split; auto. exists lo. auto.
        -- split; auto. split; auto. exists s, lo. auto.
      * right. exists s, lo, hi. split; auto. split; auto. split; auto. exists h, e. cbn [cp_head cp_eff cp_valid]. split; auto. split; auto.
        right. right. repeat split; auto.
  - apply Qcltb_ge in RL. assert (Qcmax lo rate = rate) as QM by (qc_cases; qc_lra).
    destruct (Qcleb rate EPSILON) eqn:R0.
    + apply Qcleb_le in R0. assert (rate <= hi) as RH by qc_lra.
      destruct (inside_ok cs s rate lo hi NoFlowRate PC W Lo Hi RL RH) as (h & e & -> & A & B). cbn [bind fst snd].
      eexists. split; [reflexivity|]. cbn [cp_flag flagged]. split; [split; auto; exists s; auto|].
      right. exists s, lo, hi. split; auto. split; auto. split; auto. exists h, e. cbn [cp_head cp_eff cp_valid]. split; auto. split; auto.
      left. rewrite QM. repeat split; auto.
    + apply Qcleb_gt in R0. destruct (Qcltb hi rate) eqn:RH.
      * apply Qcltb_lt in RH.
        destruct (along_speed_ok _ _ _ cs s head_max_ends PC) as (h & Eh & Ah). destruct (along_speed_ok _ _ _ cs s eff_max_ends PC) as (e & Ee & Ae).
        assert (head_and_efficiency cs false s rate (if increased then BelowMinimumSpeedAboveMaximumFlowRate else AboveMaximumFlowRate) = Ok (Some h, Some e)) as ->.
        { unfold head_and_efficiency, extrapolated. destruct increased; rewrite Eh, Ee; reflexivity. }
        cbn [bind fst snd]. eexists. split; [reflexivity|]. cbn [cp_flag]. split.
        -- destruct HF as [(-> & -> & ->)|(-> & -> & -> & D & E)]; cbn [flagged].
           ++ split; auto. split; auto. exists hi. auto.
           ++ split; auto. split; auto. exists s, hi. auto.
        -- right. exists s, lo, hi. split; auto. split; auto. split; auto. exists h, e. cbn [cp_head cp_eff cp_valid]. split; auto. split; auto.
           right. left. repeat split; auto.
      * apply Qcltb_ge in RH.
        destruct (inside_ok cs s rate lo hi flag PC W Lo Hi RL RH) as (h & e & -> & A & B). cbn [bind fst snd].
        eexists. split; [reflexivity|]. cbn [cp_flag]. split; [now apply FI|].
        right. exists s, lo, hi. split; auto. split; auto. split; auto. exists h, e. cbn [cp_head cp_eff cp_valid]. split; auto. split; auto.
        left. rewrite QM. repeat split; auto.
Qed.

Theorem point_proof : forall cs speed rate choke asv, proper_chart cs ->
  (forall c p, In c cs -> right_end c p -> EPSILON < p_rate p) -> EPSILON < rate \/ asv = true ->
  exists r, single_point cs speed rate None choke asv = Ok r /\ flagged EPSILON cs choke speed rate (cp_flag r) /\ answer cs speed rate choke asv r.
Proof.
  intros cs speed rate choke asv PC HE HR. destruct (chart_speeds cs PC) as (lo & hi & Elo & Ehi & LL & WS & LH).
  unfold single_point, place_point. rewrite Elo, Ehi. cbn [bind].
  destruct (Qcltb speed lo) eqn:A.
  - apply Qcltb_lt in A. destruct choke.
    + destruct (placed_ok cs speed rate true asv lo true BelowMinimumSpeed PC HE HR) as (r & E & H); auto.
      { right. auto. }
      { right. auto. }
      exists r. split; auto. rewrite <- E.
      destruct (minimum_rate_of_speed cs lo) as [m|]; [|reflexivity]. destruct (maximum_rate_of_speed cs lo) as [n|]; [|reflexivity]. cbn [bind].
      destruct (Qcltb rate m); [destruct asv|]; (destruct (Qcleb rate EPSILON); [reflexivity|]); cbn [bind]; try reflexivity; destruct (Qcltb n rate); reflexivity.
    + cbn [bind]. eexists. split; [reflexivity|]. cbn [cp_flag flagged fst snd]. split; [exists lo; auto|]. left.
      split; [reflexivity|]. split; [|split; reflexivity]. intros s [[-> W]|(X & _)]; [|discriminate]. apply WS in W. qc_lra.
  - apply Qcltb_ge in A. destruct (Qcltb hi speed) eqn:B.
    + apply Qcltb_lt in B. cbn [bind]. eexists. split; [reflexivity|]. cbn [cp_flag flagged fst snd].
      assert (forall c, In c cs -> cv_speed c < speed) as X.
      { intros c Hc. assert (within_speeds cs (cv_speed c)) as W by (split; exists c; split; auto; apply Qcle_refl). apply WS in W. qc_lra. }
      split; auto. left. split; [reflexivity|]. split; [|split; reflexivity]. intros s [[-> W]|(_ & [(c & Hc & <-) _] & Y)].
      * apply WS in W. qc_lra.
      * apply X in Hc. qc_lra.
    + apply Qcltb_ge in B.
      destruct (placed_ok cs speed rate choke asv speed false InternalPoint PC HE HR) as (r & E & H); auto.
      { left. split; auto. now apply WS. }
      exists r. split; auto. rewrite <- E.
      destruct (minimum_rate_of_speed cs speed) as [m|]; [|reflexivity]. destruct (maximum_rate_of_speed cs speed) as [n|]; [|reflexivity]. cbn [bind].
      destruct (Qcltb rate m); [destruct asv|]; (destruct (Qcleb rate EPSILON); [reflexivity|]); cbn [bind]; try reflexivity; destruct (Qcltb n rate); reflexivity.
Qed.

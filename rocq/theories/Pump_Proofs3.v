(** The reported maximum rate, and the older pump model. *)
From Coq Require Import PeanoNat.
From Verif Require Import QcTac Base BaseLemmas Num Units_Model Interp_Model Interp_Spec Time_Proofs Interp_Proofs
  Chart_Model Chart_Spec Chart_Proofs Chart_Proofs2 Pump_Model Pump_Spec Pump_Proofs Pump_Proofs2.
Local Open Scope list_scope.
Local Open Scope Qc_scope.

Definition swap (p : Qc * Qc) : Qc * Qc := (snd p, fst p).

Lemma in_swap : forall data a b, In (a, b) (map swap data) <-> In (b, a) data.
Proof.
  intros data a b. rewrite in_map_iff. split.
  - intros ([x y] & E & H). unfold swap in E. cbn in E. injection E as <- <-. exact H.
  - intros H. exists (b, a). auto.
Qed.

Lemma in_unswap : forall data a b, In (a, b) (map swap data) -> In (b, a) data. Proof. intros. now apply in_swap. Qed.
Lemma swap_in : forall data a b, In (b, a) data -> In (a, b) (map swap data). Proof. intros. now apply in_swap. Qed.

Definition functional (data : list (Qc * Qc)) : Prop := forall a y y', In (a, y) data -> In (a, y') data -> y = y'.
Lemma rising_functional : forall data, rising data -> functional data.
Proof.
  induction data as [|[a ya] d IH]; intros R x y y' H H'; [destruct H|]. destruct R as [R1 R2].
  destruct H as [E|H], H' as [E'|H'].
  - congruence.
  - injection E as <- <-. apply R1 in H'. elim (Qclt_not_eq _ _ H'). reflexivity.
  - injection E' as <- <-. apply R1 in H. elim (Qclt_not_eq _ _ H). reflexivity.
  - eapply IH; eauto.
Qed.

Lemma segment : forall x a b (ya yb : Qc), a < x -> x < b -> yb < ya ->
  let y := ya + (yb - ya) * ((x - a) / (b - a)) in yb < y /\ y < ya.
Proof.
  intros x a b ya yb L1 L2 L y. assert (b - a <> 0) as N by (intros E; qc_lra).
  set (t := (x - a) / (b - a)) in *. assert (t * (b - a) = x - a) as Et by (unfold t; field; exact N).
  assert (0 < t) by (apply div_pos; qc_lra). assert (t < 1). { destruct (Qclt_le_dec t 1); auto. exfalso. assert (b - a <= t * (b - a)) by (clear - q L1 L2; qc_nra). rewrite Et in H0. qc_lra. }
  unfold y. split.
  - assert (0 < (ya - yb) * (1 - t)) by (apply mul_pos; qc_lra). replace (ya + (yb - ya) * t) with (yb + (ya - yb) * (1 - t)) by ring. qc_lra.
  - assert (0 < (ya - yb) * t) by (apply mul_pos; qc_lra). replace (ya + (yb - ya) * t) with (ya - (ya - yb) * t) by ring. qc_lra.
Qed.

Lemma falling_interp : forall data x y x' y', functional data -> falling data -> interpolates data x y -> interpolates data x' y' -> x < x' -> y' < y.
Proof.
  intros data x y x' y' U F [H|(a & ya & b & yb & Ha & Hb & L1 & L2 & Nb & Ey)] [H'|(a' & ya' & b' & yb' & Ha' & Hb' & L1' & L2' & Nb' & Ey')] L.
  - eapply F; eauto.
  - assert (yb' < ya') as LY by (eapply F; eauto; qc_lra). pose proof (segment x' a' b' ya' yb' L1' L2' LY) as [S1 S2]. cbn zeta in S1, S2. rewrite <- Ey' in S1, S2.
    destruct (Nb' _ _ H) as [C|C]; [|exfalso; qc_lra]. apply Qcle_lt_or_eq in C as [C|C]; [pose proof (F _ _ _ _ H Ha' C); qc_lra|].
    subst a'. assert (y = ya') by (eapply U; eauto). subst. exact S2.
  - assert (yb < ya) as LY by (eapply F; eauto; qc_lra). pose proof (segment x a b ya yb L1 L2 LY) as [S1 S2]. cbn zeta in S1, S2. rewrite <- Ey in S1, S2.
    destruct (Nb _ _ H') as [C|C]; [exfalso; qc_lra|]. apply Qcle_lt_or_eq in C as [C|C]; [pose proof (F _ _ _ _ Hb H' C); qc_lra|].
    subst x'. assert (y' = yb) by (eapply U; eauto). subst. exact S1.
  - assert (yb < ya) as LY by (eapply F; eauto; qc_lra). pose proof (segment x a b ya yb L1 L2 LY) as [S1 S2]. cbn zeta in S1, S2.
    assert (yb' < ya') as LY' by (eapply F; eauto; qc_lra). pose proof (segment x' a' b' ya' yb' L1' L2' LY') as [S1' S2']. cbn zeta in S1', S2'.
    rewrite <- Ey in S1, S2. rewrite <- Ey' in S1', S2'.
    destruct (Nb _ _ Ha') as [C|C].
    + destruct (Nb' _ _ Ha) as [C'|C']; [|exfalso; qc_lra]. assert (a' = a) by now apply Qcle_antisym. subst a'.
      destruct (Nb' _ _ Hb) as [C2|C2]; [exfalso; qc_lra|]. destruct (Nb _ _ Hb') as [C3|C3]; [exfalso; qc_lra|]. assert (b' = b) by now apply Qcle_antisym. subst b'.
      assert (ya' = ya) by (eapply U; eauto). assert (yb' = yb) by (eapply U; eauto). subst ya' yb'. rewrite Ey, Ey'.
      assert (0 < (ya - yb) * ((x' - x) / (b - a))) as Q by (apply mul_pos; [qc_lra|apply div_pos; qc_lra]).
      assert (b - a <> 0) as N by (intros E; qc_lra).
      replace (ya + (yb - ya) * ((x - a) / (b - a))) with (ya + (yb - ya) * ((x' - a) / (b - a)) + (ya - yb) * ((x' - x) / (b - a))) by (field; exact N). qc_lra.
    + apply Qcle_lt_or_eq in C as [C|C]; [pose proof (F _ _ _ _ Hb Ha' C); qc_lra|]. subst a'. assert (ya' = yb) by (eapply U; eauto). subst ya'. qc_lra.
Qed.

Lemma swap_interp : forall data h m, functional data -> falling data -> interpolates (map swap data) h m -> interpolates data m h.
Proof.
  intros data h m U F [H|(a & ya & b & yb & Ha & Hb & L1 & L2 & Nb & Ey)]; [left; now apply in_swap|]. right.
  apply (proj1 (in_swap data a ya)) in Ha. apply (proj1 (in_swap data b yb)) in Hb.
  assert (yb < ya) as LY.
  { destruct (Qclt_le_dec yb ya) as [C|C]; auto. exfalso. apply Qcle_lt_or_eq in C as [C|C]; [pose proof (F _ _ _ _ Ha Hb C); qc_lra|].
    subst yb. assert (a = b) by (eapply U; eauto). subst. qc_lra. }
  pose proof (segment h a b ya yb L1 L2 LY) as [S1 S2]. cbn zeta in S1, S2. rewrite <- Ey in S1, S2.
  exists yb, b, ya, a. split; [exact Hb|]. split; [exact Ha|]. split; [exact S1|]. split; [exact S2|]. split.
  - intros c yc Hc. destruct (Nb yc c) as [C|C]; [now apply in_swap|right|left].
    + destruct (Qclt_le_dec c ya) as [Q|Q]; auto. exfalso. pose proof (F _ _ _ _ Hc Ha Q). qc_lra.
    + destruct (Qclt_le_dec yb c) as [Q|Q]; auto. exfalso. pose proof (F _ _ _ _ Hb Hc Q). qc_lra.
  - rewrite Ey. field. repeat split; intros E; try qc_lra.
Qed.

(** the points of a falling curve in order of head *)
Lemma by_head_facts : forall c h m, proper_curve c -> NoDup (cv_rate c) -> falling (head_points c) ->
  interp1d_ends (map fst (by_head c)) (map snd (by_head c)) h = Ok m ->
  (in_range (map swap (head_points c)) h /\ interpolates (head_points c) m h) \/
  (In m (cv_rate c) /\ (forall r y, In (r, y) (head_points c) -> h < y) /\ (forall r, In r (cv_rate c) -> r <= m)) \/
  (In m (cv_rate c) /\ (forall r y, In (r, y) (head_points c) -> y < h) /\ (forall r, In r (cv_rate c) -> m <= r)).
Proof.
  intros c h m P ND F E.
  assert (rising (head_points c)) as R by (apply curve_rising; auto; apply P).
  pose proof (rising_functional _ R) as U.
  assert (combine (cv_head c) (cv_rate c) = map swap (head_points c)) as ES.
  { unfold head_points. generalize (cv_rate c) (cv_head c). clear. induction l as [|a l IH]; intros [|b k]; cbn; auto. f_equal. apply IH. }
  assert (forall q, In q (by_head c) <-> In q (map swap (head_points c))) as HI.
  { intros q. unfold by_head. rewrite ES. split; intros H; eapply Permutation_in; try exact H; [apply Permutation_sym|]; apply sort_perm. }
  assert (rising (by_head c)) as RB.
  { unfold by_head. apply sort_rising. rewrite ES, map_map. cbn. clear - F R.
    induction (head_points c) as [|[a ya] l IH]; [constructor|]. destruct R as [R1 R2]. cbn. constructor.
    - intros H. apply in_map_iff in H as ([b yb] & Eb & Hb). cbn in Eb. subst yb. pose proof (R1 _ Hb) as L. cbn in L.
      assert (ya < ya) as Q. { apply (F a ya b ya); auto; [now left|now right]. } revert Q. apply Qcle_not_lt, Qcle_refl.
    - apply IH; auto. intros x y x' y' H H' L. apply (F x y x' y'); auto; now right. }
  assert (combine (map fst (by_head c)) (map snd (by_head c)) = by_head c) as EC.
  { generalize (by_head c). clear. induction l as [|[a b] l IH]; cbn; auto. now f_equal. }
  apply interp1d_ends_value in E; [|now rewrite !map_length|now rewrite EC]. rewrite EC in E.
  assert (forall r, In r (cv_rate c) -> exists y, In (r, y) (head_points c)) as HR.
  { unfold head_points. destruct (cv_lengths c) as (L1 & L2 & _). assert (List.length (cv_rate c) = List.length (cv_head c)) as L by congruence. clear - L. revert L. generalize (cv_rate c) (cv_head c).
    induction l as [|a l IH]; intros [|b k] L r Hr; try discriminate L; [destruct Hr|]. destruct Hr as [<-|Hr]; [exists b; now left|].
    destruct (IH k) with (r := r) as [y Hy]; auto. exists y. now right. }
  destruct E as [[IR IP]|(a & Ha & [[L B]|[L B]])].
  - left. split.
    + destruct IR as [(a & ya & Ha & La) (b & yb & Hb & Lb)]. split; [exists a, ya|exists b, yb]; split; auto; now apply HI.
    + apply swap_interp; auto. destruct IP as [H|(a & ya & b & yb & Ha & Hb & L1 & L2 & N & Ey)]; [left; now apply HI|right].
      exists a, ya, b, yb. split; [now apply HI|]. split; [now apply HI|]. split; [exact L1|]. split; [exact L2|]. split; [|exact Ey].
      intros c' yc H. apply (N c' yc). now apply HI.
  - right. left. apply HI, in_unswap in Ha. split; [unfold head_points in Ha; now apply in_combine_l in Ha|]. split.
    + intros r y H. apply swap_in, HI, B in H. qc_lra.
    + intros r H. destruct (HR r H) as [y Hy]. destruct (Qclt_le_dec m r) as [C|C]; auto. exfalso.
      pose proof (F _ _ _ _ Ha Hy C). apply swap_in, HI, B in Hy. qc_lra.
  - right. right. apply HI, in_unswap in Ha. split; [unfold head_points in Ha; now apply in_combine_l in Ha|]. split.
    + intros r y H. apply swap_in, HI, B in H. qc_lra.
    + intros r H. destruct (HR r H) as [y Hy]. destruct (Qclt_le_dec r m) as [C|C]; auto. exfalso.
      pose proof (F _ _ _ _ Hy Ha C). apply swap_in, HI, B in Hy. qc_lra.
Qed.

Lemma head_points_in : forall c r, In r (cv_rate c) -> exists y, In (r, y) (head_points c) /\ In y (cv_head c).
Proof.
  intros c r. unfold head_points. destruct (cv_lengths c) as (L1 & L2 & _). assert (List.length (cv_rate c) = List.length (cv_head c)) as L by congruence. clear - L.
  revert L. generalize (cv_rate c) (cv_head c).
  induction l as [|a l IH]; intros [|b k] L Hr; try discriminate L; [destruct Hr|]. destruct Hr as [<-|Hr]; [exists b; split; now left|].
  destruct (IH k) as (y & Hy & Hk); auto. exists y. split; now right.
Qed.

Lemma times24_lt : forall a b, a * qz 24 < b * qz 24 -> a < b.
Proof.
  intros a b H. destruct (Qclt_le_dec a b) as [C|C]; auto. exfalso. revert H. apply Qcle_not_lt. apply Qcmult_le_compat_r; [exact C|discriminate].
Qed.
Lemma times24_le : forall a b, a * qz 24 <= b * qz 24 -> a <= b.
Proof.
  intros a b H. destruct (Qclt_le_dec b a) as [C|C]; auto. exfalso. revert H. apply Qclt_not_le. apply Qcmult_lt_compat_r; [reflexivity|exact C].
Qed.

(** at or below, and above, the reported maximum rate *)
Theorem maximum_rate_proof : forall closest np_std, (forall pts x y, 0 <= fst (closest pts x y)) ->
  forall curves min_flow p s pd fast r maximum, Forall proper_curve curves -> make_pump curves min_flow = Ok p ->
  physical s -> 0 < requested s -> last_opt curves = Some fast -> NoDup (cv_rate fast) -> falling (head_points fast) ->
  pump_evaluate closest np_std p s pd = Ok r ->
  max_rate_per_day p (l_pressure s) pd (l_density s) = Ok maximum ->
  (exists h, In h (cv_head fast) /\ pr_required_head r <= h) ->
  (* above it the evaluation fails, when no other curve reaches further right *)
  ((forall c q, In c curves -> In q (cv_rate c) -> exists q', In q' (cv_rate fast) /\ q <= q') ->
   maximum < requested s * qz 24 -> pr_valid r = false) /\
  (* up to it a single-speed pump succeeds, when its minimum flow allows it *)
  (curves = [fast] -> requested s * qz 24 <= maximum -> pu_min_flow p * qz 24 <= maximum -> pr_valid r = true).
Proof.
  intros closest np_std D curves min_flow p s pd fast r maximum F M HS Hrate EF ND FA E EM (h0 & Hh0 & Lh0).
  assert (0 < pd) as Hpd. { unfold pump_evaluate in E. destruct (Qcleb pd 0) eqn:X; [discriminate E|]. now apply Qcleb_gt. }
  destruct (failure_proof closest np_std D curves min_flow p s pd fast r F M HS Hrate EF ND E) as [_ V].
  destruct (evaluate_pieces closest np_std D curves min_flow p s pd F M HS Hpd Hrate) as (r' & E' & line & edge & top & right & e & speed & P1 & P2 & P3 & P4 & P5 & P6 & P7 & P8 & P9 & P10 & P11).
  assert (r' = r) by congruence. subst r'.
  destruct (running_proof closest np_std D curves min_flow p s pd F M HS Hpd Hrate) as (r' & e' & sp' & E2 & R1 & R2 & _ & _ & R5 & R6 & _).
  assert (r' = r) by congruence. subst r'. clear E2.
  destruct (proj1 (make_pump_proof curves min_flow F) p M) as (N & Echart & _). rewrite Echart in *.
  assert (proper_curve fast) as PF by (rewrite Forall_forall in F; apply F; now apply last_opt_in).
  destruct HS as (S1 & S2 & S3).
  unfold max_rate_per_day in EM. rewrite Echart, head_of_ok in EM by exact S1. cbn [bind] in EM. rewrite <- R5 in EM.
  unfold maximum_rate_at, fast_curve in EM. rewrite EF in EM. cbn [of_option bind] in EM.
  destruct (interp1d_ends _ _ (pr_required_head r)) as [m|] eqn:EI; [|discriminate EM]. cbn [bind] in EM.
  assert (maximum = m * qz 24) as -> by congruence. clear EM.
  apply by_head_facts in EI; auto.
  assert (rising (head_points fast)) as RI by (apply curve_rising; auto; apply PF).
  pose proof (rising_functional _ RI) as U.
  assert (forall a b, a * qz 24 < b * qz 24 -> a < b) as M24 by exact times24_lt.
  assert (forall a b, a * qz 24 <= b * qz 24 -> a <= b) as M24' by exact times24_le.
  (* the value of the fastest curve at the operating rate *)
  unfold maximum_head_at, fast_curve in P9. rewrite EF in P9. cbn [of_option bind] in P9.
  pose proof (curve_head_value fast (pr_rate r) top PF ND P9) as VT.
  destruct EI as [[IR IP]|[(Im & Lh & Bm)|(Im & Lh & Bm)]]; [| |exfalso; unfold head_points in Lh; clear - Lh Hh0 Lh0].
  3:{ destruct (In_nth_error _ _ Hh0) as [k Hk]. destruct (nth_error (cv_rate fast) k) as [q|] eqn:Hq.
      - assert (In (q, h0) (combine (cv_rate fast) (cv_head fast))) as Hin.
        { clear - Hk Hq. revert k Hk Hq. generalize (cv_rate fast) (cv_head fast). induction l as [|a l IH]; intros [|b j] [|k] Hk Hq; cbn in *; try discriminate; [left; congruence|right; eauto]. }
        apply Lh in Hin. qc_lra.
      - apply nth_error_None in Hq. destruct (cv_lengths fast) as (L1 & L2 & _). assert (nth_error (cv_head fast) k <> None) as Q by congruence. apply nth_error_Some in Q.
        rewrite <- L1 in Hq || idtac. lia. }
  - (* the required head lies on the fastest curve *)
    assert (exists q, In q (cv_rate fast) /\ m <= q) as (qr & Hqr & Lqr).
    { destruct IP as [H|(a & ya & b & yb & Ha & Hb & L1 & L2 & _)].
      - exists m. split; [unfold head_points in H; now apply in_combine_l in H|apply Qcle_refl].
      - exists b. split; [unfold head_points in Hb; now apply in_combine_l in Hb|now apply Qclt_le_weak]. }
    split.
    + intros Wide Lm. apply M24 in Lm. destruct (pr_valid r) eqn:EV; [|reflexivity]. exfalso. destruct (proj1 V eq_refl) as [V1 V2].
      destruct VT as [[TR TI]|(a & Ha & [[L B]|[L B]])].
      * apply V2. exists top. split; [left; auto|]. assert (top < pr_required_head r); [|qc_lra]. eapply (falling_interp (head_points fast) m); eauto. qc_lra.
      * destruct IP as [H|(a' & ya & b & yb & Ha' & Hb & L1 & L2 & _)]; [apply B in H; qc_lra|apply B in Ha'; qc_lra].
      * apply V1. intros c q Hc Hq. destruct (Wide c q Hc Hq) as (q' & Hq' & Lq). destruct (head_points_in _ _ Hq') as (y & Hy & _). apply B in Hy. qc_lra.
    + intros ES L1 L2. apply M24' in L1, L2. apply V.
      assert (pr_rate r <= m) as LR.
      { rewrite ES in EF. destruct (cv_points fast) as [|[[q0 h1] e1] pts] eqn:EP; [destruct PF as [PF _]; rewrite EP in PF; cbn in PF; lia|].
        rewrite ES in *. pose proof (rate_line_proof closest np_std D [fast] min_flow p s pd r fast fast h1 q0 e1 h1 q0 e1 F M (conj S1 (conj S2 S3)) Hrate E eq_refl EF) as RL.
        rewrite EP in RL. destruct (RL eq_refl eq_refl) as [_ RL2]. rewrite (RL2 eq_refl). qc_cases; auto. }
      split.
      * intros B. apply (B fast qr) in Hqr; [qc_lra|]. rewrite ES. now left.
      * assert (pr_required_head r <= top) as LT.
        { destruct VT as [[TR TI]|(a & Ha & [[L B]|[L B]])].
          - apply Qcle_lt_or_eq in LR as [LR|LR].
            + apply Qclt_le_weak. eapply (falling_interp (head_points fast) (pr_rate r) top m); eauto.
            + rewrite LR in TI. assert (top = pr_required_head r) as ->; [|apply Qcle_refl]. apply (value_at_unique (head_points fast) m); auto; left; split; auto; rewrite <- LR; exact TR.
          - assert (interpolates (head_points fast) a top) as IA by (left; exact Ha).
            destruct (Qclt_le_dec a m) as [C|C]; [apply Qclt_le_weak; eapply (falling_interp (head_points fast) a top m); eauto|].
            assert (a <= m). { destruct IP as [H|(a' & ya & b & yb & Ha' & Hb & L3 & L4 & _)]; [apply (B _ _ H)|apply B in Ha'; qc_lra]. }
            assert (a = m) by now apply Qcle_antisym. subst a. destruct IP as [H'|(a' & ya & b & yb & Ha' & Hb & L3 & L4 & _)]; [rewrite (U _ _ _ Ha H'); apply Qcle_refl|apply B in Ha'; exfalso; qc_lra].
          - exfalso. destruct (head_points_in _ _ Hqr) as (y & Hy & _). apply B in Hy. qc_lra. }
        assert (edge = top) as EE.
        { rewrite ES in P3. unfold minimum_head_at, slow_curve, fast_curve in P3. cbn [hd_error last_opt of_option bind last] in P3.
          destruct (curve_max_rate fast) as [x|]; [|discriminate P3]. cbn [bind] in P3. replace (Qcltb x x) with false in P3 by (symmetry; apply Qcltb_ge; apply Qcle_refl). unfold curve_head_at in P9. congruence. }
        intros (m' & V' & L'). assert (m' = top) as -> by (apply (value_at_unique (head_points fast) (pr_rate r)); auto; apply (curve_head_value fast (pr_rate r) top PF ND P9)).
        rewrite P4, <- R5, EE in L'. revert L'. apply Qcle_not_lt. rewrite qmax_is_r by exact LT. apply Qcle_refl.
  - (* it lies below the whole fastest curve *)
    split.
    + intros Wide Lm. apply M24 in Lm. destruct (pr_valid r) eqn:EV; [|reflexivity]. exfalso. destruct (proj1 V eq_refl) as [V1 V2].
      apply V1. intros c q Hc Hq. destruct (Wide c q Hc Hq) as (q' & Hq' & Lq). apply Bm in Hq'. qc_lra.
    + intros ES L1 L2. apply M24' in L1, L2. apply V.
      assert (pr_rate r <= m) as LR.
      { rewrite ES in EF. destruct (cv_points fast) as [|[[q0 h1] e1] pts] eqn:EP; [destruct PF as [PF _]; rewrite EP in PF; cbn in PF; lia|].
        rewrite ES in *. pose proof (rate_line_proof closest np_std D [fast] min_flow p s pd r fast fast h1 q0 e1 h1 q0 e1 F M (conj S1 (conj S2 S3)) Hrate E eq_refl EF) as RL.
        rewrite EP in RL. destruct (RL eq_refl eq_refl) as [_ RL2]. rewrite (RL2 eq_refl). qc_cases; auto. }
      split.
      * intros B. apply (B fast m) in Im; [qc_lra|]. rewrite ES. now left.
      * assert (edge = top) as EE.
        { rewrite ES in P3. unfold minimum_head_at, slow_curve, fast_curve in P3. cbn [hd_error last_opt of_option bind last] in P3.
          destruct (curve_max_rate fast) as [x|]; [|discriminate P3]. cbn [bind] in P3. replace (Qcltb x x) with false in P3 by (symmetry; apply Qcltb_ge; apply Qcle_refl). unfold curve_head_at in P9. congruence. }
        destruct (bounded_list (cv_head fast)) as (lo & hi & B).
        assert (pr_required_head r <= top) as LT.
        { apply (curve_head_bounds fast (pr_rate r) (pr_required_head r) hi top PF); [|exact P9].
          intros y Hy. split; [|now apply B]. destruct (In_nth_error _ _ Hy) as [k Hk].
            destruct (cv_lengths fast) as (L3 & L4 & _). destruct (nth_error (cv_rate fast) k) as [q|] eqn:Hq.
            + apply Qclt_le_weak. apply (Lh q y). unfold head_points. clear - Hk Hq. revert k Hk Hq. generalize (cv_rate fast) (cv_head fast).
              induction l as [|a l IH]; intros [|b j] [|k] Hk Hq; cbn in *; try discriminate; [left; congruence|right; eauto].
            + apply nth_error_None in Hq. assert (nth_error (cv_head fast) k <> None) as Q by congruence. apply nth_error_Some in Q. lia. }
        intros (m' & V' & L'). assert (m' = top) as -> by (apply (value_at_unique (head_points fast) (pr_rate r)); auto; apply (curve_head_value fast (pr_rate r) top PF ND P9)).
        rewrite P4, <- R5, EE in L'. revert L'. apply Qcle_not_lt. rewrite qmax_is_r by exact LT. apply Qcle_refl.
Qed.

(** a head above the fastest curve: every evaluation fails, but a maximum rate is still reported *)
Theorem unreachable_proof : forall closest np_std, (forall pts x y, 0 <= fst (closest pts x y)) ->
  forall curves min_flow p s pd fast r, Forall proper_curve curves -> make_pump curves min_flow = Ok p ->
  physical s -> 0 < requested s -> last_opt curves = Some fast -> NoDup (cv_rate fast) -> falling (head_points fast) ->
  pump_evaluate closest np_std p s pd = Ok r -> (forall h, In h (cv_head fast) -> h < pr_required_head r) ->
  pr_valid r = false /\
  exists m, max_rate_per_day p (l_pressure s) pd (l_density s) = Ok (m * qz 24) /\ In m (cv_rate fast) /\
    forall q, In q (cv_rate fast) -> m <= q.
Proof.
  intros closest np_std D curves min_flow p s pd fast r F M HS Hrate EF ND FA E Hh.
  assert (0 < pd) as Hpd. { unfold pump_evaluate in E. destruct (Qcleb pd 0) eqn:X; [discriminate E|]. now apply Qcleb_gt. }
  destruct (failure_proof closest np_std D curves min_flow p s pd fast r F M HS Hrate EF ND E) as [_ V].
  destruct (evaluate_pieces closest np_std D curves min_flow p s pd F M HS Hpd Hrate) as (r' & E' & line & edge & top & right & e & speed & P1 & P2 & P3 & P4 & P5 & P6 & P7 & P8 & P9 & P10 & P11).
  assert (r' = r) by congruence. subst r'.
  destruct (running_proof closest np_std D curves min_flow p s pd F M HS Hpd Hrate) as (r' & e' & sp' & E2 & R1 & R2 & _ & _ & R5 & R6 & _).
  assert (r' = r) by congruence. subst r'. clear E2.
  destruct (proj1 (make_pump_proof curves min_flow F) p M) as (N & Echart & _). rewrite Echart in *.
  assert (proper_curve fast) as PF by (rewrite Forall_forall in F; apply F; now apply last_opt_in).
  unfold maximum_head_at, fast_curve in P9. rewrite EF in P9. cbn [of_option bind] in P9.
  destruct (proper_nonempty fast PF) as (N1 & N2 & _).
  assert (top < pr_required_head r) as LT.
  { destruct (qc_max_ok (cv_head fast) N2) as (mx & _ & Imx & Bmx). destruct (bounded_list (cv_head fast)) as (lo & hi & B).
    destruct (curve_head_bounds fast (pr_rate r) lo mx top PF) as [_ L]; [|exact P9|].
    - intros y Hy. split; [now apply B|now apply Bmx].
    - apply Hh in Imx. qc_lra. }
  split.
  - destruct (pr_valid r) eqn:EV; [|reflexivity]. exfalso. destruct (proj1 V eq_refl) as [_ V2]. apply V2. exists top. split; [|qc_lra]. now apply curve_head_value.
  - unfold max_rate_per_day. rewrite Echart, head_of_ok by apply HS. cbn [bind]. rewrite <- R5.
    unfold maximum_rate_at, fast_curve. rewrite EF. cbn [of_option bind].
    assert (by_head fast <> []) as NB.
    { intros X. unfold by_head in X. pose proof (sort_perm _ (fun p q : Qc * Qc => Qcleb (fst p) (fst q)) (combine (cv_head fast) (cv_rate fast))) as PP. rewrite X in PP.
      apply Permutation_nil in PP || (apply Permutation_sym in PP; apply Permutation_nil in PP). destruct (cv_head fast), (cv_rate fast); try congruence; discriminate PP. }
    destruct (bounded_list (map snd (by_head fast))) as (lo & hi & B).
    destruct (interp1d_ends_bounds (map fst (by_head fast)) (map snd (by_head fast)) (pr_required_head r) lo hi) as (m & Em & _); auto.
    { now rewrite !map_length. } { intros X. apply NB. destruct (by_head fast); [reflexivity|discriminate X]. }
    rewrite Em. cbn [bind]. exists m. split; [reflexivity|]. apply by_head_facts in Em; auto.
    destruct Em as [[IR _]|[(Im & Lh & Bm)|(Im & Lh & Bm)]]; [| |auto].
    + exfalso. destruct IR as [_ (b & yb & Hb & Lb)]. apply in_unswap in Hb. unfold head_points in Hb. apply in_combine_r in Hb. apply Hh in Hb. qc_lra.
    + exfalso. destruct (head_points_in _ _ Im) as (y & Hy & Hy'). apply Lh in Hy. apply Hh in Hy'. qc_lra.
Qed.

(** ** the older pump model *)
Lemma model_efficiency_ok : forall closest np_std, (forall pts x y, 0 <= fst (closest pts x y)) ->
  forall cs rate head, cs <> [] -> Forall proper_curve cs -> (forall c e, In c cs -> In e (cv_eff c) -> 0 < e) ->
  chart_100 cs = false -> exists e, efficiency_at closest np_std cs rate head = Ok e /\ 0 < e /\ e <= 1.
Proof.
  intros closest np_std D cs rate head N F P C. destruct (pump_efficiency_ok closest np_std D cs rate head N F P) as (e & E & H).
  unfold pump_efficiency in E. rewrite C in E. eauto.
Qed.

Theorem model_proof : forall closest np_std bump, (forall pts x y, 0 <= fst (closest pts x y)) -> (forall x, x <= bump x) ->
  forall cs fast margin rate suction discharge density, cs <> [] -> Forall proper_curve cs ->
  (forall c e, In c cs -> In e (cv_eff c) -> 0 < e) -> last_opt cs = Some fast -> NoDup (cv_rate fast) ->
  0 < rate -> 0 < density ->
  let required := head_between suction discharge density in
  exists power status r h e, model_simulate closest np_std bump cs margin rate suction discharge density = Ok (power, required, status) /\
    rate / qz 24 <= r /\
    (required <= h \/ (value_at (head_points fast) r h /\ required <= h + margin)) /\
    reports status (beyond_chart cs r) (above_curve fast r h) /\
    0 < e /\ e <= 1 /\ power = shaft_power (density * r) h e /\
    ((forall c y, In c cs -> In y (cv_head c) -> 0 <= y) -> 0 <= power).
Proof.
  intros closest np_std bump D HB cs fast margin rate suction discharge density N F Pos EF ND Hr Hd required.
  unfold model_simulate. destruct (Qcleb rate 0) eqn:X; [apply Qcleb_le in X; exfalso; qc_lra|]. clear X.
  rewrite head_of_ok by exact Hd. cbn [bind]. fold required.
  destruct (minimum_rate_ok cs required N F) as (line & El). rewrite El. cbn [bind]. set (r := Qcmax _ (bump line)).
  destruct (bounded_list (flat_map cv_head cs)) as (lo & hi & B).
  destruct (minimum_head_ok cs r lo hi N F) as (edge & Ee & _).
  { intros c y Hc Hy. apply B. apply in_flat_map. eauto. }
  rewrite Ee. cbn [bind]. destruct (maximum_head_ok cs r N F) as (top & Et). rewrite Et. cbn [bind].
  assert (proper_curve fast) as PF by (rewrite Forall_forall in F; apply F; now apply last_opt_in).
  pose proof Et as Et'. unfold maximum_head_at, fast_curve in Et'. rewrite EF in Et'. cbn [of_option bind] in Et'.
  pose proof (curve_head_value fast r top PF ND Et') as VT.
  destruct (chart_max_rate_ok cs N F) as (right & Er & (c0 & Hc0 & Hr0) & Br). rewrite Er. cbn [bind].
  set (h0 := Qcmax required (bump edge)). set (h := adjust_head h0 top margin).
  assert (rate / qz 24 <= r) as L1 by apply qmax_l.
  assert (required <= h \/ (value_at (head_points fast) r h /\ required <= h + margin)) as L2.
  { unfold h, adjust_head. pose proof (qmax_l required (bump edge)) as Q. fold h0 in Q. destruct (negb (Qceqb margin 0)); [|now left].
    destruct (Qcltb top h0 && Qcleb h0 (top + margin)) eqn:C; [|now left]. apply andb_prop in C as [C1 C2]. apply Qcleb_le in C2. right. split; [exact VT|qc_lra]. }
  assert (reports (failure_of (Qcltb top h) (Qcltb right r)) (beyond_chart cs r) (above_curve fast r h)) as L3.
  { apply failure_reports.
    - rewrite Qcltb_lt. split.
      + intros L. exists top. auto.
      + intros (m & V' & L). replace top with m; [exact L|]. apply (value_at_unique (head_points fast) r); auto. apply curve_rising; auto. apply PF.
    - rewrite Qcltb_lt. split.
      + intros L c' r' Hc' Hr'. apply (Br c' r' Hc') in Hr'. qc_lra.
      + intros H. apply (H c0 right Hc0 Hr0). }
  assert (0 <= rate / qz 24) as L0 by (apply div_nn; [now apply Qclt_le_weak|reflexivity]).
  assert (forall e, 0 < e -> (forall c y, In c cs -> In y (cv_head c) -> 0 <= y) -> 0 <= shaft_power (density * r) h e) as L4.
  { intros e He HH. unfold shaft_power. apply div_nn; [|reflexivity]. apply div_nn; [|exact He]. apply mul_nn.
    - apply mul_nn; [now apply Qclt_le_weak|qc_lra].
    - destruct (minimum_head_ok cs r 0 hi N F) as (edge' & Ee' & L & _).
      { intros c y Hc Hy. split; [eauto|]. apply B. apply in_flat_map. eauto. }
      assert (edge' = edge) by congruence. subst edge'. pose proof (HB edge). pose proof (qmax_r required (bump edge)) as Q. fold h0 in Q.
      assert (0 <= top). { apply (curve_head_bounds fast r 0 hi top PF); [|exact Et']. intros y Hy. split; [apply (HH fast); auto; now apply last_opt_in|].
        apply B. apply in_flat_map. exists fast. split; auto. now apply last_opt_in. }
      unfold h, adjust_head. destruct (negb (Qceqb margin 0)); [|qc_lra]. destruct (Qcltb top h0 && Qcleb h0 (top + margin)); qc_lra. }
  destruct (chart_100 cs) eqn:C100.
  - exists (power_before_efficiency density h r), (failure_of (Qcltb top h) (Qcltb right r)), r, h, 1.
    assert (power_before_efficiency density h r = shaft_power (density * r) h 1) as EP by (unfold power_before_efficiency, shaft_power; field; repeat split; discriminate).
    split; [reflexivity|]. split; [exact L1|]. split; [exact L2|]. split; [exact L3|]. split; [reflexivity|]. split; [apply Qcle_refl|]. split; [exact EP|].
    intros HH. rewrite EP. apply L4; auto. reflexivity.
  - destruct (model_efficiency_ok closest np_std D cs r h N F Pos C100) as (e & Eeff & E1 & E2). rewrite Eeff. cbn [bind].
    destruct (Qceqb e 0) eqn:X; [apply Qceqb_eq in X; elim (lt_neq e E1 X)|]. clear X.
    exists (power_before_efficiency density h r / e), (failure_of (Qcltb top h) (Qcltb right r)), r, h, e.
    assert (power_before_efficiency density h r / e = shaft_power (density * r) h e) as EP.
    { unfold power_before_efficiency, shaft_power. field. repeat split; first [discriminate|now apply lt_neq]. }
    split; [reflexivity|]. split; [exact L1|]. split; [exact L2|]. split; [exact L3|]. split; [exact E1|]. split; [exact E2|]. split; [exact EP|].
    intros HH. rewrite EP. apply L4; auto.
Qed.

Theorem model_stopped_proof : forall closest np_std bump cs margin rate suction discharge density, rate <= 0 ->
  model_simulate closest np_std bump cs margin rate suction discharge density = Ok (0, 0, NO_FAILURE).
Proof. intros closest np_std bump cs margin rate suction discharge density H. unfold model_simulate. apply Qcleb_le in H. now rewrite H. Qed.

(** the series: one power and one validity per input, in order *)
Theorem model_series_proof : forall closest np_std bump cs margin inputs out,
  model_evaluate closest np_std bump cs margin inputs = Ok out ->
  Forall2 (fun i o => let '(rate, suction, discharge, density) := i in
    exists head status, model_simulate closest np_std bump cs margin rate suction discharge density = Ok (fst o, head, status) /\
      (snd o = true <-> status = NO_FAILURE)) inputs out.
Proof.
  intros closest np_std bump cs margin inputs. induction inputs as [|[[[rate suction] discharge] density] inputs IH]; intros out E; cbn [model_evaluate] in E.
  - assert (out = []) as -> by congruence. constructor.
  - destruct (model_simulate closest np_std bump cs margin rate suction discharge density) as [[[pw hd] st]|] eqn:E1; [|discriminate E]. cbn [bind] in E.
    destruct (model_evaluate closest np_std bump cs margin inputs) as [rs|] eqn:E2; [|discriminate E]. cbn [bind fst snd] in E.
    assert (out = (pw, match st with NO_FAILURE => true | _ => false end) :: rs) as -> by congruence.
    constructor; [|now apply IH]. exists hd, st. cbn [fst snd]. split; [exact E1|]. destruct st; split; congruence.
Qed.

(** heads are not validated: negative ones give negative power *)
Theorem negative_power_refuted_proof : forall closest np_std, exists curves p s pd r,
  Forall proper_curve curves /\ make_pump curves None = Ok p /\ physical s /\ 0 < pd /\
  pump_evaluate closest np_std p s pd = Ok r /\ pr_power r < 0.
Proof.
  intros closest np_std.
  exists [mkCurve [(qz 1, - qz 1, 1); (qz 2, - qz 2, 1)] (qz 10)].
  eexists (mkPump _ (qz 1)), (mkLiquid (qz 2) (qz 1000) (qz 1500)), (qz 1), _.
  split; [|split; [|split; [|split; [|split]]]].
  - constructor; [|constructor]. split; [cbn; lia|]. split.
    + cbn. constructor; [constructor; [constructor|constructor]|]. constructor; [|constructor]. discriminate.
    + cbn. intros e [<-|[<-|[]]]; split; discriminate.
  - reflexivity.
  - repeat split; discriminate.
  - reflexivity.
  - reflexivity.
  - reflexivity.
Qed.

(** The head and the efficiency of a compressor chart at a speed and a rate. *)
From Coq Require Import PeanoNat.
From Verif Require Import QcTac Base BaseLemmas Num Interp_Model Interp_Spec Time_Proofs Interp_Proofs Chart_Model Chart_Spec
  Chart_Proofs Chart_Proofs2 Pump_Proofs Compressor_Model Compressor_Spec Compressor_Proofs.
Local Open Scope list_scope.
Local Open Scope Qc_scope.

Lemma rate_functions : forall cs s, minimum_rate_of_speed cs s = along_speed curve_min_rate cs s /\
  maximum_rate_of_speed cs s = along_speed curve_max_rate cs s.
Proof. intros. split; reflexivity. Qed.

Lemma left_unique : forall c p p', left_end c p -> left_end c p' -> p_rate p = p_rate p'.
Proof. intros c p p' [A1 A2] [B1 B2]. pose proof (A2 _ B1). pose proof (B2 _ A1). qc_lra. Qed.
Lemma right_unique : forall c p p', right_end c p -> right_end c p' -> p_rate p = p_rate p'.
Proof. intros c p p' [A1 A2] [B1 B2]. pose proof (A2 _ B1). pose proof (B2 _ A1). qc_lra. Qed.

(** the range of rates of a curve is not empty *)
Lemma ends_apart : forall c p q, proper_curve c -> NoDup (cv_rate c) -> left_end c p -> right_end c q -> p_rate p < p_rate q.
Proof.
  intros c p q (L & S & _) N [P1 P2] [Q1 Q2]. unfold cv_rate in N. destruct c as [pts sp]. cbn [cv_points] in *.
  destruct pts as [|a [|b pts]]; cbn in L; try lia. clear L.
  assert (p_rate a <> p_rate b) as D.
  { cbn [map] in N. inversion N as [|x l X _]; subst. intros E. apply X. left. auto. }
  destruct (Qcle_lt_or_eq _ _ (P2 _ Q1)) as [H|H]; auto. exfalso. apply D.
  pose proof (P2 a (or_introl eq_refl)). pose proof (P2 b (or_intror (or_introl eq_refl))).
  pose proof (Q2 a (or_introl eq_refl)). pose proof (Q2 b (or_intror (or_introl eq_refl))). qc_lra.
Qed.

(** ** ends of the chart *)
Lemma chart_speeds : forall cs, proper_chart cs -> exists lo hi, minimum_speed cs = Ok lo /\ maximum_speed cs = Ok hi /\
  lowest_speed cs lo /\ (forall s, within_speeds cs s <-> lo <= s /\ s <= hi) /\ lo <= hi.
Proof.
  intros cs (N & P & S). destruct (nonempty_ends _ cs N) as (a & b & A & B).
  pose proof (slow_speed _ _ S A) as LA. pose proof (fast_speed _ _ S B) as LB.
  pose proof (hd_error_in _ _ _ A) as IA. pose proof (last_opt_in _ _ _ B) as IB.
  exists (cv_speed a), (cv_speed b). unfold minimum_speed, maximum_speed, slow_curve, fast_curve. rewrite A, B. cbn [of_option bind].
  split; [reflexivity|]. split; [reflexivity|]. split; [split; [exists a; auto|auto]|]. split; [|now apply LA]. intros s. split.
  - intros [(c & Hc & C) (d & Hd & D)]. apply LA in Hc. apply LB in Hd. split; qc_lra.
  - intros [C D]. split; [exists a|exists b]; auto.
Qed.

Lemma lowest_unique : forall cs a b, lowest_speed cs a -> lowest_speed cs b -> a = b.
Proof. intros cs a b [(c & Hc & <-) C] [(d & Hd & <-) D]. apply C in Hd. apply D in Hc. qc_lra. Qed.
Lemma lowest_within : forall cs a, lowest_speed cs a -> within_speeds cs a.
Proof. intros cs a [(c & Hc & <-) C]. split; exists c; split; auto; apply Qcle_refl. Qed.
Lemma runs_within : forall cs choke speed s, runs_at cs choke speed s -> within_speeds cs s.
Proof. intros cs choke speed s [[-> W]|(_ & L & _)]; auto. now apply lowest_within. Qed.
Lemma runs_unique : forall cs choke speed s s', runs_at cs choke speed s -> runs_at cs choke speed s' -> s = s'.
Proof.
  intros cs choke speed s s' [[-> [(c & Hc & W) _]]|(_ & L & A)] [[-> [(d & Hd & W') _]]|(_ & L' & A')]; auto.
  - apply L' in Hc. qc_lra.
  - apply L in Hd. qc_lra.
  - eapply lowest_unique; eauto.
Qed.

Lemma across_unique : forall (ends : curve -> Qc * Qc * Qc -> Prop) cs s y y', (forall c p p', In c cs -> ends c p -> ends c p' -> p_rate p = p_rate p') ->
  StronglySorted Qclt (map cv_speed cs) -> across ends p_rate cs s y -> across ends p_rate cs s y' -> y = y'.
Proof.
  intros ends cs s y y' U S (d & F & V) (d' & F' & V').
  assert (d = d') as <-.
  { clear - U F F'. revert d' F'. induction F as [|c a cs d (A & p & Hp & Ga) _ IH]; intros d' F'; inversion F' as [|x b l m (B & q & Hq & Gb) F2]; subst; auto.
    f_equal; [|apply IH; auto; intros c' p' p'' Hc; apply U; now right].
    destruct a as [a1 a2], b as [b1 b2]. cbn [fst snd] in *. subst. f_equal. apply (U c); auto. now left. }
  assert (map fst d = map cv_speed cs) as Ed by (clear - F; induction F as [|c a l m [H _] _ IH]; cbn; congruence).
  eapply value_at_unique; eauto. rewrite <- Ed in S. clear - S. induction d as [|p d IH]; [exact I|]. cbn [map] in S.
  apply StronglySorted_inv in S as [S F]. split; auto. intros q Hq. rewrite Forall_forall in F. apply F. now apply in_map.
Qed.

Lemma smallest_ok : forall cs s, proper_chart cs -> exists lo, minimum_rate_of_speed cs s = Ok lo /\ smallest_rate cs s lo /\
  forall r, smallest_rate cs s r -> r = lo.
Proof.
  intros cs s P. destruct (along_speed_ok _ _ _ cs s min_rate_ends P) as (lo & E & A). exists lo. split; auto. split; auto.
  intros r R. eapply across_unique; eauto; [|apply P]. intros c p p' _. apply left_unique.
Qed.
Lemma largest_ok : forall cs s, proper_chart cs -> exists hi, maximum_rate_of_speed cs s = Ok hi /\ largest_rate cs s hi /\
  forall r, largest_rate cs s r -> r = hi.
Proof.
  intros cs s P. destruct (along_speed_ok _ _ _ cs s max_rate_ends P) as (hi & E & A). exists hi. split; auto. split; auto.
  intros r R. eapply across_unique; eauto; [|apply P]. intros c p p' _. apply right_unique.
Qed.

(** ** the curve at the speed *)
Lemma quantity_combine : forall f c, quantity f c = combine (cv_rate c) (map f (cv_points c)).
Proof.
  intros f [pts sp]. unfold quantity, cv_rate. cbn [cv_points]. induction pts as [|p pts IH]; [reflexivity|]. cbn [map combine]. now rewrite IH.
Qed.
Lemma quantity_rising : forall f c, StronglySorted Qcle (cv_rate c) -> NoDup (cv_rate c) -> rising (quantity f c).
Proof.
  intros f [pts sp] S N. unfold quantity, cv_rate in *. cbn [cv_points] in *. induction pts as [|p pts IH]; [exact I|].
  cbn [map] in *. apply StronglySorted_inv in S as [S F]. inversion N as [|x l X N']; subst. split; [|now apply IH].
  intros [a b] Hin. apply in_map_iff in Hin as (q & E & Hq). injection E as <- <-. cbn [fst]. rewrite Forall_forall in F.
  destruct (Qcle_lt_or_eq _ _ (F _ (in_map p_rate _ _ Hq))) as [H|H]; auto. exfalso. apply X. rewrite H. now apply in_map.
Qed.
Lemma quantity_at : forall f c q, proper_curve c -> NoDup (cv_rate c) ->
  exists y, interp1d_ends (cv_rate c) (map f (cv_points c)) q = Ok y /\ value_at (quantity f c) q y.
Proof.
  intros f c q P N. destruct (bounded_list (map f (cv_points c))) as (lo & hi & B).
  assert (List.length (cv_rate c) = List.length (map f (cv_points c))) as L by (unfold cv_rate; now rewrite !map_length).
  destruct (interp1d_ends_bounds (cv_rate c) (map f (cv_points c)) q lo hi) as (y & E & _); auto; [apply (proper_nonempty c P)|].
  exists y. split; auto. rewrite quantity_combine. apply interp1d_ends_value; auto. rewrite <- quantity_combine.
  apply quantity_rising; auto. apply P.
Qed.
Lemma head_at_value : forall c q, proper_curve c -> NoDup (cv_rate c) ->
  exists y, curve_head_at c q = Ok y /\ value_at (quantity p_head c) q y.
Proof. intros c q. apply (quantity_at p_head). Qed.
Lemma eff_at_value : forall c q, proper_curve c -> NoDup (cv_rate c) ->
  exists y, curve_eff_at c q = Ok y /\ value_at (quantity p_eff c) q y.
Proof. intros c q. apply (quantity_at p_eff). Qed.

(** ** between the curves *)
Lemma weight_ok : forall a b s : Qc, a < s -> s < b ->
  let w := (s - a) / (b - a) in 0 < w /\ w < 1 /\ s = mix w a b /\ (b - s) / (b - s + (s - a)) = 1 - w.
Proof.
  intros a b s A B. cbn. assert (b - a <> 0) as N by (apply lt_neq; qc_lra). split; [apply div_pos; qc_lra|].
  split.
  - assert (0 < (b - s) / (b - a)) as X by (apply div_pos; qc_lra).
    assert ((s - a) / (b - a) = 1 - (b - s) / (b - a)) as -> by (field; auto). qc_lra.
  - split; [unfold mix; field; auto|]. replace (b - s + (s - a)) with (b - a) by ring. field. auto.
Qed.

Lemma fraction_ok : forall lo hi q : Qc, lo < hi -> lo <= q -> q <= hi ->
  let t := (q - lo) / (hi - lo) in 0 <= t /\ t <= 1 /\ q = mix t lo hi.
Proof.
  intros lo hi q L A B. cbn. assert (hi - lo <> 0) as N by (apply lt_neq; qc_lra). split; [apply div_nn; qc_lra|].
  split.
  - assert (0 <= (hi - q) / (hi - lo)) as X by (apply div_nn; qc_lra).
    assert ((q - lo) / (hi - lo) = 1 - (hi - q) / (hi - lo)) as -> by (field; auto). qc_lra.
  - unfold mix. field. auto.
Qed.

Lemma mix_mix : forall w t a b c d : Qc, mix t (mix w a c) (mix w b d) = mix w (mix t a b) (mix t c d).
Proof. intros. unfold mix. ring. Qed.
Lemma mix_lt : forall w a b c d : Qc, 0 < w -> w < 1 -> a < b -> c < d -> mix w a c < mix w b d.
Proof. intros w a b c d A B C D. unfold mix. qc_nra. Qed.

Lemma between_ok : forall cs s q lo hi, proper_chart cs -> within_speeds cs s -> (forall c, In c cs -> cv_speed c <> s) ->
  smallest_rate cs s lo -> largest_rate cs s hi -> lo <= q -> q <= hi ->
  exists h e, between_speeds cs s q = Ok (h, e) /\ on_chart p_head cs s q h /\ on_chart p_eff cs s q e.
Proof.
  intros cs s q lo hi (N & P & S) W NE Lo Hi Q1 Q2.
  destruct (split_at_speed cs s S W NE) as (before & c1 & c2 & after & E & L1 & L2).
  destruct (across_between left_end p_rate cs s lo before c1 c2 after) as (p1 & p2 & Hp1 & Hp2 & Elo); auto.
  { intros c p p' _. apply left_unique. }
  destruct (across_between right_end p_rate cs s hi before c1 c2 after) as (p1' & p2' & Hp1' & Hp2' & Ehi); auto.
  { intros c p p' _. apply right_unique. }
  destruct (weight_ok _ _ _ L1 L2) as (W1 & W2 & W3 & W4). set (w := (s - cv_speed c1) / (cv_speed c2 - cv_speed c1)) in *. clearbody w.
  assert (In c1 cs /\ In c2 cs) as [I1 I2] by (rewrite E; split; apply in_or_app; right; [left|right; left]; reflexivity).
  destruct (P c1 I1) as [P1 N1]. destruct (P c2 I2) as [P2 N2].
  pose proof (ends_apart c1 p1 p1' P1 N1 Hp1 Hp1') as D1. pose proof (ends_apart c2 p2 p2' P2 N2 Hp2 Hp2') as D2.
  pose proof (mix_lt w _ _ _ _ W1 W2 D1 D2) as D. rewrite <- Elo, <- Ehi in D.
  destruct (fraction_ok lo hi q D Q1 Q2) as (T1 & T2 & T3).
  set (t := (q - lo) / (hi - lo)) in *.
  destruct (head_at_value c1 (mix t (p_rate p1) (p_rate p1')) P1 N1) as (h1 & Eh1 & Vh1).
  destruct (head_at_value c2 (mix t (p_rate p2) (p_rate p2')) P2 N2) as (h2 & Eh2 & Vh2).
  destruct (eff_at_value c1 (mix t (p_rate p1) (p_rate p1')) P1 N1) as (e1 & Ee1 & Ve1).
  destruct (eff_at_value c2 (mix t (p_rate p2) (p_rate p2')) P2 N2) as (e2 & Ee2 & Ve2).
  exists (mix w h1 h2), (mix w e1 e2). split.
  - unfold between_speeds. rewrite E. rewrite E in S. destruct (closest_pair before c1 c2 after s S L1 L2) as [-> ->].
    unfold scaling_factors.
    assert (Qceqb (cv_speed c2 - s + (s - cv_speed c1)) 0 = false) as -> by (apply Qceqb_neq, lt_neq; qc_lra).
    rewrite W4. destruct (min_rate_ends c2 P2) as (x2 & X2 & ->). rewrite (left_unique _ _ _ X2 Hp2). cbn [bind].
    destruct (max_rate_ends c2 P2) as (x2' & X2' & ->). rewrite (right_unique _ _ _ X2' Hp2'). cbn [bind].
    destruct (min_rate_ends c1 P1) as (x1 & X1 & ->). rewrite (left_unique _ _ _ X1 Hp1). cbn [bind].
    destruct (max_rate_ends c1 P1) as (x1' & X1' & ->). rewrite (right_unique _ _ _ X1' Hp1'). cbn [bind].
    unfold equivalent_rates.
    assert ((1 - w) * p_rate p1 + (1 - (1 - w)) * p_rate p2 = lo) as -> by (rewrite Elo; unfold mix; ring).
    assert ((1 - w) * p_rate p1' + (1 - (1 - w)) * p_rate p2' = hi) as -> by (rewrite Ehi; unfold mix; ring).
    rewrite (proj2 (Qcltb_ge hi q) Q2), (proj2 (Qcltb_ge q lo) Q1). cbn [andb orb].
    assert (Qceqb (hi - lo) 0 = false) as -> by (apply Qceqb_neq, lt_neq; qc_lra).
    cbn [bind]. fold t.
    replace (p_rate p1 + (p_rate p1' - p_rate p1) * t) with (mix t (p_rate p1) (p_rate p1')) by (unfold mix; ring).
    replace (p_rate p2 + (p_rate p2' - p_rate p2) * t) with (mix t (p_rate p2) (p_rate p2')) by (unfold mix; ring).
    rewrite Eh1, Ee1, Eh2, Ee2. cbn [bind]. f_equal. f_equal; unfold mix; ring.
  - assert (q = mix w (mix t (p_rate p1) (p_rate p1')) (mix t (p_rate p2) (p_rate p2'))) as Eq.
    { rewrite <- mix_mix. rewrite <- Elo, <- Ehi. exact T3. }
    split; right; exists before, c1, c2, after, w, t, p1, p1', p2, p2'.
    + exists h1, h2. repeat (split; [assumption|]). reflexivity.
    + exists e1, e2. repeat (split; [assumption|]). reflexivity.
Qed.

(** ** inside the chart there are always a head and an efficiency *)
Lemma inside_ok : forall cs s q lo hi flag, proper_chart cs -> within_speeds cs s ->
  smallest_rate cs s lo -> largest_rate cs s hi -> lo <= q -> q <= hi ->
  exists h e, head_and_efficiency cs true s q flag = Ok (Some h, Some e) /\ on_chart p_head cs s q h /\ on_chart p_eff cs s q e.
Proof.
  intros cs s q lo hi flag P W Lo Hi Q1 Q2. unfold head_and_efficiency. destruct (curve_by_speed cs s) as [c|] eqn:E.
  - apply curve_by_speed_some in E as [Hc <-]. destruct P as (_ & P & _). destruct (P c Hc) as [Pc Nc].
    destruct (head_at_value c q Pc Nc) as (h & -> & Vh). destruct (eff_at_value c q Pc Nc) as (e & -> & Ve). cbn [bind].
    exists h, e. split; [reflexivity|]. split; left; exists c; auto.
  - destruct (between_ok cs s q lo hi P W (curve_by_speed_none _ _ E) Lo Hi Q1 Q2) as (h & e & -> & A & B). cbn [bind fst snd]. eauto.
Qed.

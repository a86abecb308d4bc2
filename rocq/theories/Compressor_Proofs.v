(** Interpolation along the speeds of a chart. *)
From Coq Require Import PeanoNat.
From Verif Require Import QcTac Base BaseLemmas Num Interp_Model Interp_Spec Time_Proofs Interp_Proofs Chart_Model Chart_Spec
  Chart_Proofs Chart_Proofs2 Pump_Proofs Compressor_Model Compressor_Spec.
Local Open Scope list_scope.
Local Open Scope Qc_scope.

(** ** sorted speeds *)
Lemma sorted_app : forall (f : curve -> Qc) l m, StronglySorted Qclt (map f (l ++ m)) ->
  StronglySorted Qclt (map f l) /\ StronglySorted Qclt (map f m) /\ forall a b, In a l -> In b m -> f a < f b.
Proof.
  intros f l m. induction l as [|a l IH]; intros S; cbn [app map] in *.
  - split; [constructor|]. split; auto. intros a b [].
  - apply StronglySorted_inv in S as [S F]. destruct (IH S) as (A & B & C). rewrite map_app, Forall_app in F. destruct F as [F1 F2].
    split; [constructor; auto|]. split; auto. intros x y [<-|Hx] Hy; [|now apply C].
    rewrite Forall_forall in F2. apply F2. now apply in_map.
Qed.

Lemma speeds_rising : forall cs ys, List.length cs = List.length ys -> StronglySorted Qclt (map cv_speed cs) ->
  rising (combine (map cv_speed cs) ys).
Proof.
  induction cs as [|c cs IH]; intros [|y ys] L S; try discriminate L; [exact I|]. cbn [map combine rising] in *.
  apply StronglySorted_inv in S as [S F]. split; [|apply IH; auto].
  intros [a b] Hin. cbn [fst]. apply in_combine_l in Hin. rewrite Forall_forall in F. now apply F.
Qed.

Lemma fast_speed : forall cs f, StronglySorted Qclt (map cv_speed cs) -> last_opt cs = Some f -> forall c, In c cs -> cv_speed c <= cv_speed f.
Proof.
  intros cs f S E c Hc. destruct cs as [|a cs]; [discriminate|]. cbn in E. injection E as <-. revert c a S Hc.
  induction cs as [|b cs IH]; intros c a S Hc; [destruct Hc as [<-|[]]; apply Qcle_refl|].
  rewrite last_shift. cbn [map] in S. apply StronglySorted_inv in S as [S F]. destruct Hc as [<-|Hc]; [|apply IH; auto].
  apply Forall_inv in F. pose proof (IH b b S (or_introl eq_refl)). qc_lra.
Qed.
Lemma slow_speed : forall cs s, StronglySorted Qclt (map cv_speed cs) -> hd_error cs = Some s -> forall c, In c cs -> cv_speed s <= cv_speed c.
Proof.
  intros cs s S E c Hc. destruct cs as [|a cs]; [discriminate|]. injection E as ->. cbn [map] in S. apply StronglySorted_inv in S as [S F].
  destruct Hc as [<-|Hc]; [apply Qcle_refl|]. rewrite Forall_forall in F. apply Qclt_le_weak, F. now apply in_map.
Qed.

(** ** the curves next to a speed *)
Lemma curve_by_speed_some : forall cs s c, curve_by_speed cs s = Some c -> In c cs /\ cv_speed c = s.
Proof.
  intros cs s c E. unfold curve_by_speed in E. apply hd_error_in in E. apply filter_In in E as [A B]. apply Qceqb_eq in B. auto.
Qed.
Lemma curve_by_speed_none : forall cs s, curve_by_speed cs s = None -> forall c, In c cs -> cv_speed c <> s.
Proof.
  intros cs s E c Hc X. unfold curve_by_speed in E. destruct (filter _ cs) eqn:F; [|discriminate].
  assert (In c (filter (fun c => Qceqb (cv_speed c) s) cs)) as H by (apply filter_In; split; auto; now apply Qceqb_eq).
  rewrite F in H. destruct H.
Qed.

Lemma split_at_speed : forall cs s, StronglySorted Qclt (map cv_speed cs) -> within_speeds cs s ->
  (forall c, In c cs -> cv_speed c <> s) ->
  exists before c1 c2 after, cs = before ++ c1 :: c2 :: after /\ cv_speed c1 < s /\ s < cv_speed c2.
Proof.
  induction cs as [|a cs IH]; intros s S [(c & Hc & Lc) (d & Hd & Ld)] N; [destruct Hc|].
  cbn [map] in S. apply StronglySorted_inv in S as [S F]. rewrite Forall_forall in F.
  assert (cv_speed a < s) as La.
  { assert (cv_speed a <= cv_speed c) as X by (destruct Hc as [<-|Hc]; [apply Qcle_refl|apply Qclt_le_weak, F; now apply in_map]).
    assert (cv_speed a <> s) as Y by (apply N; now left). destruct (Qcle_lt_or_eq (cv_speed a) s) as [Z|Z]; auto; [qc_lra|congruence]. }
  destruct Hd as [<-|Hd]; [exfalso; qc_lra|].
  destruct cs as [|b cs]; [destruct Hd|].
  destruct (Qclt_le_dec s (cv_speed b)) as [Lb|Lb].
  - exists [], a, b, cs. auto.
  - destruct (IH s S) as (pre & c1 & c2 & post & E & A & B).
    + split; [exists b; split; auto; now left|exists d; auto].
    + intros x Hx. apply N. now right.
    + exists (a :: pre), c1, c2, post. rewrite E. auto.
Qed.

Lemma filter_none : forall (A : Type) (f : A -> bool) l, (forall x, In x l -> f x = false) -> filter f l = [].
Proof. intros A f l H. induction l as [|a l IH]; [reflexivity|]. cbn. rewrite (H a) by now left. apply IH. intros x Hx. apply H. now right. Qed.

Lemma closest_pair : forall before c1 c2 after s, StronglySorted Qclt (map cv_speed (before ++ c1 :: c2 :: after)) ->
  cv_speed c1 < s -> s < cv_speed c2 ->
  closest_curve_below (before ++ c1 :: c2 :: after) s = Some c1 /\ closest_curve_above (before ++ c1 :: c2 :: after) s = Some c2.
Proof.
  intros before c1 c2 after s S L1 L2. destruct (sorted_app _ _ _ S) as (_ & S2 & B).
  cbn [map] in S2. apply StronglySorted_inv in S2 as [S2 F1]. apply StronglySorted_inv in S2 as [_ F2]. rewrite Forall_forall in F2.
  split.
  - unfold closest_curve_below. rewrite rev_app_distr. cbn [rev]. rewrite <- !app_assoc. rewrite filter_app.
    rewrite (filter_none _ _ (rev after)).
    + cbn [app filter]. rewrite (proj2 (Qcleb_gt (cv_speed c2) s) L2).
      rewrite (proj2 (Qcleb_le (cv_speed c1) s) (Qclt_le_weak _ _ L1)). reflexivity.
    + intros x Hx. apply in_rev in Hx. apply Qcleb_gt. assert (cv_speed c2 < cv_speed x) by (apply F2; now apply in_map). qc_lra.
  - unfold closest_curve_above. rewrite filter_app. rewrite (filter_none _ _ before).
    + cbn [app filter]. rewrite (proj2 (Qcleb_gt s (cv_speed c1)) L1).
      rewrite (proj2 (Qcleb_le s (cv_speed c2)) (Qclt_le_weak _ _ L2)). reflexivity.
    + intros x Hx. apply Qcleb_gt. pose proof (B x c1 Hx (or_introl eq_refl)). qc_lra.
Qed.

(** ** ends of a curve *)
Lemma left_end_first : forall c, proper_curve c -> exists p, hd_error (cv_points c) = Some p /\ left_end c p.
Proof.
  intros c (L & S & _). unfold cv_rate in S. destruct c as [pts sp]. cbn [cv_points] in *. destruct pts as [|p pts]; [cbn in L; lia|].
  exists p. split; [reflexivity|]. split; [now left|]. cbn [cv_points map] in *. intros q [<-|Hq]; [apply Qcle_refl|].
  apply StronglySorted_inv in S as [_ F]. rewrite Forall_forall in F. apply F. now apply in_map.
Qed.
Lemma last_opt_map : forall (A B : Type) (f : A -> B) l, last_opt (map f l) = option_map f (last_opt l).
Proof.
  intros A B f [|a l]; [reflexivity|]. cbn. f_equal. revert a. induction l as [|b l IH]; intros a; [reflexivity|]. cbn [map].
  now rewrite !last_shift, IH.
Qed.
Lemma hd_error_map : forall (A B : Type) (f : A -> B) l, hd_error (map f l) = option_map f (hd_error l).
Proof. intros A B f [|a l]; reflexivity. Qed.
Lemma right_end_last : forall c, proper_curve c -> exists p, last_opt (cv_points c) = Some p /\ right_end c p.
Proof.
  intros c (L & S & _). unfold cv_rate in S. destruct c as [pts sp]. cbn [cv_points] in *. destruct pts as [|p pts]; [cbn in L; lia|].
  exists (last pts p). split; [reflexivity|]. unfold right_end. cbn [cv_points]. split; [apply last_opt_in; reflexivity|].
  intros q Hq. cbn [map] in S. pose proof (sorted_last _ _ S (p_rate q)) as X.
  assert (last (map p_rate pts) (p_rate p) = p_rate (last pts p)) as E.
  { pose proof (last_opt_map _ _ p_rate (p :: pts)) as Y. cbn in Y. congruence. }
  rewrite E in X. apply X. now apply (in_map p_rate (p :: pts)).
Qed.

(** ** functions of the speed *)
Definition ends_ok (f : curve -> result Qc) (ends : curve -> Qc * Qc * Qc -> Prop) (g : Qc * Qc * Qc -> Qc) : Prop :=
  forall c, proper_curve c -> exists p, ends c p /\ f c = Ok (g p).
Lemma min_rate_ends : ends_ok curve_min_rate left_end p_rate.
Proof. intros c P. destruct (left_end_first c P) as (p & E & H). exists p. split; auto. unfold curve_min_rate, cv_rate. now rewrite hd_error_map, E. Qed.
Lemma max_rate_ends : ends_ok curve_max_rate right_end p_rate.
Proof. intros c P. destruct (right_end_last c P) as (p & E & H). exists p. split; auto. unfold curve_max_rate, cv_rate. now rewrite last_opt_map, E. Qed.
Lemma head_min_ends : ends_ok head_at_minimum_rate left_end p_head.
Proof. intros c P. destruct (left_end_first c P) as (p & E & H). exists p. split; auto. unfold head_at_minimum_rate, cv_head. now rewrite hd_error_map, E. Qed.
Lemma head_max_ends : ends_ok head_at_maximum_rate right_end p_head.
Proof. intros c P. destruct (right_end_last c P) as (p & E & H). exists p. split; auto. unfold head_at_maximum_rate, cv_head. now rewrite last_opt_map, E. Qed.
Lemma eff_min_ends : ends_ok eff_at_minimum_rate left_end p_eff.
Proof. intros c P. destruct (left_end_first c P) as (p & E & H). exists p. split; auto. unfold eff_at_minimum_rate, cv_eff. now rewrite hd_error_map, E. Qed.
Lemma eff_max_ends : ends_ok eff_at_maximum_rate right_end p_eff.
Proof. intros c P. destruct (right_end_last c P) as (p & E & H). exists p. split; auto. unfold eff_at_maximum_rate, cv_eff. now rewrite last_opt_map, E. Qed.

Lemma along_speed_ok : forall f ends g cs s, ends_ok f ends g -> proper_chart cs ->
  exists y, along_speed f cs s = Ok y /\ across ends g cs s y.
Proof.
  intros f ends g cs s He (N & P & S). unfold along_speed.
  assert (exists ys, mapM f cs = Ok ys) as [ys E].
  { apply mapM_total. intros c Hc. destruct (He c (proj1 (P c Hc))) as (p & _ & E). eauto. }
  rewrite E. cbn [bind]. apply mapM_Ok in E.
  assert (List.length cs = List.length ys) as L by (clear - E; induction E; cbn; congruence).
  assert (ys <> []) as Ny by (destruct cs, ys; try discriminate; congruence).
  destruct (bounded_list ys) as (lo & hi & B).
  destruct (interp1d_ends_bounds (map cv_speed cs) ys s lo hi) as (y & Ey & _); auto.
  - now rewrite map_length.
  - destruct cs; [congruence|discriminate].
  - exists y. split; auto. exists (combine (map cv_speed cs) ys). split.
    + clear - E P He. induction E as [|c z cs ys E _ IH]; [constructor|]. cbn [map combine]. constructor.
      * split; [reflexivity|]. destruct (He c (proj1 (P c (or_introl eq_refl)))) as (p & Hp & Ep). exists p. split; auto. cbn [snd]. congruence.
      * apply IH. intros d Hd. apply P. now right.
    + apply interp1d_ends_value; auto; [now rewrite map_length|]. now apply speeds_rising.
Qed.

Lemma end_unique : forall ends g c p p', (ends = left_end /\ g = p_rate) \/ (ends = right_end /\ g = p_rate) ->
  ends c p -> ends c p' -> g p = g p'.
Proof.
  intros ends g c p p' [[-> ->]|[-> ->]] [A1 A2] [B1 B2]; pose proof (A2 _ B1); pose proof (B2 _ A1); qc_lra.
Qed.

(** what is in between two curves *)
Lemma across_between : forall (ends : curve -> Qc * Qc * Qc -> Prop) (g : Qc * Qc * Qc -> Qc) cs s y before c1 c2 after, 
  (forall c p p', In c cs -> ends c p -> ends c p' -> g p = g p') -> StronglySorted Qclt (map cv_speed cs) ->
  cs = before ++ c1 :: c2 :: after -> cv_speed c1 < s -> s < cv_speed c2 -> across ends g cs s y ->
  exists p1 p2, ends c1 p1 /\ ends c2 p2 /\ y = mix ((s - cv_speed c1) / (cv_speed c2 - cv_speed c1)) (g p1) (g p2).
Proof.
  intros ends g cs s y before c1 c2 after U S E L1 L2 (data & F & V). subst cs.
  apply Forall2_app_inv_l in F as (d1 & d2 & F1 & F2 & ->). inversion F2 as [|x a l d2' (A & p1 & Hp1 & Ga) F3]; subst.
  inversion F3 as [|x b l d2'' (B & p2 & Hp2 & Gb) F4]; subst. clear F2 F3.
  exists p1, p2. split; auto. split; auto.
  assert (StronglySorted Qclt (map fst (d1 ++ a :: b :: d2''))) as Sd.
  { replace (map fst (d1 ++ a :: b :: d2'')) with (map cv_speed (before ++ c1 :: c2 :: after)); auto.
    rewrite !map_app. cbn [map]. f_equal; [|f_equal; [now symmetry|f_equal; [now symmetry|]]].
    - clear - F1. induction F1 as [|c d l m [H _] _ IH]; cbn; congruence.
    - clear - F4. induction F4 as [|c d l m [H _] _ IH]; cbn; congruence. }
  assert (rising (d1 ++ a :: b :: d2'')) as R.
  { clear - Sd. revert Sd. generalize (d1 ++ a :: b :: d2''). induction l as [|p l IH]; intros Sd; [exact I|]. cbn [map] in Sd.
    apply StronglySorted_inv in Sd as [Sd F]. split; auto. intros q Hq. rewrite Forall_forall in F. apply F. now apply in_map. }
  eapply value_at_unique; [exact R|exact V|]. left. destruct a as [a ya], b as [b yb]. cbn [fst snd] in *. subst a b ya yb.
  split.
  - split; [exists (cv_speed c1), (g p1)|exists (cv_speed c2), (g p2)]; (split; [apply in_or_app; right|now apply Qclt_le_weak]).
    + now left.
    + right. now left.
  - right. exists (cv_speed c1), (g p1), (cv_speed c2), (g p2). split; [apply in_or_app; right; now left|].
    split; [apply in_or_app; right; right; now left|]. split; auto. split; auto. split.
    + intros c yc Hc. apply in_app_or in Hc as [Hc|[Hc|[Hc|Hc]]].
      * left. clear - Sd Hc. revert Sd Hc. induction d1 as [|d d1 IH]; intros Sd Hc; [destruct Hc|]. cbn [app map] in Sd.
        apply StronglySorted_inv in Sd as [Sd F]. destruct Hc as [->|Hc]; [|auto]. rewrite Forall_forall in F.
        apply Qclt_le_weak. apply (F (cv_speed c1)). rewrite map_app. apply in_or_app. right. now left.
      * injection Hc as <- <-. left. apply Qcle_refl.
      * injection Hc as <- <-. right. apply Qcle_refl.
      * right. clear - Sd Hc. rewrite map_app in Sd. cbn [map] in Sd.
        assert (StronglySorted Qclt (cv_speed c2 :: map fst d2'')) as X.
        { clear - Sd. revert Sd. generalize (map fst d1). induction l as [|z l IH]; intros Sd; cbn [app] in Sd; apply StronglySorted_inv in Sd as [Sd _]; auto. }
        apply StronglySorted_inv in X as [_ F]. rewrite Forall_forall in F. apply Qclt_le_weak. apply F. change c with (fst (c, yc)). now apply in_map.
    + unfold mix. cbn. ring.
Qed.

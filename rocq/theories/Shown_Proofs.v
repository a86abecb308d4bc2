(** The charts in the results. *)
From Coq Require Import PeanoNat Lia.
From Verif Require Import QcTac Base BaseLemmas Num Interp_Model Interp_Spec Interp_Proofs Chart_Model Chart_Spec Chart_Proofs Chart_Proofs2 Pump_Proofs
  Compressor_Spec Compressor_Proofs Compressor_Proofs2 Compressor_Proofs4 Compressor_Proofs8 Generic_Proofs Shown_Model Shown_Spec.
Local Open Scope list_scope.
Local Open Scope Qc_scope.

Lemma point_ok_iff : forall p, point_ok p = true <-> 0 <= p_rate p /\ 0 <= p_head p /\ 0 < p_eff p /\ p_eff p <= 1.
Proof. intros p. unfold point_ok. rewrite !andb_true_iff, !Qcleb_le, Qcltb_lt. tauto. Qed.

Lemma curve_shown : forall c, showable c -> curve_dto c = Ok c.
Proof.
  intros c (P & N & S & B). destruct P as (L & R & E). unfold curve_dto. apply Qcleb_le in S. rewrite S. cbn [negb].
  assert (forallb point_ok (cv_points c) = true) as ->.
  { apply forallb_forall. intros p Hp. apply point_ok_iff. destruct (B p Hp) as (B1 & B2 & B3). repeat split; auto. apply E. now apply in_map. }
  cbn [negb]. assert (Nat.ltb 1 (List.length (cv_points c)) = true) as -> by (apply Nat.ltb_lt; lia).
  f_equal. destruct c as [pts sp]. cbn [cv_points cv_speed] in *. f_equal. apply sort_id. unfold cv_rate in R. cbn [cv_points] in R. clear - R.
  induction pts as [|p pts IH]; [constructor|]. cbn [map] in R. apply StronglySorted_inv in R as [R F]. constructor; [now apply IH|].
  rewrite Forall_forall in *. intros q Hq. apply Qcleb_le. apply F. now apply in_map.
Qed.
Lemma curves_shown : forall cs, (forall c, In c cs -> showable c) -> mapM curve_dto cs = Ok cs.
Proof.
  induction cs as [|c cs IH]; intros H; [reflexivity|]. cbn [mapM]. rewrite (curve_shown c (H c (or_introl eq_refl))). cbn [bind]. rewrite IH; [reflexivity|]. intros d D. apply H. now right.
Qed.

Lemma margin_point_shown : forall c m, showable c -> 0 < m -> m <= 1 ->
  exists c' p, adjust_for_control_margin c (Some m) = Ok c' /\ hd_error (cv_points c') = Some p /\ point_dto p = Ok p /\ margin_point m c p.
Proof.
  intros c m (P & N & _ & B) M0 M1. destruct (left_end_first c P) as (p & _ & Lp). destruct (right_end_last c P) as (q & _ & Rq).
  assert (p_rate p <= p_rate q) as D by (apply Lp; apply Rq).
  unfold adjust_for_control_margin. replace (Qceqb m 0) with false by (symmetry; apply Qceqb_neq; now apply lt_neq).
  rewrite (qc_max_right c q P Rq), (qc_min_left c p P Lp). cbn [bind].
  set (n := p_rate p + (p_rate q - p_rate p) * m).
  assert (p_rate p <= n /\ n <= p_rate q) as [Ln Rn] by (unfold n; split; qc_nra).
  assert (n = p_rate p + m * (p_rate q - p_rate p)) as En by (unfold n; ring). clearbody n.
  destruct (new_point_on p_head c n p q) as (hn & Eh & Ih); auto. destruct (new_point_on p_eff c n p q) as (en & Ee & Ie); auto.
  unfold cv_head, cv_eff. rewrite Eh, Ee. cbn [bind].
  exists (mkCurve ((n, hn, en) :: filter (fun p => Qcltb n (p_rate p)) (cv_points c)) (cv_speed c)), (n, hn, en).
  split; [reflexivity|]. split; [reflexivity|].
  assert (forall f, in_range (quantity f c) n) as R.
  { intros f. split; [exists (p_rate p), (f p)|exists (p_rate q), (f q)]; (split; [|assumption]); unfold quantity; apply in_map_iff; eexists; (split; [reflexivity|]); [apply Lp|apply Rq]. }
  split.
  - unfold point_dto. assert (point_ok (n, hn, en) = true) as ->; [|reflexivity]. apply point_ok_iff. cbn [p_rate p_head p_eff fst snd].
    assert (cv_eff c <> []) as Ne by (unfold cv_eff; destruct Lp as [Hp _]; destruct (cv_points c); [destruct Hp|discriminate]).
    destruct (qc_min_ok _ Ne) as (e0 & _ & He0 & Be0). destruct P as (_ & _ & E1).
    assert (0 < e0) as P0 by (unfold cv_eff in He0; apply in_map_iff in He0 as (z & <- & Hz); apply (B z Hz)).
    destruct (value_at_bounds (quantity p_eff c) n en e0 1) as [X Y].
    + left. split; auto.
    + intros a b Hab. unfold quantity in Hab. apply in_map_iff in Hab as (z & E & Hz). injection E as <- <-. split; [apply Be0|apply E1]; now apply in_map.
    + assert (cv_head c <> []) as Nh by (unfold cv_head; destruct Lp as [Hp _]; destruct (cv_points c); [destruct Hp|discriminate]).
      destruct (qc_max_ok _ Nh) as (h1 & _ & _ & Bh1).
      destruct (value_at_bounds (quantity p_head c) n hn 0 h1) as [Z _].
      * left. split; auto.
      * intros a b Hab. unfold quantity in Hab. apply in_map_iff in Hab as (z & E & Hz). injection E as <- <-. split; [apply (B z Hz)|]. apply Bh1. now apply in_map.
      * destruct Lp as [Hp _]. destruct (B p Hp) as (B1 & _). split; [qc_lra|]. split; [exact Z|]. split; [qc_lra|exact Y].
  - exists p, q. split; auto.
Qed.
Lemma line_shown : forall cs m, (forall c, In c cs -> showable c) -> 0 < m -> m <= 1 ->
  exists adjusted line, mapM (fun c => adjust_for_control_margin c (Some m)) cs = Ok adjusted /\
    mapM (fun c => do p <- of_option IndexError (hd_error (cv_points c)); point_dto p) adjusted = Ok line /\ Forall2 (margin_point m) cs line.
Proof.
  intros cs m H M0 M1. induction cs as [|c cs IH]; [exists [], []; repeat split; constructor|].
  destruct IH as (a & l & E1 & E2 & F); [intros d D; apply H; now right|]. destruct (margin_point_shown c m (H c (or_introl eq_refl)) M0 M1) as (c' & p & A1 & A2 & A3 & A4).
  exists (c' :: a), (p :: l). cbn [mapM]. rewrite A1, E1, A2, E2. cbn [bind of_option]. rewrite A3. cbn [bind]. repeat split. constructor; auto.
Qed.

Lemma by_speed_sort : forall cs, by_speed cs (sort (fun a b => Qcleb (cv_speed a) (cv_speed b)) cs).
Proof. intros cs. split; [apply sort_perm|apply sort_speeds]. Qed.

Lemma user_chart_shown : forall cs m, (forall c, In c cs -> showable c) -> (forall q, m = Some q -> 0 <= q /\ q <= 1) ->
  exists d, show_chart (UserDefined cs m) = Ok d /\ by_speed cs (cd_curves d) /\ cd_margin d = m /\ cd_design_rate d = None /\ cd_design_head d = None /\
    ((m = None \/ m = Some 0 \/ cs = []) -> cd_line d = None) /\
    (forall q, m = Some q -> 0 < q -> cs <> [] -> exists line, cd_line d = Some line /\ Forall2 (margin_point q) (cd_curves d) line).
Proof.
  intros cs m H M. unfold show_chart. cbn [own_curves fst snd at_least_zero andb]. set (o := sort _ cs).
  pose proof (by_speed_sort cs) as S. fold o in S.
  assert (forall c, In c o -> showable c) as Ho by (intros c Hc; apply H; eapply Permutation_in; [apply Permutation_sym; apply S|exact Hc]).
  assert (exists line, control_margin_line (UserDefined cs m) = Ok line /\ ((m = None \/ m = Some 0 \/ cs = []) -> line = []) /\
    (forall q, m = Some q -> 0 < q -> Forall2 (margin_point q) o line)) as (line & E & L0 & L1).
  { destruct m as [q|]; [|exists []; split; [reflexivity|]; split; [reflexivity|discriminate]]. cbn [control_margin_line own_curves]. fold o.
    destruct (M q eq_refl) as [M0 M1]. destruct (Qcltb 0 q) eqn:Q.
    - apply Qcltb_lt in Q. destruct (line_shown o q Ho Q M1) as (a & l & E1 & E2 & F). rewrite E1. cbn [bind]. exists l. split; [exact E2|]. split.
      + intros [X|[X|X]]; [discriminate X|injection X as ->; exfalso; qc_lra|]. subst cs. destruct S as [S _]. apply Permutation_nil in S. rewrite S in F. inversion F. reflexivity.
      + intros r X _. injection X as <-. exact F.
    - exists []. split; [reflexivity|]. split; [reflexivity|]. intros r X Y. injection X as <-. apply Qcltb_lt in Y. congruence. }
  rewrite E. cbn [bind]. rewrite (curves_shown o Ho). cbn [bind]. eexists. split; [reflexivity|]. cbn [cd_curves cd_line cd_margin cd_design_rate cd_design_head].
  split; [exact S|]. repeat split.
  - intros X. rewrite (L0 X). reflexivity.
  - intros q X Y Z. exists line. split; [|exact (L1 q X Y)]. pose proof (L1 q X Y) as F. destruct line as [|p line]; [|reflexivity]. exfalso. apply Z.
    assert (o = []) as W by (inversion F; reflexivity). destruct S as [S _]. rewrite W in S. apply Permutation_sym in S. now apply Permutation_nil in S.
Qed.

Lemma generic_chart_shown : forall cs r h, (forall c, In c cs -> showable c) -> 0 <= r -> 0 <= h ->
  show_chart (Generic cs r h) = Ok (mkChartDto cs None None (Some r) (Some h)).
Proof.
  intros cs r h H R Hh. unfold show_chart. cbn [control_margin_line own_curves bind fst snd at_least_zero]. rewrite (curves_shown cs H). cbn [bind].
  apply Qcleb_le in R, Hh. rewrite R, Hh. reflexivity.
Qed.

(** only such charts are shown *)
Lemma curve_dto_ok : forall c c', curve_dto c = Ok c' -> 0 <= cv_speed c /\ (2 <= List.length (cv_points c))%nat /\ forall p, In p (cv_points c) -> 0 <= p_rate p /\ 0 <= p_head p /\ 0 < p_eff p /\ p_eff p <= 1.
Proof.
  intros c c' E. unfold curve_dto in E. destruct (Qcleb 0 (cv_speed c)) eqn:S; [|discriminate E]. cbn [negb] in E. destruct (forallb point_ok (cv_points c)) eqn:F; [|discriminate E]. cbn [negb] in E.
  destruct (Nat.ltb 1 (List.length (cv_points c))) eqn:L; [|discriminate E]. apply Qcleb_le in S. apply Nat.ltb_lt in L. split; [exact S|]. split; [lia|]. intros p Hp. rewrite forallb_forall in F. now apply point_ok_iff, F.
Qed.
Lemma only_showable : forall d shown c, show_chart d = Ok shown -> (exists cs m, d = UserDefined cs m /\ In c cs) \/ (exists cs r h, d = Generic cs r h /\ In c cs) ->
  0 <= cv_speed c /\ (2 <= List.length (cv_points c))%nat /\ forall p, In p (cv_points c) -> 0 <= p_rate p /\ 0 <= p_head p /\ 0 < p_eff p /\ p_eff p <= 1.
Proof.
  intros d shown c E C. unfold show_chart in E. destruct (control_margin_line d) as [l|]; [|discriminate E]. cbn [bind] in E. destruct (mapM curve_dto (own_curves d)) as [cs'|] eqn:M; [|discriminate E]. clear E.
  assert (In c (own_curves d)) as I.
  { destruct C as [(cs & m & -> & I)|(cs & r & h & -> & I)]; [|exact I]. cbn [own_curves]. eapply Permutation_in; [apply sort_perm|exact I]. }
  apply mapM_Ok in M. clear C. revert I. generalize dependent cs'. generalize (own_curves d). induction l0 as [|a l0 IH]; intros cs' F I; [destruct I|]. inversion F as [|? b ? bs A B]; subst.
  destruct I as [->|I]; [exact (curve_dto_ok c b A)|exact (IH bs B I)].
Qed.

(** a chart that a compressor accepts but the results cannot show *)
Lemma zero_efficiency_refuted : exists rates heads efficiencies speed c, make_curve rates heads efficiencies speed = Ok c /\ proper_curve c /\ NoDup (cv_rate c) /\
  (forall p, In p (cv_points c) -> 0 <= p_rate p /\ 0 <= p_head p) /\ 0 <= cv_speed c /\ show_chart (UserDefined [c] None) = Err ValidationError.
Proof.
  exists [qz 1; qz 2], [qz 5; qz 4], [0; qc 1 2], (qz 100), (mkCurve [(qz 1, qz 5, 0); (qz 2, qz 4, qc 1 2)] (qz 100)).
  split; [vm_compute; reflexivity|]. split.
  { split; [cbn; lia|]. split.
    - cbn. repeat constructor. apply Qcleb_le. vm_compute. reflexivity.
    - cbn. intros e [<-|[<-|[]]]; split; apply Qcleb_le; vm_compute; reflexivity. }
  split; [cbn; repeat constructor; cbn; intuition discriminate|]. split; [cbn; intros p [<-|[<-|[]]]; split; apply Qcleb_le; vm_compute; reflexivity|].
  split; [apply Qcleb_le; vm_compute; reflexivity|]. vm_compute. reflexivity.
Qed.

(** Curves, the control margin and the envelope of a chart. *)
From Coq Require Import PeanoNat.
From Verif Require Import QcTac Base BaseLemmas Num Interp_Model Interp_Spec Time_Proofs Interp_Proofs Chart_Model Chart_Spec Chart_Proofs.
Local Open Scope list_scope.
Local Open Scope Qc_scope.

Lemma cv_lengths : forall c, List.length (cv_rate c) = List.length (cv_points c) /\
  List.length (cv_head c) = List.length (cv_points c) /\ List.length (cv_eff c) = List.length (cv_points c).
Proof. intros c. unfold cv_rate, cv_head, cv_eff. rewrite !map_length. auto. Qed.

Lemma proper_nonempty : forall c, proper_curve c -> cv_rate c <> [] /\ cv_head c <> [] /\ cv_eff c <> [].
Proof.
  intros c (L & _). unfold cv_rate, cv_head, cv_eff. destruct (cv_points c); [cbn in L; lia|]. repeat split; discriminate.
Qed.

Lemma sort_points_sorted : forall l : list (Qc * Qc * Qc),
  StronglySorted Qcle (map p_rate (sort (fun p q => Qcleb (p_rate p) (p_rate q)) l)).
Proof.
  assert (forall l p, StronglySorted Qcle (map p_rate l) ->
    StronglySorted Qcle (map p_rate (insert_sorted (fun p q => Qcleb (p_rate p) (p_rate q)) p l))) as Hins.
  { induction l as [|q l IH]; intros p H; cbn [insert_sorted].
    - cbn. constructor; constructor.
    - cbn [map] in H. apply StronglySorted_inv in H as [H1 H2]. destruct (Qcleb (p_rate p) (p_rate q)) eqn:E.
      + apply Qcleb_le in E. cbn [map]. constructor; [constructor; auto|]. constructor; auto.
        eapply Forall_impl; [|exact H2]. intros r R. cbn in R. qc_lra.
      + apply Qcleb_gt in E. cbn [map]. constructor; [now apply IH|]. apply Forall_forall. intros r Hr.
        apply in_map_iff in Hr as (s & <- & Hs). apply (Permutation_in _ (Permutation_sym (insert_sorted_perm _ _ _ _))) in Hs as [<-|Hs].
        * now apply Qclt_le_weak.
        * rewrite Forall_forall in H2. apply H2. now apply in_map. }
  induction l as [|p l IH]; cbn [sort]; [constructor|]. now apply Hins.
Qed.

Lemma combine3_proj : forall rates heads effs : list Qc, List.length rates = List.length heads -> List.length heads = List.length effs ->
  map p_rate (combine (combine rates heads) effs) = rates /\ map p_head (combine (combine rates heads) effs) = heads /\
  map p_eff (combine (combine rates heads) effs) = effs.
Proof.
  induction rates as [|r rates IH]; intros [|h heads] [|e effs] L1 L2; try discriminate; cbn; auto.
  injection L1 as L1. injection L2 as L2. destruct (IH heads effs L1 L2) as (A & B & C). unfold p_rate, p_head, p_eff in *. cbn. now rewrite A, B, C.
Qed.

(** the constructor accepts exactly the data the documentation asks for, and keeps the points in order of rate *)
Theorem make_curve_proof : forall rates heads effs speed,
  (forall c, make_curve rates heads effs speed = Ok c ->
     proper_curve c /\ cv_speed c = speed /\ Permutation (cv_points c) (combine (combine rates heads) effs)) /\
  ((exists c, make_curve rates heads effs speed = Ok c) <->
     (forall e, In e effs -> 0 <= e /\ e <= 1) /\ List.length rates = List.length heads /\
     List.length heads = List.length effs /\ (2 <= List.length rates)%nat) /\
  (forall e, make_curve rates heads effs speed = Err e -> e = ValidationError).
Proof.
  intros rates heads effs speed. unfold make_curve.
  destruct (forallb _ effs) eqn:F; cbn [negb].
  2:{ split; [intros c E; discriminate E|]. split; [|intros e E; congruence]. split; [intros [c E]; discriminate E|].
      intros (A & _). exfalso. assert (forallb (fun e => Qcleb 0 e && Qcleb e 1) effs = true) as X; [|congruence].
      apply forallb_forall. intros e He. destruct (A e He). apply andb_true_iff. split; now apply Qcleb_le. }
  assert (forall e, In e effs -> 0 <= e /\ e <= 1) as HF.
  { intros e He. rewrite forallb_forall in F. apply F in He. apply andb_true_iff in He as [A B]. split; now apply Qcleb_le. }
  destruct (Nat.eqb (List.length rates) (List.length heads)) eqn:L1; cbn [andb negb].
  2:{ apply Nat.eqb_neq in L1. split; [intros c E; discriminate E|]. split; [|intros e E; congruence].
      split; [intros [c E]; discriminate E|]. intros (_ & A & _). congruence. }
  apply Nat.eqb_eq in L1. destruct (Nat.eqb (List.length heads) (List.length effs)) eqn:L2; cbn [negb].
  2:{ apply Nat.eqb_neq in L2. split; [intros c E; discriminate E|]. split; [|intros e E; congruence].
      split; [intros [c E]; discriminate E|]. intros (_ & _ & A & _). congruence. }
  apply Nat.eqb_eq in L2. destruct (Nat.ltb (List.length rates) 2) eqn:L3.
  { apply Nat.ltb_lt in L3. split; [intros c E; discriminate E|]. split; [|intros e E; congruence].
    split; [intros [c E]; discriminate E|]. intros (_ & _ & _ & A). lia. }
  apply Nat.ltb_ge in L3. split; [|split; [|intros e E; discriminate E]].
  - intros c E. assert (c = mkCurve (sort (fun p q => Qcleb (p_rate p) (p_rate q)) (combine (combine rates heads) effs)) speed) as -> by congruence.
    clear E. cbn [cv_speed cv_points]. pose proof (sort_perm _ (fun p q => Qcleb (p_rate p) (p_rate q)) (combine (combine rates heads) effs)) as P.
    split; [|split; [reflexivity|now apply Permutation_sym]].
    split; [|split].
    + cbn [cv_points]. rewrite <- (Permutation_length P), !combine_length. lia.
    + apply sort_points_sorted.
    + unfold cv_eff. cbn [cv_points]. intros e He. apply HF. apply in_map_iff in He as (q & <- & Hq).
      apply (Permutation_in _ (Permutation_sym P)) in Hq. destruct q as [[r h] e]. eapply in_combine_r; eauto.
  - split; [intros _; auto|]. intros _. eexists. reflexivity.
Qed.

(** ** totality and bounds of the curve functions *)
Lemma curve_head_total : forall c r, proper_curve c -> exists h, curve_head_at c r = Ok h.
Proof.
  intros c r P. destruct (proper_nonempty c P) as (N1 & N2 & N3). destruct (cv_lengths c) as (L1 & L2 & L3). unfold curve_head_at.
  assert (exists lo hi, forall y, In y (cv_head c) -> lo <= y /\ y <= hi) as (lo & hi & B).
  { clear. induction (cv_head c) as [|a l (lo & hi & IH)]; [exists 0, 0; intros y []|].
    exists (Qcmin a lo), (Qcmax a hi). intros y [<-|Hy]; [|destruct (IH y Hy)]; qc_cases; split; qc_lra. }
  destruct (interp1d_ends_bounds (cv_rate c) (cv_head c) r lo hi) as (y & E & _); try (exists y; exact E); auto. congruence.
Qed.

Lemma curve_head_bounds : forall c r lo hi h, proper_curve c -> (forall y, In y (cv_head c) -> lo <= y /\ y <= hi) ->
  curve_head_at c r = Ok h -> lo <= h /\ h <= hi.
Proof.
  intros c r lo hi h P B E. destruct (proper_nonempty c P) as (N1 & N2 & N3). destruct (cv_lengths c) as (L1 & L2 & L3). unfold curve_head_at in E.
  destruct (interp1d_ends_bounds (cv_rate c) (cv_head c) r lo hi) as (y & E2 & H); auto; congruence.
Qed.

Lemma curve_eff_bounds : forall c r lo hi, proper_curve c -> (forall y, In y (cv_eff c) -> lo <= y /\ y <= hi) ->
  exists e, curve_eff_at c r = Ok e /\ lo <= e /\ e <= hi.
Proof.
  intros c r lo hi P B. destruct (proper_nonempty c P) as (N1 & N2 & N3). destruct (cv_lengths c) as (L1 & L2 & L3). unfold curve_eff_at.
  apply interp1d_ends_bounds; auto. congruence.
Qed.

Lemma curve_min_rate_ok : forall c, proper_curve c -> exists r, curve_min_rate c = Ok r /\ In r (cv_rate c) /\ forall q, In q (cv_rate c) -> r <= q.
Proof.
  intros c P. destruct (proper_nonempty c P) as (N & _). destruct P as (_ & S & _). unfold curve_min_rate.
  destruct (cv_rate c) as [|r rs]; [congruence|]. exists r. split; [reflexivity|]. split; [now left|].
  apply StronglySorted_inv in S as [_ S]. rewrite Forall_forall in S. intros q [<-|H]; [apply Qcle_refl|auto].
Qed.
Lemma sorted_last : forall l x, StronglySorted Qcle (x :: l) -> forall q, In q (x :: l) -> q <= last l x.
Proof.
  induction l as [|y l IH]; intros x S q H.
  - destruct H as [<-|[]]. apply Qcle_refl.
  - rewrite last_shift. apply StronglySorted_inv in S as [S F]. rewrite Forall_forall in F.
    destruct H as [<-|H]; [|now apply IH]. assert (x <= y) by (apply F; now left).
    assert (y <= last l y) by (apply IH; [exact S|now left]). qc_lra.
Qed.
Lemma curve_max_rate_ok : forall c, proper_curve c -> exists r, curve_max_rate c = Ok r /\ In r (cv_rate c) /\ forall q, In q (cv_rate c) -> q <= r.
Proof.
  intros c P. destruct (proper_nonempty c P) as (N & _). destruct P as (_ & S & _). unfold curve_max_rate.
  destruct (cv_rate c) as [|r rs] eqn:E; [congruence|]. cbn [last_opt of_option]. exists (last rs r). split; [reflexivity|].
  split; [apply (last_opt_in _ (r :: rs)); reflexivity|]. intros q Hq. now apply sorted_last.
Qed.

Lemma fold_max_ok : forall l a, (forall q, In q (a :: l) -> q <= fold_left Qcmax l a) /\ In (fold_left Qcmax l a) (a :: l).
Proof.
  induction l as [|b l IH]; intros a; cbn [fold_left].
  - split; [|now left]. intros q [<-|[]]. apply Qcle_refl.
  - destruct (IH (Qcmax a b)) as [H1 H2]. split.
    + intros q [<-|[<-|Hq]].
      * assert (Qcmax a b <= fold_left Qcmax l (Qcmax a b)) by (apply H1; now left). assert (a <= Qcmax a b) by (qc_cases; qc_lra). qc_lra.
      * assert (Qcmax a b <= fold_left Qcmax l (Qcmax a b)) by (apply H1; now left). assert (b <= Qcmax a b) by (qc_cases; qc_lra). qc_lra.
      * apply H1. now right.
    + destruct H2 as [<-|H2]; [|right; now right]. unfold Qcmax. destruct (Qcleb a b); [right; now left|now left].
Qed.
Lemma fold_min_ok : forall l a, (forall q, In q (a :: l) -> fold_left Qcmin l a <= q) /\ In (fold_left Qcmin l a) (a :: l).
Proof.
  induction l as [|b l IH]; intros a; cbn [fold_left].
  - split; [|now left]. intros q [<-|[]]. apply Qcle_refl.
  - destruct (IH (Qcmin a b)) as [H1 H2]. split.
    + intros q [<-|[<-|Hq]].
      * assert (fold_left Qcmin l (Qcmin a b) <= Qcmin a b) by (apply H1; now left). assert (Qcmin a b <= a) by (qc_cases; qc_lra). qc_lra.
      * assert (fold_left Qcmin l (Qcmin a b) <= Qcmin a b) by (apply H1; now left). assert (Qcmin a b <= b) by (qc_cases; qc_lra). qc_lra.
      * apply H1. now right.
    + destruct H2 as [<-|H2]; [|right; now right]. unfold Qcmin. destruct (Qcleb a b); [now left|right; now left].
Qed.
Lemma qc_max_ok : forall l, l <> [] -> exists m, qc_max_of l = Ok m /\ In m l /\ forall q, In q l -> q <= m.
Proof. intros [|a l] N; [congruence|]. exists (fold_left Qcmax l a). destruct (fold_max_ok l a). auto. Qed.
Lemma qc_min_ok : forall l, l <> [] -> exists m, qc_min_of l = Ok m /\ In m l /\ forall q, In q l -> m <= q.
Proof. intros [|a l] N; [congruence|]. exists (fold_left Qcmin l a). destruct (fold_min_ok l a). auto. Qed.

Lemma mapM_total : forall (A B : Type) (f : A -> result B) l, (forall a, In a l -> exists b, f a = Ok b) -> exists bs, mapM f l = Ok bs.
Proof.
  induction l as [|a l IH]; intros H; [exists []; reflexivity|]. cbn [mapM].
  destruct (H a (or_introl eq_refl)) as [b E]. rewrite E. cbn [bind]. destruct IH as [bs E2]; [intros x Hx; apply H; now right|].
  rewrite E2. eexists. reflexivity.
Qed.

(** the extreme rates of a chart *)
Lemma chart_max_rate_ok : forall cs, cs <> [] -> Forall proper_curve cs -> exists m, chart_max_rate cs = Ok m /\
  (exists c, In c cs /\ In m (cv_rate c)) /\ forall c q, In c cs -> In q (cv_rate c) -> q <= m.
Proof.
  intros cs N F. unfold chart_max_rate. rewrite Forall_forall in F.
  destruct (mapM_total _ _ curve_max_rate cs) as [rs E].
  { intros c Hc. destruct (curve_max_rate_ok c (F c Hc)) as (r & R & _). eauto. }
  rewrite E. cbn [bind]. apply mapM_Ok in E.
  assert (rs <> []) as Nr by (intros ->; inversion E; congruence).
  destruct (qc_max_ok rs Nr) as (m & Em & I & B). exists m. split; [exact Em|]. split.
  - clear - E I F. induction E as [|c r cs rs H E IH]; [destruct I|]. destruct I as [->|I].
    + exists c. split; [now left|]. destruct (curve_max_rate_ok c (F c (or_introl eq_refl))) as (r' & R & I & _). assert (r' = m) by congruence. now subst.
    + destruct IH as (c' & A & A2); auto. { intros x Hx. apply F. now right. } exists c'. split; [now right|exact A2].
  - intros c q Hc Hq. destruct (curve_max_rate_ok c (F c Hc)) as (r & R & _ & B2).
    assert (In r rs) as Hr. { clear - E R Hc. induction E as [|c' r' cs rs H E IH]; [destruct Hc|]. destruct Hc as [->|Hc]; [left; congruence|right; auto]. }
    apply B in Hr. apply B2 in Hq. qc_lra.
Qed.
Lemma chart_min_rate_ok : forall cs, cs <> [] -> Forall proper_curve cs -> exists m, chart_min_rate cs = Ok m /\
  (exists c, In c cs /\ In m (cv_rate c)) /\ forall c q, In c cs -> In q (cv_rate c) -> m <= q.
Proof.
  intros cs N F. unfold chart_min_rate. rewrite Forall_forall in F.
  destruct (mapM_total _ _ curve_min_rate cs) as [rs E].
  { intros c Hc. destruct (curve_min_rate_ok c (F c Hc)) as (r & R & _). eauto. }
  rewrite E. cbn [bind]. apply mapM_Ok in E.
  assert (rs <> []) as Nr by (intros ->; inversion E; congruence).
  destruct (qc_min_ok rs Nr) as (m & Em & I & B). exists m. split; [exact Em|]. split.
  - clear - E I F. induction E as [|c r cs rs H E IH]; [destruct I|]. destruct I as [->|I].
    + exists c. split; [now left|]. destruct (curve_min_rate_ok c (F c (or_introl eq_refl))) as (r' & R & I & _). assert (r' = m) by congruence. now subst.
    + destruct IH as (c' & A & A2); auto. { intros x Hx. apply F. now right. } exists c'. split; [now right|exact A2].
  - intros c q Hc Hq. destruct (curve_min_rate_ok c (F c Hc)) as (r & R & _ & B2).
    assert (In r rs) as Hr. { clear - E R Hc. induction E as [|c' r' cs rs H E IH]; [destruct Hc|]. destruct Hc as [->|Hc]; [left; congruence|right; auto]. }
    apply B in Hr. apply B2 in Hq. qc_lra.
Qed.

Lemma ends_of_chart : forall cs, cs <> [] -> exists s f, slow_curve cs = Ok s /\ fast_curve cs = Ok f /\ In s cs /\ In f cs.
Proof.
  intros cs N. destruct (nonempty_ends _ cs N) as (s & f & E1 & E2). exists s, f. unfold slow_curve, fast_curve. rewrite E1, E2.
  repeat split; auto using hd_error_in, last_opt_in.
Qed.
Lemma bounded_list : forall l : list Qc, exists lo hi, forall y, In y l -> lo <= y /\ y <= hi.
Proof.
  induction l as [|a l (lo & hi & IH)]; [exists 0, 0; intros y []|].
  exists (Qcmin a lo), (Qcmax a hi). intros y [<-|Hy]; [|destruct (IH y Hy)]; qc_cases; split; qc_lra.
Qed.

Lemma minimum_head_ok : forall cs rate lo hi, cs <> [] -> Forall proper_curve cs ->
  (forall c y, In c cs -> In y (cv_head c) -> lo <= y /\ y <= hi) ->
  exists h, minimum_head_at cs rate = Ok h /\ lo <= h /\ h <= hi.
Proof.
  intros cs rate lo hi N F B. destruct (ends_of_chart cs N) as (s & f & E1 & E2 & I1 & I2). rewrite Forall_forall in F.
  unfold minimum_head_at. rewrite E1, E2. cbn [bind].
  destruct (curve_max_rate_ok f (F f I2)) as (r & R & _). destruct (curve_max_rate_ok s (F s I1)) as (r0 & R0 & _).
  rewrite R, R0. cbn [bind]. destruct (proper_nonempty s (F s I1)) as (Ns1 & _ & _). destruct (proper_nonempty f (F f I2)) as (_ & Nf & _).
  destruct (cv_lengths s) as (L1 & L2 & _). destruct (Qcltb r0 r).
  - destruct (nonempty_ends _ _ Nf) as (a & b & _ & Eb). rewrite Eb. cbn [of_option bind]. apply last_opt_in in Eb.
    apply interp1d_ends_bounds.
    + rewrite !app_length. cbn. congruence.
    + intros X. apply app_eq_nil in X as [_ X]. discriminate X.
    + intros y Hy. apply in_app_or in Hy as [Hy|[<-|[]]]; eauto.
  - apply interp1d_ends_bounds; [congruence|exact Ns1|]. intros y Hy. eauto.
Qed.

Lemma minimum_rate_ok : forall cs head, cs <> [] -> Forall proper_curve cs -> exists r, minimum_rate_at cs head = Ok r.
Proof.
  intros cs head N F. destruct (ends_of_chart cs N) as (s & f & E1 & E2 & I1 & I2). rewrite Forall_forall in F.
  unfold minimum_rate_at. rewrite E1, E2. cbn [bind].
  destruct (proper_nonempty s (F s I1)) as (_ & Ns & _). destruct (proper_nonempty f (F f I2)) as (_ & Nf & _).
  destruct (nonempty_ends _ _ Nf) as (h1 & ? & -> & _). destruct (nonempty_ends _ _ Ns) as (h0 & ? & -> & _). cbn [of_option bind].
  destruct (curve_min_rate_ok f (F f I2)) as (r1 & -> & _). destruct (curve_min_rate_ok s (F s I1)) as (r0 & -> & _). cbn [bind].
  destruct (interp1d_at_bounds [h0; h1] [r0; r1] r0 r1 head (Qcmin r0 r1) (Qcmax r0 r1)) as (y & E & _);
    [reflexivity|discriminate| | | | | |exists y; exact E].
  - intros y [<-|[<-|[]]]; qc_cases; split; qc_lra.
  - qc_cases; qc_lra.
  - qc_cases; qc_lra.
  - qc_cases; qc_lra.
  - qc_cases; qc_lra.
Qed.

Lemma maximum_head_ok : forall cs rate, cs <> [] -> Forall proper_curve cs -> exists h, maximum_head_at cs rate = Ok h.
Proof.
  intros cs rate N F. destruct (ends_of_chart cs N) as (s & f & E1 & E2 & I1 & I2). rewrite Forall_forall in F.
  unfold maximum_head_at. rewrite E2. cbn [bind]. apply curve_head_total. auto.
Qed.

(** ** the efficiency is a weighted mean of efficiencies of the curves *)
Section Efficiency.
Variable closest : list (Qc * Qc) -> Qc -> Qc -> Qc * (Qc * Qc).
Variable np_std : list Qc -> Qc.
Hypothesis closest_distance : forall pts x y, 0 <= fst (closest pts x y).

Definition near_ok (lo hi : Qc) (n : nearest) : Prop :=
  match fst n with None => True | Some (d, e) => 0 <= d /\ lo <= e /\ e <= hi end /\
  match snd n with None => True | Some (d, e) => d < 0 /\ lo <= e /\ e <= hi end.
Definition near_some (n : nearest) : Prop := fst n <> None \/ snd n <> None.

Lemma keep_nearest_ok : forall lo hi q h n c, proper_curve c -> (forall e, In e (cv_eff c) -> lo <= e /\ e <= hi) -> near_ok lo hi n ->
  exists n', keep_nearest closest q h (Ok n) c = Ok n' /\ near_ok lo hi n' /\ near_some n'.
Proof.
  intros lo hi q h [above below] c P B [A1 A2]. unfold keep_nearest. cbn [bind].
  unfold closest_on_curve. pose proof (closest_distance (combine (cv_rate c) (cv_head c)) q h) as D.
  destruct (closest _ q h) as [d [x y]]. cbn [fst] in D.
  destruct (curve_eff_bounds c x lo hi P B) as (e & E & E1 & E2). rewrite E. cbn [bind].
  set (d' := if Qcltb y h then - d else d). cbn [fst snd] in A1, A2. clearbody d'. clear D.
  destruct (Qcleb 0 d') eqn:C1.
  - apply Qcleb_le in C1. destruct above as [[da ea]|].
    + cbn [andb]. destruct (Qcltb d' da).
      * eexists. split; [reflexivity|]. split; [split; cbn; auto|left; discriminate].
      * replace (Qcltb d' 0) with false by (symmetry; now apply Qcltb_ge). cbn [andb]. eexists. split; [reflexivity|].
        split; [split; cbn; auto|left; discriminate].
    + cbn [andb]. eexists. split; [reflexivity|]. split; [split; cbn; auto|left; discriminate].
  - apply Qcleb_gt in C1. cbn [andb]. replace (Qcltb d' 0) with true by (symmetry; now apply Qcltb_lt). cbn [andb].
    destruct below as [[db eb]|].
    + destruct (Qcltb db d').
      * eexists. split; [reflexivity|]. split; [split; cbn; auto|right; discriminate].
      * eexists. split; [reflexivity|]. split; [split; cbn; auto|right; discriminate].
    + eexists. split; [reflexivity|]. split; [split; cbn; auto|right; discriminate].
Qed.

Lemma fold_nearest_ok : forall lo hi q h cs n, (forall c, In c cs -> proper_curve c /\ forall e, In e (cv_eff c) -> lo <= e /\ e <= hi) ->
  near_ok lo hi n -> cs <> [] \/ near_some n ->
  exists n', fold_left (keep_nearest closest q h) cs (Ok n) = Ok n' /\ near_ok lo hi n' /\ near_some n'.
Proof.
  induction cs as [|c cs IH]; intros n H A N.
  - exists n. cbn [fold_left]. split; [reflexivity|]. split; auto. destruct N; [congruence|auto].
  - destruct (H c (or_introl eq_refl)) as [P B].
    destruct (keep_nearest_ok lo hi q h n c P B A) as (n1 & E & A1 & S1).
    destruct (IH n1) as (n' & E' & A' & S'); [intros x Hx; apply H; now right|auto|auto|].
    exists n'. split; [|auto]. change (fold_left (keep_nearest closest q h) cs (keep_nearest closest q h (Ok n) c) = Ok n').
    refine (eq_ind_r (fun z => fold_left (keep_nearest closest q h) cs z = Ok n') E' E).
Qed.

Lemma scale_curve_ok : forall a b c d cu lo hi, proper_curve cu -> (forall e, In e (cv_eff cu) -> lo <= e /\ e <= hi) ->
  exists cu', scale_curve a b c d cu = Ok cu' /\ proper_curve cu' /\ forall e, In e (cv_eff cu') -> lo <= e /\ e <= hi.
Proof.
  intros a b c d cu lo hi P B. unfold scale_curve. destruct (cv_lengths cu) as (L1 & L2 & L3).
  destruct (make_curve_proof (map (fun r => (r - a) / b) (cv_rate cu)) (map (fun h => (h - c) / d) (cv_head cu)) (cv_eff cu) (cv_speed cu)) as (M1 & M2 & _).
  destruct P as (P1 & P2 & P3).
  destruct M2 as [_ M2]. destruct M2 as [cu' E].
  { rewrite !map_length. split; [exact P3|]. split; [congruence|]. split; [congruence|]. rewrite L1. exact P1. }
  exists cu'. split; [exact E|]. destruct (M1 cu' E) as (Q1 & _ & Q2). split; [exact Q1|].
  intros e He. apply B. unfold cv_eff in He. apply in_map_iff in He as ([[r h] e'] & <- & Hp).
  apply (Permutation_in _ Q2) in Hp. eapply in_combine_r; eauto.
Qed.

Lemma scale_all : forall w x y z cs lo hi, (forall c, In c cs -> proper_curve c) ->
  (forall c e, In c cs -> In e (cv_eff c) -> lo <= e /\ e <= hi) ->
  exists scaled, mapM (scale_curve w x y z) cs = Ok scaled /\ List.length scaled = List.length cs /\
    forall c, In c scaled -> proper_curve c /\ forall e, In e (cv_eff c) -> lo <= e /\ e <= hi.
Proof.
  intros w x y z cs lo hi. induction cs as [|c cs IH]; intros F B.
  - exists []. split; [reflexivity|]. split; [reflexivity|]. intros c [].
  - destruct (scale_curve_ok w x y z c lo hi) as (c' & E & P); [apply F; now left|intros e He; apply (B c); [now left|auto]|].
    destruct IH as (cs' & E' & L' & P'); [intros d Hd; apply F; now right|intros d e Hd He; apply (B d); [now right|auto]|].
    exists (c' :: cs'). cbn [mapM]. rewrite E. cbn [bind]. rewrite E'. cbn [bind]. split; [reflexivity|]. split; [cbn; congruence|].
    intros d [<-|Hd]; auto.
Qed.

Theorem efficiency_bounds_proof : forall cs rate head lo hi, cs <> [] -> Forall proper_curve cs ->
  (forall c e, In c cs -> In e (cv_eff c) -> lo <= e /\ e <= hi) ->
  exists e, efficiency_at closest np_std cs rate head = Ok e /\ lo <= e /\ e <= hi.
Proof.
  intros cs rate head lo hi N F B. unfold efficiency_at. rewrite Forall_forall in F. destruct (chart_100 cs) eqn:E100.
  - exists 1. split; [reflexivity|]. destruct cs as [|c cs]; [congruence|]. unfold chart_100 in E100. cbn [forallb] in E100.
    apply andb_true_iff in E100 as [E100 _]. unfold curve_100 in E100.
    destruct (proper_nonempty c (F c (or_introl eq_refl))) as (_ & _ & Ne). destruct (cv_eff c) as [|e es] eqn:Ee; [congruence|].
    cbn [forallb] in E100. apply andb_true_iff in E100 as [E100 _]. apply Qceqb_eq in E100. subst e.
    apply (B c); [now left|]. rewrite Ee. now left.
  - match goal with |- context [scale_curve ?w ?x ?y ?z] => destruct (scale_all w x y z cs lo hi F B) as (scaled & Es & Hl & Hs) end.
    rewrite Es. cbn [bind].
    assert (scaled <> []) as Nsc by (intros ->; destruct cs; [congruence|discriminate Hl]).
    match goal with |- context [fold_left (keep_nearest closest ?q ?h) scaled _] =>
      destruct (fold_nearest_ok lo hi q h scaled (None, None) Hs) as (n & En & [A1 A2] & S); [split; exact I|now left|rewrite En; cbn [bind]] end.
    destruct n as [[[da ea]|] [[db eb]|]]; cbn [fst snd] in *; cbn [alpha_of].
    + destruct A1 as (D1 & L1 & H1). destruct A2 as (D2 & L2 & H2).
      assert (Qcabs da = da) as -> by (qc_cases; auto; exfalso; qc_lra).
      assert (Qcabs db = - db) as -> by (qc_cases; auto; exfalso; qc_lra).
      assert (0 < da + - db) as Pos by qc_lra.
      destruct (Qceqb (da + - db) 0) eqn:Z. { apply Qceqb_eq in Z. exfalso. rewrite Z in Pos. revert Pos. apply Qcle_not_lt, Qcle_refl. }
      cbn [bind]. eexists. split; [reflexivity|]. cbn [snd].
      assert (da / (da + - db) * (da + - db) = da) as Q by (field; intros X; rewrite X in Pos; revert Pos; apply Qcle_not_lt, Qcle_refl).
      revert Q. generalize (da / (da + - db)). intros t Q.
      replace (t * eb + (1 - t) * ea) with (ea + t * (eb - ea)) by ring.
      apply convex_bounds; auto.
      * destruct (Qclt_le_dec t 0) as [C|C]; auto. exfalso. assert (t * (da + - db) < 0) by (clear - C Pos; qc_nra). qc_lra.
      * destruct (Qclt_le_dec 1 t) as [C|C]; auto. exfalso. assert (da + - db < t * (da + - db)) by (clear - C Pos; qc_nra). qc_lra.
    + destruct A1 as (_ & L1 & H1). cbn [bind snd]. eexists. split; [reflexivity|]. replace (0 * 1 + (1 - 0) * ea) with ea by ring. auto.
    + destruct A2 as (_ & L2 & H2). cbn [bind snd]. eexists. split; [reflexivity|]. replace (1 * eb + (1 - 1) * 1) with eb by ring. auto.
    + exfalso. destruct S; auto.
Qed.
End Efficiency.

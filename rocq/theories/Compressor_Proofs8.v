(** The control margin of a curve. *)
From Coq Require Import PeanoNat.
From Verif Require Import QcTac Base BaseLemmas Num Interp_Model Interp_Spec Time_Proofs Interp_Proofs Chart_Model Chart_Spec
  Chart_Proofs Chart_Proofs2 Pump_Proofs Compressor_Model Compressor_Spec Compressor_Proofs Compressor_Proofs2 Compressor_Proofs3
  Compressor_Proofs4 Compressor_Proofs5 Compressor_Proofs6 Compressor_Proofs7.
Local Open Scope list_scope.
Local Open Scope Qc_scope.

Lemma qc_min_left : forall c p, proper_curve c -> left_end c p -> qc_min_of (cv_rate c) = Ok (p_rate p).
Proof.
  intros c p P [Hp L]. destruct (qc_min_ok (cv_rate c)) as (m & E & Hm & B); [apply (proper_nonempty c P)|]. rewrite E. f_equal.
  apply Qcle_antisym; [apply B; now apply in_map|]. unfold cv_rate in Hm. apply in_map_iff in Hm as (q & <- & Hq). now apply L.
Qed.
Lemma qc_max_right : forall c p, proper_curve c -> right_end c p -> qc_max_of (cv_rate c) = Ok (p_rate p).
Proof.
  intros c p P [Hp L]. destruct (qc_max_ok (cv_rate c)) as (m & E & Hm & B); [apply (proper_nonempty c P)|]. rewrite E. f_equal.
  apply Qcle_antisym; [|apply B; now apply in_map]. unfold cv_rate in Hm. apply in_map_iff in Hm as (q & <- & Hq). now apply L.
Qed.

(** the new point lies on the curve *)
Lemma new_point_on : forall f c n p q, proper_curve c -> NoDup (cv_rate c) -> left_end c p -> right_end c q -> p_rate p <= n -> n <= p_rate q ->
  exists y, new_point (cv_rate c) (map f (cv_points c)) n = Ok y /\ interpolates (quantity f c) n y.
Proof.
  intros f c n p q P N [Hp _] [Hq _] L1 L2. unfold new_point.
  assert (map f (cv_points c) <> []) as Ne by (destruct (cv_points c); [destruct Hp|discriminate]).
  destruct (qc_min_ok _ Ne) as (b & -> & _). destruct (qc_max_ok _ Ne) as (a & -> & _). cbn [bind]. unfold interp1d_at.
  assert (List.length (cv_rate c) = List.length (map f (cv_points c))) as L by (unfold cv_rate; now rewrite !map_length).
  destruct (make_interpolator (cv_rate c) (map f (cv_points c)) (Some b) (Some a)) as [g|] eqn:E.
  - cbn [bind]. destruct (interpolation_proof _ _ _ _ _ N E) as (_ & H & _). rewrite <- quantity_combine in H.
    destruct (H n) as (y & Hy & ->).
    + split; [exists (p_rate p), (f p)|exists (p_rate q), (f q)]; (split; [|assumption]); unfold quantity; apply in_map_iff; eexists; split; eauto.
    + exists y. auto.
  - exfalso. unfold make_interpolator in E. rewrite (proj2 (Nat.eqb_eq _ _) L) in E. cbn [negb] in E.
    destruct (proper_nonempty c P) as (X & _). destruct (cv_rate c); [congruence|discriminate].
Qed.

(** a curve cut off at [n] *)
Lemma cut_value : forall pts n yn x y, rising pts -> interpolates pts n yn -> (exists a ya, In (a, ya) pts /\ n < a) -> n <= x -> value_at pts x y ->
  value_at ((n, yn) :: filter (fun p => Qcltb n (fst p)) pts) x y.
Proof.
  intros pts n yn x y R In_ (top & ytop & Ht & Lt) L V. set (cut := (n, yn) :: _).
  assert (forall a ya, In (a, ya) pts -> n < a -> In (a, ya) cut) as K.
  { intros a ya H A. right. apply filter_In. split; auto. now apply Qcltb_lt. }
  assert (forall a ya, In (a, ya) cut -> a = n \/ (In (a, ya) pts /\ n < a)) as K'.
  { intros a ya [H|H]; [injection H as <- <-; now left|]. apply filter_In in H as [H A]. right. split; auto. now apply Qcltb_lt in A. }
  assert (In (n, yn) cut) as Kn by now left.
  assert (forall z, interpolates pts n z -> z = yn) as U.
  { intros z Hz. apply interpolates_np in Hz; auto. apply interpolates_np in In_; auto. congruence. }
  clearbody cut. destruct V as [[[_ (b0 & yb0 & Hb0 & Lb0)] I]|(a & Ha & C)].
  - left. assert (in_range cut x) as Rg.
    { split; [exists n, yn; auto|]. destruct (Qclt_le_dec n b0) as [X|X]; [exists b0, yb0; auto|]. exists top, ytop. split; auto. qc_lra. }
    split; auto. destruct I as [I|(a & ya & b & yb & Ha & Hb & L1 & L2 & Nb & ->)].
    + left. destruct (Qcle_lt_or_eq _ _ L) as [X|X]; [now apply K|]. subst x. rewrite (U y); auto. now left.
    + destruct (Qcle_lt_or_eq _ _ L) as [X|X].
      2:{ subst x. left. rewrite (U (ya + (yb - ya) * ((n - a) / (b - a)))); auto. right. exists a, ya, b, yb. repeat (split; [assumption|]). split; auto. }
      right. destruct (Qclt_le_dec n a) as [Y|Y].
      * exists a, ya, b, yb. split; auto. split; [apply K; auto; qc_lra|]. split; auto. split; auto. split; auto.
        intros c yc Hc. apply K' in Hc as [->|[Hc _]]; [left; now apply Qclt_le_weak|]. now apply (Nb c yc).
      * assert (yn = ya + (yb - ya) * ((n - a) / (b - a))) as En.
        { symmetry. apply U. destruct (Qcle_lt_or_eq _ _ Y) as [Z|Z].
          - right. exists a, ya, b, yb. split; auto. split; auto. split; auto. split; [qc_lra|]. split; auto.
          - subst n. left. replace (ya + (yb - ya) * ((a - a) / (b - a))) with ya; auto. field. apply lt_neq. qc_lra. }
        exists n, yn, b, yb. split; auto. split; [apply K; auto; qc_lra|]. split; auto. split; auto. split.
        -- intros c yc Hc. apply K' in Hc as [->|[Hc Hn]]; [left; apply Qcle_refl|]. destruct (Nb c yc Hc) as [Z|Z]; auto. exfalso. qc_lra.
        -- rewrite En. field. split; apply lt_neq; qc_lra.
  - destruct C as [[C1 C2]|[C1 C2]].
    + exfalso. destruct In_ as [I|(u & yu & v & yv & Hu & Hv & L1 & L2 & _)]; [apply C2 in I|apply C2 in Hu]; qc_lra.
    + right. pose proof (C2 _ _ Ht). exists a. split; [apply K; auto; qc_lra|]. right. split; auto.
      intros b yb Hb. apply K' in Hb as [->|[Hb _]]; [qc_lra|]. now apply (C2 b yb).
Qed.

Lemma cut_quantity : forall f c n hn en, f = p_head \/ f = p_eff ->
  quantity f (mkCurve ((n, hn, en) :: filter (fun p => Qcltb n (p_rate p)) (cv_points c)) (cv_speed c)) =
  (n, f (n, hn, en)) :: filter (fun p => Qcltb n (fst p)) (quantity f c).
Proof.
  intros f [pts sp] n hn en _. unfold quantity. cbn [cv_points cv_speed map]. f_equal. induction pts as [|p pts IH]; [reflexivity|].
  cbn [filter map fst]. destruct (Qcltb n (p_rate p)); cbn [map]; now rewrite IH.
Qed.

Lemma filter_sorted : forall (A : Type) (R : A -> A -> Prop) f l, StronglySorted R l -> StronglySorted R (filter f l).
Proof.
  intros A R f. induction l as [|a l IH]; intros S; [constructor|]. apply StronglySorted_inv in S as [S F]. cbn. destruct (f a); auto.
  constructor; auto. rewrite Forall_forall in *. intros x Hx. apply F. now apply filter_In in Hx.
Qed.

Theorem margin_proof : forall c m, proper_curve c -> NoDup (cv_rate c) -> 0 < m -> m < 1 ->
  exists c', adjust_for_control_margin c (Some m) = Ok c' /\ proper_curve c' /\ NoDup (cv_rate c') /\ trimmed m c c'.
Proof.
  intros c m P N M0 M1.
  destruct (left_end_first c P) as (p & _ & Lp). destruct (right_end_last c P) as (q & _ & Rq).
  pose proof (ends_apart c p q P N Lp Rq) as D.
  unfold adjust_for_control_margin. replace (Qceqb m 0) with false by (symmetry; apply Qceqb_neq; now apply lt_neq).
  rewrite (qc_max_right c q P Rq), (qc_min_left c p P Lp). cbn [bind].
  set (n := p_rate p + (p_rate q - p_rate p) * m).
  assert (p_rate p < n /\ n < p_rate q) as [Ln Rn].
  { assert (0 < (p_rate q - p_rate p) * m) by (apply mul_pos; auto; qc_lra).
    assert (0 < (p_rate q - p_rate p) * (1 - m)) by (apply mul_pos; qc_lra). unfold n. split; qc_lra. }
  assert (n = mix m (p_rate p) (p_rate q)) as En by (unfold n, mix; ring).
  clearbody n.
  destruct (new_point_on p_head c n p q) as (hn & Eh & Ih); auto; try now apply Qclt_le_weak.
  destruct (new_point_on p_eff c n p q) as (en & Ee & Ie); auto; try now apply Qclt_le_weak.
  unfold cv_head, cv_eff. rewrite Eh, Ee. cbn [bind].
  set (kept := filter (fun p => Qcltb n (p_rate p)) (cv_points c)).
  assert (forall x, In x kept -> In x (cv_points c) /\ n < p_rate x) as Kk.
  { intros x Hx. apply filter_In in Hx as [Hx A]. apply Qcltb_lt in A. auto. }
  assert (In q kept) as Kq by (apply filter_In; split; [apply Rq|now apply Qcltb_lt]).
  set (c' := mkCurve ((n, hn, en) :: kept) (cv_speed c)).
  assert (StronglySorted Qcle (map p_rate kept) /\ NoDup (map p_rate kept)) as [Sk Nk].
  { destruct P as (_ & S & _). unfold cv_rate in S, N. subst kept. clear - S N. revert S N. generalize (cv_points c) as l.
    induction l as [|a l IH]; intros S N; [split; constructor|]. cbn [map] in S, N. apply StronglySorted_inv in S as [S F]. inversion N as [|x k X N']; subst.
    destruct (IH S N') as [I1 I2]. cbn [filter]. destruct (Qcltb n (p_rate a)); auto. cbn [map]. split; constructor; auto.
    - rewrite Forall_forall in *. intros x Hx. apply F. apply in_map_iff in Hx as (z & <- & Hz). apply filter_In in Hz as [Hz _]. now apply in_map.
    - intros H. apply X. apply in_map_iff in H as (z & <- & Hz). apply filter_In in Hz as [Hz _]. now apply in_map. }
  exists c'. split; [reflexivity|].
  assert (proper_curve c') as P'.
  { split; [|split].
    - cbn [cv_points c' List.length]. destruct kept; [destruct Kq|]. cbn. lia.
    - unfold cv_rate. cbn [cv_points c' map]. constructor; auto. rewrite Forall_forall. intros x Hx. apply in_map_iff in Hx as (z & <- & Hz).
      apply Kk in Hz as [_ Hz]. cbn. now apply Qclt_le_weak.
    - intros e He. unfold cv_eff in He. cbn [cv_points c' map] in He. destruct P as (_ & _ & B). destruct He as [<-|He].
      + cbn. destruct (value_at_bounds (quantity p_eff c) n en 0 1) as [X Y]; auto.
        * left. split; auto. split; [exists (p_rate p), (p_eff p)|exists (p_rate q), (p_eff q)]; (split; [|now apply Qclt_le_weak]);
            unfold quantity; apply in_map_iff; eexists; (split; [reflexivity|]); [apply Lp|apply Rq].
        * intros a b Hab. unfold quantity in Hab. apply in_map_iff in Hab as (z & E & Hz). injection E as <- <-. apply B. now apply in_map.
      + apply in_map_iff in He as (z & <- & Hz). apply Kk in Hz as [Hz _]. apply B. now apply in_map. }
  assert (NoDup (cv_rate c')) as N'.
  { unfold cv_rate. cbn [cv_points c' map]. constructor; auto. intros H. apply in_map_iff in H as (z & E & Hz). apply Kk in Hz as [_ Hz]. cbn in E. rewrite E in Hz. qc_lra. }
  split; auto. split; auto. split; [reflexivity|]. exists p, q, (n, hn, en), q. split; auto. split; auto. split; [|split; [|split; [|split]]].
  - split; [now left|]. intros z [<-|Hz]; [apply Qcle_refl|]. apply Kk in Hz as [_ Hz]. cbn. now apply Qclt_le_weak.
  - split; [now right|]. intros z [<-|Hz]; [cbn; now apply Qclt_le_weak|]. apply Rq. now apply Kk.
  - exact En.
  - reflexivity.
  - intros x y X. change (p_rate (n, hn, en)) with n in X.
    assert (forall f yn, (f = p_head \/ f = p_eff) -> f (n, hn, en) = yn -> interpolates (quantity f c) n yn ->
      (value_at (quantity f c) x y <-> value_at (quantity f c') x y)) as H.
    { intros f yn Hf Ef If.
      assert (forall z, value_at (quantity f c) x z -> value_at (quantity f c') x z) as W.
      { intros z V. unfold c', kept. rewrite cut_quantity by auto. rewrite Ef. apply cut_value; auto.
        - apply quantity_rising; auto. apply P.
        - exists (p_rate q), (f q). split; auto. unfold quantity. apply in_map_iff. exists q. split; auto. apply Rq. }
      split; auto. intros V. destruct (quantity_at f c x P N) as (z & _ & Vz). pose proof (W z Vz) as V'.
      rewrite (value_at_unique (quantity f c') x y z); auto. apply quantity_rising; auto. apply P'. }
    split; [apply (H p_head hn)|apply (H p_eff en)]; auto.
Qed.

(** no margin changes nothing *)
Theorem no_margin_proof : forall c, adjust_for_control_margin c None = Ok c /\ adjust_for_control_margin c (Some 0) = Ok c.
Proof. intros c. split; reflexivity. Qed.

(** the curves of a chart, in order of speed *)
Theorem chart_margin_proof : forall cs m, (forall c, In c cs -> proper_curve c /\ NoDup (cv_rate c)) -> 0 < m -> m < 1 ->
  exists cs' ordered, user_defined_curves cs (Some m) = Ok cs' /\ Permutation cs ordered /\
    StronglySorted Qcle (map cv_speed cs') /\
    Forall2 (fun c c' => proper_curve c' /\ NoDup (cv_rate c') /\ trimmed m c c') ordered cs'.
Proof.
  intros cs m P M0 M1. unfold user_defined_curves. set (ordered := sort _ cs).
  assert (Permutation cs ordered) as Pm by apply sort_perm.
  assert (forall c, In c ordered -> proper_curve c /\ NoDup (cv_rate c)) as Po.
  { intros c Hc. apply P. eapply Permutation_in; [apply Permutation_sym; exact Pm|exact Hc]. }
  pose proof (sort_speeds cs) as S. fold ordered in S. clearbody ordered. clear P.
  assert (exists cs', mapM (fun c => adjust_for_control_margin c (Some m)) ordered = Ok cs' /\ map cv_speed cs' = map cv_speed ordered /\
    Forall2 (fun c c' => proper_curve c' /\ NoDup (cv_rate c') /\ trimmed m c c') ordered cs') as (cs' & E & Es & F).
  { clear Pm S. induction ordered as [|c l IH]; [exists []; repeat split; constructor|].
    destruct IH as (cs' & E & Es & F); [intros d Hd; apply Po; now right|]. destruct (Po c (or_introl eq_refl)) as [A B].
    destruct (margin_proof c m A B M0 M1) as (c' & E' & P' & N' & T). exists (c' :: cs'). cbn [mapM]. rewrite E'. cbn [bind]. rewrite E. cbn [bind].
    split; [reflexivity|]. split; [cbn [map]; rewrite Es; f_equal; apply T|]. constructor; auto. }
  exists cs', ordered. split; auto. split; auto. split; auto. now rewrite Es.
Qed.

(** ** a curve *)
Example margin_example : match adjust_for_control_margin (mkCurve [(qz 10, qz 100, qc 7 10); (qz 20, qz 80, qc 8 10); (qz 30, qz 40, qc 6 10)] (qz 5)) (Some (qc 6 10)) with
  | Ok c => forallb (fun b => b) (map2 (fun p q => Qceqb (p_rate p) (p_rate q) && Qceqb (p_head p) (p_head q) && Qceqb (p_eff p) (p_eff q)) (cv_points c)
              [(qz 22, qz 72, qc 76 100); (qz 30, qz 40, qc 6 10)]) && Nat.eqb (List.length (cv_points c)) 2
  | Err _ => false end = true.
Proof. vm_compute. reflexivity. Qed.

(** ** what goes wrong *)
(** a margin beyond the range of rates leaves a single point, to the right of the curve and with its greatest head *)
Theorem large_margin_refuted : exists c m c' p q, proper_curve c /\ NoDup (cv_rate c) /\ 1 < m /\
  adjust_for_control_margin c (Some m) = Ok c' /\ cv_points c' = [p] /\ right_end c q /\ p_rate q < p_rate p /\ p_head q < p_head p.
Proof.
  destruct (adjust_for_control_margin slow_example (Some (qz 10))) as [c'|] eqn:E; [|vm_compute in E; discriminate].
  exists slow_example, (qz 10), c', (qz 21, qz 100, qc 8 10), (qz 3, qz 50, qc 8 10).
  destruct chart_example_ok as [(_ & P & _) _]. destruct (P slow_example (or_introl eq_refl)) as [A B].
  split; auto. split; auto. split; [reflexivity|]. split; auto. split.
  - vm_compute in E. injection E as <-. reflexivity.
  - split; [|split; reflexivity]. split; [cbn; auto|]. intros z [<-|[<-|[]]]; vm_compute; discriminate.
Qed.

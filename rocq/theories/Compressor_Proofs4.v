(** What the answers of a compressor chart say. *)
From Coq Require Import PeanoNat.
From Verif Require Import QcTac Base BaseLemmas Num Interp_Model Interp_Spec Time_Proofs Interp_Proofs Chart_Model Chart_Spec
  Chart_Proofs Chart_Proofs2 Pump_Proofs Compressor_Model Compressor_Spec Compressor_Proofs Compressor_Proofs2 Compressor_Proofs3.
Local Open Scope list_scope.
Local Open Scope Qc_scope.

Theorem valid_proof : forall cs speed rate choke asv, proper_chart cs ->
  (forall c p, In c cs -> right_end c p -> EPSILON < p_rate p) -> EPSILON < rate \/ asv = true ->
  exists r, single_point cs speed rate None choke asv = Ok r /\
    (cp_valid r = true <-> exists s lo hi, runs_at cs choke speed s /\ smallest_rate cs s lo /\ largest_rate cs s hi /\
       rate <= hi /\ (asv = true \/ lo <= rate)).
Proof.
  intros cs speed rate choke asv PC HE HR. destruct (point_proof cs speed rate choke asv PC HE HR) as (r & E & _ & A).
  exists r. split; auto. destruct A as [(V & N & _)|(s & lo & hi & RA & Lo & Hi & h & e & _ & _ & A)].
  - rewrite V. split; [discriminate|]. intros (s & lo & hi & RA & _). destruct (N s RA).
  - assert (forall s' lo' hi', runs_at cs choke speed s' -> smallest_rate cs s' lo' -> largest_rate cs s' hi' -> lo' = lo /\ hi' = hi) as U.
    { intros s' lo' hi' R' L' H'. rewrite (runs_unique _ _ _ _ _ R' RA) in *.
      destruct (smallest_ok cs s PC) as (a & _ & _ & Ua). destruct (largest_ok cs s PC) as (b & _ & _ & Ub).
      split; [rewrite (Ua lo), (Ua lo'); auto|rewrite (Ub hi), (Ub hi'); auto]. }
    destruct A as [(V & A1 & A2 & _)|[(V & A1 & _)|(V & A1 & A2 & _)]]; rewrite V; (split; [try discriminate|]).
    + intros _. exists s, lo, hi. auto.
    + reflexivity.
    + intros (s' & lo' & hi' & R' & L' & H' & X & _). destruct (U _ _ _ R' L' H') as [-> ->]. exfalso. qc_lra.
    + intros (s' & lo' & hi' & R' & L' & H' & _ & [X|X]); [congruence|]. destruct (U _ _ _ R' L' H') as [-> ->]. exfalso. qc_lra.
Qed.

Theorem inside_proof : forall cs speed rate choke asv r, proper_chart cs ->
  (forall c p, In c cs -> right_end c p -> EPSILON < p_rate p) -> EPSILON < rate \/ asv = true ->
  single_point cs speed rate None choke asv = Ok r -> cp_valid r = true ->
  exists s lo h e, runs_at cs choke speed s /\ smallest_rate cs s lo /\ cp_head r = Some h /\ cp_eff r = Some e /\
    on_chart p_head cs s (Qcmax lo rate) h /\ on_chart p_eff cs s (Qcmax lo rate) e.
Proof.
  intros cs speed rate choke asv r PC HE HR E V. destruct (point_proof cs speed rate choke asv PC HE HR) as (r' & E' & _ & A).
  rewrite E in E'. injection E' as <-. destruct A as [(V' & _)|(s & lo & hi & RA & Lo & Hi & h & e & Hh & He & A)]; [congruence|].
  destruct A as [(_ & _ & _ & A & B)|[(V' & _)|(V' & _)]]; [|congruence|congruence].
  exists s, lo, h, e. repeat (split; [assumption|]). assumption.
Qed.

Theorem outside_proof : forall cs speed rate choke asv r, proper_chart cs ->
  (forall c p, In c cs -> right_end c p -> EPSILON < p_rate p) -> EPSILON < rate \/ asv = true ->
  single_point cs speed rate None choke asv = Ok r -> cp_valid r = false ->
  ((forall s, ~ runs_at cs choke speed s) /\ cp_head r = None /\ cp_eff r = None) \/
  (exists s h e, runs_at cs choke speed s /\ cp_head r = Some h /\ cp_eff r = Some e /\
     ((exists hi, largest_rate cs s hi /\ hi < rate /\ across right_end p_head cs s h /\ across right_end p_eff cs s e) \/
      (exists lo, smallest_rate cs s lo /\ rate < lo /\ asv = false /\ across left_end p_head cs s h /\ across left_end p_eff cs s e))).
Proof.
  intros cs speed rate choke asv r PC HE HR E V. destruct (point_proof cs speed rate choke asv PC HE HR) as (r' & E' & _ & A).
  rewrite E in E'. injection E' as <-. destruct A as [(_ & A)|(s & lo & hi & RA & Lo & Hi & h & e & Hh & He & A)]; [now left|].
  right. exists s, h, e. repeat (split; [assumption|]). destruct A as [(V' & _)|[(_ & A)|(_ & A)]]; [congruence|left; exists hi; auto|right; exists lo; auto].
Qed.

Theorem flag_proof : forall cs speed rate choke asv r, proper_chart cs ->
  (forall c p, In c cs -> right_end c p -> EPSILON < p_rate p) -> EPSILON < rate \/ asv = true ->
  single_point cs speed rate None choke asv = Ok r -> flagged EPSILON cs choke speed rate (cp_flag r).
Proof.
  intros cs speed rate choke asv r PC HE HR E. destruct (point_proof cs speed rate choke asv PC HE HR) as (r' & E' & F & _).
  rewrite E in E'. now injection E' as <-.
Qed.

(** ** bounds *)
Lemma value_at_bounds : forall data x y lo hi, value_at data x y -> (forall a b, In (a, b) data -> lo <= b /\ b <= hi) -> lo <= y /\ y <= hi.
Proof.
  intros data x y lo hi V B. destruct V as [[_ [H|(a & ya & b & yb & Ha & Hb & L1 & L2 & _ & ->)]]|(a & Ha & _)]; eauto.
  destruct (B _ _ Ha), (B _ _ Hb). destruct (weight_ok a b x L1 L2) as (W1 & W2 & _). revert W1 W2. generalize ((x - a) / (b - a)). intros w W1 W2.
  replace ((yb - ya) * w) with (w * (yb - ya)) by ring. apply convex_bounds; auto; now apply Qclt_le_weak.
Qed.
Lemma on_chart_bounds : forall f cs s q y lo hi, on_chart f cs s q y ->
  (forall c p, In c cs -> In p (cv_points c) -> lo <= f p /\ f p <= hi) -> lo <= y /\ y <= hi.
Proof.
  intros f cs s q y lo hi H B.
  assert (forall c x z, In c cs -> value_at (quantity f c) x z -> lo <= z /\ z <= hi) as Q.
  { intros c x z Hc V. eapply value_at_bounds; [exact V|]. intros a b Hin. unfold quantity in Hin. apply in_map_iff in Hin as (p & E & Hp).
    injection E as <- <-. now apply (B c). }
  destruct H as [(c & Hc & _ & V)|(before & c1 & c2 & after & w & t & p1 & p1' & p2 & p2' & y1 & y2 & E & W1 & W2 & _ & _ & _ & _ & _ & _ & _ & _ & V1 & V2 & ->)]; [eauto|].
  assert (In c1 cs /\ In c2 cs) as [I1 I2] by (rewrite E; split; apply in_or_app; right; [left|right; left]; reflexivity).
  destruct (Q c1 _ _ I1 V1), (Q c2 _ _ I2 V2). apply convex_bounds; auto; now apply Qclt_le_weak.
Qed.
Theorem bounds_proof : forall cs speed rate choke asv r h e lo hi, proper_chart cs ->
  (forall c p, In c cs -> right_end c p -> EPSILON < p_rate p) -> EPSILON < rate \/ asv = true ->
  single_point cs speed rate None choke asv = Ok r -> cp_valid r = true -> cp_head r = Some h -> cp_eff r = Some e ->
  (forall c p, In c cs -> In p (cv_points c) -> lo <= p_head p /\ p_head p <= hi) ->
  lo <= h /\ h <= hi /\ 0 <= e /\ e <= 1.
Proof.
  intros cs speed rate choke asv r h e lo hi PC HE HR E V Eh Ee B.
  destruct (inside_proof _ _ _ _ _ _ PC HE HR E V) as (s & m & h' & e' & _ & _ & Eh' & Ee' & Ch & Ce).
  assert (h' = h) as -> by congruence. assert (e' = e) as -> by congruence.
  destruct (on_chart_bounds _ _ _ _ _ _ _ Ch B). destruct (on_chart_bounds _ _ _ _ _ 0 1 Ce).
  - intros c p Hc Hp. destruct PC as (_ & P & _). destruct (P c Hc) as [(_ & _ & Q) _]. apply Q. now apply in_map.
  - auto.
Qed.

(** ** a chart *)
Definition slow_example : curve := mkCurve [(qz 1, qz 100, qc 7 10); (qz 3, qz 50, qc 8 10)] (qz 100).
Definition fast_example : curve := mkCurve [(qz 2, qz 200, qc 7 10); (qz 6, qz 120, qc 8 10)] (qz 200).
Definition chart_example : list curve := [slow_example; fast_example].
Lemma chart_example_ok : proper_chart chart_example /\ forall c p, In c chart_example -> right_end c p -> EPSILON < p_rate p.
Proof.
  split.
  - split; [discriminate|]. split.
    + intros c [<-|[<-|[]]]; (split; [split; [cbn; lia|]; split|]).
      * cbn. repeat constructor; vm_compute; discriminate.
      * intros e [<-|[<-|[]]]; split; vm_compute; discriminate.
      * cbn. constructor; [|constructor; [intros []|constructor]]. intros [X|[]]. apply (f_equal this) in X. vm_compute in X. discriminate.
      * cbn. repeat constructor; vm_compute; discriminate.
      * intros e [<-|[<-|[]]]; split; vm_compute; discriminate.
      * cbn. constructor; [|constructor; [intros []|constructor]]. intros [X|[]]. apply (f_equal this) in X. vm_compute in X. discriminate.
    + cbn. repeat constructor.
  - intros c p [<-|[<-|[]]] [[<-|[<-|[]]] _]; reflexivity.
Qed.
(** between the curves: at the middle speed, a rate in the middle of the range is in the middle of either curve *)
Example point_example : exists r, single_point chart_example (qz 150) (qz 3) None false false = Ok r /\ cp_valid r = true /\
  cp_flag r = InternalPoint /\ match cp_head r with Some h => Qceqb h (qc 235 2) | None => false end = true.
Proof. eexists. split; [vm_compute; reflexivity|]. split; [reflexivity|]. split; [reflexivity|]. vm_compute. reflexivity. Qed.
Example point_example_outside : exists r, single_point chart_example (qz 50) (qz 4) None true true = Ok r /\ cp_valid r = false /\
  cp_flag r = BelowMinimumSpeedAboveMaximumFlowRate.
Proof. eexists. split; [vm_compute; reflexivity|]. split; reflexivity. Qed.

(** ** what goes wrong *)
(** without recirculation, asking for no flow is an internal error instead of an invalid point *)
Theorem no_flow_refuted : exists cs speed rate, proper_chart cs /\ (forall c p, In c cs -> right_end c p -> EPSILON < p_rate p) /\
  within_speeds cs speed /\ single_point cs speed rate None false false = Err OtherError.
Proof.
  exists chart_example, (qz 150), (qz 0). split; [apply chart_example_ok|]. split; [apply chart_example_ok|]. split.
  - split; [exists slow_example|exists fast_example]; (split; [cbn; auto|vm_compute; discriminate]).
  - vm_compute. reflexivity.
Qed.
(** the rate through the compressor may exceed its largest rate: the point is valid at the speed of a curve, and an internal
    error between the curves *)
Theorem recirculated_refuted : exists cs speed speed' rate through hi hi',
  proper_chart cs /\ (forall c p, In c cs -> right_end c p -> EPSILON < p_rate p) /\
  rate < hi /\ largest_rate cs speed hi /\ hi < through /\ largest_rate cs speed' hi' /\ hi' < through /\
  (exists r, single_point cs speed rate (Some through) false true = Ok r /\ cp_valid r = true) /\
  single_point cs speed' rate (Some through) false true = Err OtherError.
Proof.
  exists chart_example, (qz 100), (qz 150), (qz 2), (qz 10), (qz 3), (qc 9 2).
  split; [apply chart_example_ok|]. split; [apply chart_example_ok|]. split; [reflexivity|].
  assert (forall c p, right_end c p -> In p (cv_points c)) as _ by (intros c p H; apply H).
  assert (right_end slow_example (qz 3, qz 50, qc 8 10)) as R1.
  { split; [cbn; auto|]. intros q [<-|[<-|[]]]; vm_compute; discriminate. }
  assert (right_end fast_example (qz 6, qz 120, qc 8 10)) as R2.
  { split; [cbn; auto|]. intros q [<-|[<-|[]]]; vm_compute; discriminate. }
  assert (Forall2 (fun c d => fst d = cv_speed c /\ exists p, right_end c p /\ snd d = p_rate p) chart_example [(qz 100, qz 3); (qz 200, qz 6)]) as F.
  { constructor; [split; [reflexivity|]; eexists; split; [exact R1|reflexivity]|]. constructor; [|constructor].
    split; [reflexivity|]. eexists. split; [exact R2|reflexivity]. }
  split.
  { exists [(qz 100, qz 3); (qz 200, qz 6)]. split; auto. left. split.
    - split; exists (qz 100), (qz 3); (split; [cbn; auto|vm_compute; discriminate]).
    - left. cbn. auto. }
  split; [reflexivity|]. split.
  { exists [(qz 100, qz 3); (qz 200, qz 6)]. split; auto. left. split.
    - split; [exists (qz 100), (qz 3)|exists (qz 200), (qz 6)]; (split; [cbn; auto|vm_compute; discriminate]).
    - right. exists (qz 100), (qz 3), (qz 200), (qz 6). split; [cbn; auto|]. split; [cbn; auto|]. split; [reflexivity|]. split; [reflexivity|]. split.
      + intros c yc [E|[E|[]]]; injection E as <- <-; [left|right]; vm_compute; discriminate.
      + apply Qc_is_canon. vm_compute. reflexivity. }
  split; [reflexivity|]. split.
  - eexists. split; [vm_compute; reflexivity|]. reflexivity.
  - vm_compute. reflexivity.
Qed.

(** What the capacity check of a compressor chart decides. *)
From Coq Require Import PeanoNat.
From Verif Require Import QcTac Base BaseLemmas Num Interp_Model Interp_Spec Time_Proofs Interp_Proofs Chart_Model Chart_Spec
  Chart_Proofs Chart_Proofs2 Pump_Proofs Compressor_Model Compressor_Spec Compressor_Proofs Compressor_Proofs2 Compressor_Proofs3
  Compressor_Proofs4 Compressor_Proofs5 Compressor_Proofs6.
Local Open Scope list_scope.
Local Open Scope Qc_scope.

Lemma max_cases : forall a b, (Qcmax a b = a /\ b <= a) \/ (Qcmax a b = b /\ a <= b).
Proof. intros a b. destruct (Q_dec_le a b) as [H|H] || destruct (Qclt_le_dec a b) as [H|H]; [right|left]; split; try (apply Qclt_le_weak; assumption); try assumption; unfold Qcmax; qc_cases; qc_lra. Qed.

(** left of the fastest curve, its head is that of its left end *)
Lemma left_of : forall c rate h p, proper_curve c -> NoDup (cv_rate c) -> left_end c p -> rate <= p_rate p -> value_at (quantity p_head c) rate h -> h = p_head p.
Proof.
  intros c rate h p P N Lp L V. apply (value_at_unique (quantity p_head c) rate); auto; [apply quantity_rising; [apply P|auto]|].
  assert (In (p_rate p, p_head p) (quantity p_head c)) as I by (unfold quantity; apply in_map_iff; exists p; split; auto; apply Lp).
  destruct (Qclt_le_dec rate (p_rate p)) as [X|X].
  - right. exists (p_rate p). split; auto. left. split; auto. intros b yb Hb. unfold quantity in Hb. apply in_map_iff in Hb as (q & E & Hq).
    injection E as <- <-. now apply Lp.
  - assert (rate = p_rate p) as -> by (apply Qcle_antisym; auto). left. split; [split; exists (p_rate p), (p_head p); split; auto; apply Qcle_refl|]. now left.
Qed.

Theorem capacity_proof : forall cs rate head, regular_chart cs -> exists c m k h e,
  evaluate_capacity cs true rate head = Ok c /\
  flow_line cs head m /\ ca_rate c = Qcmax m rate /\ (ca_recirculates c = true <-> rate < m) /\
  least_head cs (ca_rate c) k /\ ca_head c = Qcmax k head /\ (ca_choked c = true <-> head < k) /\
  greatest_head cs (ca_rate c) h /\ end_of_chart cs e /\
  (ca_exceeds c = false <-> ca_rate c <= e /\ ca_head c <= h).
Proof.
  intros cs rate head RC. pose proof RC as (P & Fa & Le). pose proof P as (N & PC & _).
  destruct (fastest_ok cs N) as (c1 & E1 & S1 & I1). destruct (PC c1 I1) as [P1 N1].
  destruct (minimum_rate_line cs head RC) as (m & Em & Fm).
  destruct (minimum_head_value cs (Qcmax m rate) P) as (k & Ek & Vk).
  destruct (maximum_rate_value cs head c1 RC S1) as (M & EM & VM).
  destruct (maximum_head_value cs rate c1 P S1) as (h0 & Eh & Vh0).
  destruct (maximum_head_value cs (Qcmax m rate) c1 P S1) as (h & _ & Vh).
  destruct (left_end_first c1 P1) as (pl & _ & Lp). destruct (right_end_last c1 P1) as (pr & _ & Rp).
  assert (h0 = h) as ->.
  { destruct (max_cases m rate) as [(X & Y)|(X & _)]; rewrite X in Vh.
    - pose proof (flow_line_bound cs head m c1 pl RC Fm S1 Lp) as B.
      rewrite (left_of c1 rate h0 pl), (left_of c1 m h pl); auto. now apply Qcle_trans with m.
    - eapply value_at_unique; [apply quantity_rising; [apply P1|exact N1]|exact Vh0|exact Vh]. }
  eexists. exists m, k, h, (p_rate pr). split.
  { unfold evaluate_capacity. rewrite Em. cbn [bind]. rewrite Ek. cbn [bind]. rewrite EM. cbn [bind]. rewrite Eh. cbn [bind]. reflexivity. }
  cbn [ca_rate ca_head ca_recirculates ca_choked ca_exceeds].
  split; [exact Fm|]. split; [reflexivity|]. split; [apply Qcltb_lt|]. split; [exact Vk|]. split; [reflexivity|]. split; [apply Qcltb_lt|].
  split; [exists c1; auto|]. split; [exists c1, pr; auto|].
  rewrite Bool.andb_true_r. rewrite Bool.negb_false_iff, Bool.andb_true_iff, !Bool.negb_true_iff, !Qcltb_ge.
  destruct (swapped_bounds c1 head M pl pr VM Lp Rp) as [_ MB].
  split; intros [A B]; split; auto.
  - now apply Qcle_trans with M.
  - apply (below_is_left c1 (Qcmax m rate) head h M pr); auto. destruct (max_cases k head) as [(X & Y)|(X & Y)]; rewrite X in B; auto. now apply Qcle_trans with k.
Qed.

Lemma flow_line_unique : forall cs head a b, regular_chart cs -> flow_line cs head a -> flow_line cs head b -> a = b.
Proof.
  intros cs head a b ((N & PC & _) & _ & R) (c0 & c1 & p0 & p1 & S0 & S1 & L0 & L1 & H) (c0' & c1' & p0' & p1' & S0' & S1' & L0' & L1' & H').
  rewrite (slowest_unique _ _ _ S0' S0) in *. rewrite (fastest_unique _ _ _ S1' S1) in *.
  assert (In c0 cs) as I0 by (now apply hd_error_in). assert (In c1 cs) as I1 by (now apply last_opt_in).
  rewrite (left_point c0 p0' p0 (proj2 (PC c0 I0)) L0' L0) in *. rewrite (left_point c1 p1' p1 (proj2 (PC c1 I1)) L1' L1) in *.
  destruct (R c0 c1 p0 p1 S0 S1 L0 L1) as [Hh _].
  destruct H as [(A & ->)|[(A & ->)|(A & B & ->)]], H' as [(A' & ->)|[(A' & ->)|(A' & B' & ->)]]; auto; exfalso; qc_lra.
Qed.
Lemma least_head_unique : forall cs rate a b, proper_chart cs -> least_head cs rate a -> least_head cs rate b -> a = b.
Proof.
  intros cs rate a b (N & PC & _) (c0 & c1 & p0 & p1 & S0 & S1 & L0 & L1 & H) (c0' & c1' & p0' & p1' & S0' & S1' & L0' & L1' & H').
  rewrite (slowest_unique _ _ _ S0' S0) in *. rewrite (fastest_unique _ _ _ S1' S1) in *.
  assert (In c0 cs) as I0 by (now apply hd_error_in). assert (In c1 cs) as I1 by (now apply last_opt_in).
  rewrite (right_point c0 p0' p0 (proj2 (PC c0 I0)) L0' L0) in *. rewrite (right_point c1 p1' p1 (proj2 (PC c1 I1)) L1' L1) in *.
  destruct (PC c0 I0) as [P0 N0]. pose proof (quantity_rising p_head c0 (proj1 (proj2 P0)) N0) as R.
  destruct H as [(A & V)|(A & V)], H' as [(A' & V')|(A' & V')]; try (exfalso; qc_lra); [|now apply (value_at_unique (quantity p_head c0) rate)].
  apply (value_at_unique (quantity p_head c0 ++ [(p_rate p1, p_head p1)]) rate); auto. apply rising_snoc; auto.
  intros x y Hxy. unfold quantity in Hxy. apply in_map_iff in Hxy as (q & E & Hq). injection E as <- <-. destruct L0 as [_ L0]. apply L0 in Hq. qc_lra.
Qed.
Lemma greatest_unique : forall cs rate a b, proper_chart cs -> greatest_head cs rate a -> greatest_head cs rate b -> a = b.
Proof.
  intros cs rate a b (N & PC & _) (c & S & V) (c' & S' & V'). rewrite (fastest_unique _ _ _ S' S) in *.
  assert (In c cs) as I by (now apply last_opt_in). destruct (PC c I) as [P0 N0].
  apply (value_at_unique (quantity p_head c) rate); auto. apply quantity_rising; [apply P0|auto].
Qed.
Lemma end_unique : forall cs a b, end_of_chart cs a -> end_of_chart cs b -> a = b.
Proof.
  intros cs a b (c & p & S & R & ->) (c' & p' & S' & R' & ->). rewrite (fastest_unique _ _ _ S' S) in *. eapply right_unique; eauto.
Qed.

(** the points of the chart are within the capacity, as they are *)
Theorem accepts_proof : forall cs rate head m k h e, regular_chart cs ->
  flow_line cs head m -> m <= rate -> end_of_chart cs e -> rate <= e ->
  least_head cs rate k -> k <= head -> greatest_head cs rate h -> head <= h ->
  exists c, evaluate_capacity cs true rate head = Ok c /\ ca_exceeds c = false /\ ca_rate c = rate /\ ca_head c = head /\
    ca_recirculates c = false /\ ca_choked c = false.
Proof.
  intros cs rate head m k h e RC Fm Lm Ee Le Vk Lk Vh Lh. pose proof RC as (P & _).
  destruct (capacity_proof cs rate head RC) as (c & m' & k' & h' & e' & E & Fm' & Er & Cr & Vk' & Ehd & Ck & Vh' & Ee' & X).
  rewrite (flow_line_unique cs head m' m RC Fm' Fm) in *.
  assert (ca_rate c = rate) as R. { rewrite Er. destruct (max_cases m rate) as [(A & B)|(A & _)]; rewrite A; auto. now apply Qcle_antisym. }
  rewrite R in *. rewrite (least_head_unique cs rate k' k P Vk' Vk) in *. rewrite (greatest_unique cs rate h' h P Vh' Vh) in *.
  rewrite (end_unique cs e' e Ee' Ee) in *.
  assert (ca_head c = head) as H. { rewrite Ehd. destruct (max_cases k head) as [(A & B)|(A & _)]; rewrite A; auto. now apply Qcle_antisym. }
  rewrite H in *. exists c. split; auto. split; [apply X; auto|]. split; auto. split; auto.
  split; apply Bool.not_true_is_false; intros Y; [apply Cr in Y|apply Ck in Y]; qc_lra.
Qed.

(** the check is not sensitive to being repeated: the point the machine is moved to is within the capacity as it is, if the
    head was not lifted above the flow line *)
Theorem settled_proof : forall cs rate head c, regular_chart cs ->
  evaluate_capacity cs true rate head = Ok c -> ca_exceeds c = false -> ca_choked c = false ->
  exists d, evaluate_capacity cs true (ca_rate c) (ca_head c) = Ok d /\ ca_exceeds d = false /\
    ca_rate d = ca_rate c /\ ca_head d = ca_head c /\ ca_recirculates d = false /\ ca_choked d = false.
Proof.
  intros cs rate head c RC E X Ch.
  destruct (capacity_proof cs rate head RC) as (c' & m & k & h & e & E' & Fm & Er & Cr & Vk & Ehd & Ck & Vh & Ee & Xi).
  rewrite E in E'. injection E' as <-. apply Xi in X as [X1 X2].
  assert (~ head < k) as Nk by (intros Y; apply Ck in Y; congruence).
  assert (ca_head c = head) as H. { rewrite Ehd. destruct (max_cases k head) as [(A & B)|(A & _)]; rewrite A; auto. apply Qcle_antisym; auto. now apply Qcnot_lt_le. }
  rewrite H in *. apply (accepts_proof cs (ca_rate c) head m k h e); auto.
  - rewrite Er. destruct (max_cases m rate) as [(A & B)|(A & B)]; rewrite A; auto. apply Qcle_refl.
  - now apply Qcnot_lt_le.
Qed.

(** ** a chart *)
Lemma example_regular : regular_chart chart_example.
Proof.
  split; [apply chart_example_ok|]. split.
  - intros c E. injection E as <-. cbn. repeat constructor.
  - intros c0 c1 p0 p1 E0 E1 [I0 L0] [I1 L1]. injection E0 as <-. injection E1 as <-.
    destruct I0 as [<-|[<-|[]]].
    + destruct I1 as [<-|[<-|[]]]; [split; vm_compute; discriminate|]. specialize (L1 _ (or_introl eq_refl)). exfalso. vm_compute in L1. now apply L1.
    + specialize (L0 _ (or_introl eq_refl)). exfalso. vm_compute in L0. now apply L0.
Qed.
(** a point inside, one left of the flow line, one under the slowest curve and two beyond the chart *)
Example capacity_example : 
  map (fun p => match evaluate_capacity chart_example true (fst p) (snd p) with
                | Ok c => Some (this (ca_rate c), this (ca_head c), ca_recirculates c, ca_choked c, ca_exceeds c) | Err _ => None end)
    [(qz 4, qz 110); (qz 1, qz 150); (qz 2, qz 20); (qz 5, qz 160); (qz 7, qz 100)] =
  [Some (this (qz 4), this (qz 110), false, false, false); Some (this (qc 3 2), this (qz 150), true, false, false);
   Some (this (qz 2), this (qz 75), false, true, false); Some (this (qz 5), this (qz 160), false, false, true);
   Some (this (qz 7), this (qz 120), false, true, true)].
Proof. vm_compute. reflexivity. Qed.

(** ** what goes wrong *)
(** when the slowest curve begins to the right of the fastest one and above it, a point above the chart is accepted: the
    greatest head is taken at the rate asked for instead of the rate the machine is moved to *)
Definition crossing_example : list curve :=
  [mkCurve [(qz 3, qz 100, qc 7 10); (qz 5, qz 50, qc 8 10)] (qz 100);
   mkCurve [(qz 1, qz 200, qc 7 10); (qz 2, qz 80, qc 8 10); (qz 6, qz 20, qc 8 10)] (qz 200)].
Lemma crossing_proper : proper_chart crossing_example.
Proof.
  split; [discriminate|]. split.
  - intros c [<-|[<-|[]]]; (split; [split; [cbn; lia|]; split|]).
    + cbn. repeat constructor; vm_compute; discriminate.
    + intros e [<-|[<-|[]]]; split; vm_compute; discriminate.
    + cbn. constructor; [|constructor; [intros []|constructor]]. intros [X|[]]. apply (f_equal this) in X. vm_compute in X. discriminate.
    + cbn. repeat constructor; vm_compute; discriminate.
    + intros e [<-|[<-|[<-|[]]]]; split; vm_compute; discriminate.
    + cbn. constructor; [|constructor; [|constructor; [intros []|constructor]]].
      * intros [X|[X|[]]]; apply (f_equal this) in X; vm_compute in X; discriminate.
      * intros [X|[]]. apply (f_equal this) in X; vm_compute in X; discriminate.
  - cbn. repeat constructor.
Qed.
Ltac auto_neither := first [intros [A B]; vm_compute in A, B; discriminate | left; vm_compute; discriminate | right; vm_compute; discriminate].
Theorem crossing_refuted : exists cs rate head c h, proper_chart cs /\
  (forall c, fastest cs c -> StronglySorted (fun a b => b < a) (cv_head c)) /\
  evaluate_capacity cs true rate head = Ok c /\ ca_exceeds c = false /\ greatest_head cs (ca_rate c) h /\ h < ca_head c.
Proof.
  exists crossing_example, (qz 1), (qz 30).
  exists (mkCapacity (qz 3) (qz 100) true true false false false), (qz 65).
  split; [apply crossing_proper|]. split.
  { intros c E. injection E as <-. cbn. repeat constructor. }
  split; [vm_compute; reflexivity|]. split; [reflexivity|]. cbn [ca_rate ca_head]. split; [|reflexivity].
  eexists. split; [reflexivity|]. left. split.
  - split; [exists (qz 2), (qz 80)|exists (qz 6), (qz 20)]; (split; [cbn; auto|vm_compute; discriminate]).
  - right. exists (qz 2), (qz 80), (qz 6), (qz 20). split; [cbn; auto|]. split; [cbn; auto|]. split; [reflexivity|]. split; [reflexivity|]. split.
    + intros c yc [X|[X|[X|[]]]]; injection X as <- _; auto_neither.
    + apply Qc_is_canon. vm_compute. reflexivity.
Qed.

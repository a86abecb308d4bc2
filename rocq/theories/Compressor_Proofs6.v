(** The capacity of a compressor chart. *)
From Coq Require Import PeanoNat.
From Verif Require Import QcTac Base BaseLemmas Num Interp_Model Interp_Spec Time_Proofs Interp_Proofs Chart_Model Chart_Spec
  Chart_Proofs Chart_Proofs2 Pump_Proofs Compressor_Model Compressor_Spec Compressor_Proofs Compressor_Proofs2 Compressor_Proofs3
  Compressor_Proofs4 Compressor_Proofs5.
Local Open Scope list_scope.
Local Open Scope Qc_scope.

Lemma slowest_ok : forall cs, cs <> [] -> exists c, slow_curve cs = Ok c /\ slowest cs c /\ In c cs.
Proof.
  intros [|c cs] N; [congruence|]. exists c. split; [reflexivity|]. split; [reflexivity|now left].
Qed.
Lemma fastest_ok : forall cs, cs <> [] -> exists c, fast_curve cs = Ok c /\ fastest cs c /\ In c cs.
Proof.
  intros cs N. destruct (nonempty_ends _ cs N) as (a & b & _ & B). exists b. unfold fast_curve. rewrite B.
  split; [reflexivity|]. split; [exact B|now apply last_opt_in].
Qed.
Lemma fastest_unique : forall cs a b, fastest cs a -> fastest cs b -> a = b.
Proof. unfold fastest. congruence. Qed.
Lemma slowest_unique : forall cs a b, slowest cs a -> slowest cs b -> a = b.
Proof. unfold slowest. congruence. Qed.

(** the ends are unique points when no rate is repeated *)
Lemma NoDup_rate_inj : forall c p q, NoDup (cv_rate c) -> In p (cv_points c) -> In q (cv_points c) -> p_rate p = p_rate q -> p = q.
Proof.
  intros [pts sp] p q. unfold cv_rate. cbn [cv_points]. induction pts as [|a pts IH]; intros N Hp Hq E; [destruct Hp|].
  cbn [map] in N. inversion N as [|x l X N']; subst. destruct Hp as [->|Hp], Hq as [->|Hq]; auto.
  - exfalso. apply X. rewrite E. now apply in_map.
  - exfalso. apply X. rewrite <- E. now apply in_map.
Qed.
Lemma left_point : forall c p q, NoDup (cv_rate c) -> left_end c p -> left_end c q -> p = q.
Proof. intros c p q N A B. apply (NoDup_rate_inj c); auto; [apply A|apply B|eapply left_unique; eauto]. Qed.
Lemma right_point : forall c p q, NoDup (cv_rate c) -> right_end c p -> right_end c q -> p = q.
Proof. intros c p q N A B. apply (NoDup_rate_inj c); auto; [apply A|apply B|eapply right_unique; eauto]. Qed.

(** ** the minimum flow *)
Lemma two_points : forall h0 h1 r0 r1 head, h0 <= h1 -> exists m, interp1d_at [h0; h1] [r0; r1] r0 r1 head = Ok m /\
  ((head < h0 /\ m = r0) \/ (h1 <= head /\ m = r1) \/ (h0 <= head /\ head < h1 /\ m = mix ((head - h0) / (h1 - h0)) r0 r1)).
Proof.
  intros h0 h1 r0 r1 head L. unfold interp1d_at, make_interpolator. cbn [List.length Nat.eqb negb combine sort insert_sorted fst bind].
  rewrite (proj2 (Qcleb_le h0 h1) L). unfold interpolate_1d. cbn [ip_points ip_below ip_above last fst np_interp].
  destruct (Qcltb head h0) eqn:A; [apply Qcltb_lt in A; exists r0; auto|]. apply Qcltb_ge in A.
  destruct (Qcltb h1 head) eqn:B.
  - apply Qcltb_lt in B. exists r1. split; [reflexivity|]. right. left. split; auto. now apply Qclt_le_weak.
  - apply Qcltb_ge in B. destruct (Qcltb head h1) eqn:C.
    + apply Qcltb_lt in C. eexists. split; [reflexivity|]. right. right. repeat split; auto. unfold mix. field. apply lt_neq. qc_lra.
    + apply Qcltb_ge in C. exists r1. auto.
Qed.
Lemma minimum_rate_line : forall cs head, regular_chart cs -> exists m, minimum_rate_at cs head = Ok m /\ flow_line cs head m.
Proof.
  intros cs head (P & _ & R). pose proof P as (N & PC & _).
  destruct (slowest_ok cs N) as (c0 & E0 & S0 & I0). destruct (fastest_ok cs N) as (c1 & E1 & S1 & I1).
  destruct (PC c0 I0) as [P0 N0]. destruct (PC c1 I1) as [P1 N1].
  unfold minimum_rate_at. rewrite E0, E1. cbn [bind].
  destruct (left_end_first c0 P0) as (p0 & F0 & L0). destruct (left_end_first c1 P1) as (p1 & F1 & L1).
  unfold cv_head, curve_min_rate, cv_rate. rewrite !hd_error_map, F0, F1. cbn [option_map of_option bind].
  destruct (R c0 c1 p0 p1 S0 S1 L0 L1) as [Hh _].
  destruct (two_points (p_head p0) (p_head p1) (p_rate p0) (p_rate p1) head Hh) as (m & -> & H).
  exists m. split; auto. exists c0, c1, p0, p1. auto.
Qed.
Lemma flow_line_bound : forall cs head m c p, regular_chart cs -> flow_line cs head m -> fastest cs c -> left_end c p -> m <= p_rate p.
Proof.
  intros cs head m c p ((N & PC & _) & _ & R) (c0 & c1 & p0 & p1 & S0 & S1 & L0 & L1 & H) Sc Lp.
  rewrite (fastest_unique _ _ _ Sc S1) in *. rewrite (left_unique c1 p p1 Lp L1). destruct (R c0 c1 p0 p1 S0 S1 L0 L1) as [_ Hr].
  destruct H as [(_ & ->)|[(_ & ->)|(A & B & ->)]]; auto; [apply Qcle_refl|].
  assert (0 < p_head p1 - p_head p0) as D by qc_lra.
  assert (0 <= (p_head p1 - head) / (p_head p1 - p_head p0)) as W by (apply div_nn; qc_lra).
  replace (mix ((head - p_head p0) / (p_head p1 - p_head p0)) (p_rate p0) (p_rate p1)) with
    (p_rate p1 - (p_head p1 - head) / (p_head p1 - p_head p0) * (p_rate p1 - p_rate p0)) by (unfold mix; field; now apply lt_neq).
  assert (0 <= (p_head p1 - head) / (p_head p1 - p_head p0) * (p_rate p1 - p_rate p0)) by (apply mul_nn; [auto|qc_lra]). qc_lra.
Qed.

(** ** the least head *)
Lemma rising_snoc : forall pts a b, rising pts -> (forall x y, In (x, y) pts -> x < a) -> rising (pts ++ [(a, b)]).
Proof.
  induction pts as [|p pts IH]; intros a b R H; [cbn; split; auto; intros q []|]. destruct R as [R1 R]. cbn [app rising]. split.
  - intros q Hq. apply in_app_or in Hq as [Hq|[<-|[]]]; auto. cbn. destruct p as [x y]. apply (H x y). now left.
  - apply IH; auto. intros x y Hxy. apply (H x y). now right.
Qed.
Lemma combine_snoc : forall (A B : Type) (l : list A) (m : list B) a b, List.length l = List.length m -> combine (l ++ [a]) (m ++ [b]) = combine l m ++ [(a, b)].
Proof. intros A B. induction l as [|x l IH]; intros [|y m] a b L; try discriminate; [reflexivity|]. cbn. f_equal. apply IH. now injection L. Qed.
Lemma minimum_head_value : forall cs rate, proper_chart cs -> exists k, minimum_head_at cs rate = Ok k /\ least_head cs rate k.
Proof.
  intros cs rate P. pose proof P as (N & PC & _).
  destruct (slowest_ok cs N) as (c0 & E0 & S0 & I0). destruct (fastest_ok cs N) as (c1 & E1 & S1 & I1).
  destruct (PC c0 I0) as [P0 N0]. destruct (PC c1 I1) as [P1 N1].
  destruct (right_end_last c0 P0) as (p0 & F0 & L0). destruct (right_end_last c1 P1) as (p1 & F1 & L1).
  unfold minimum_head_at. rewrite E0, E1. cbn [bind]. unfold curve_max_rate.
  replace (last_opt (cv_rate c1)) with (Some (p_rate p1)) by (unfold cv_rate; now rewrite last_opt_map, F1).
  replace (last_opt (cv_rate c0)) with (Some (p_rate p0)) by (unfold cv_rate; now rewrite last_opt_map, F0).
  replace (last_opt (cv_head c1)) with (Some (p_head p1)) by (unfold cv_head; now rewrite last_opt_map, F1).
  cbn [of_option bind]. destruct (Qcltb (p_rate p0) (p_rate p1)) eqn:C.
  - apply Qcltb_lt in C. destruct (cv_lengths c0) as (A1 & A2 & _).
    destruct (bounded_list (cv_head c0 ++ [p_head p1])) as (lo & hi & B).
    destruct (interp1d_ends_bounds (cv_rate c0 ++ [p_rate p1]) (cv_head c0 ++ [p_head p1]) rate lo hi) as (k & Ek & _); auto.
    { rewrite !app_length. cbn. congruence. }
    { destruct (cv_rate c0); discriminate. }
    exists k. split; auto. exists c0, c1, p0, p1. repeat (split; [assumption|]). left. split; auto.
    rewrite quantity_combine. change (map p_head (cv_points c0)) with (cv_head c0). rewrite <- combine_snoc by congruence.
    apply interp1d_ends_value; auto; [rewrite !app_length; cbn; congruence|]. rewrite combine_snoc by congruence.
    change (cv_head c0) with (map p_head (cv_points c0)). rewrite <- quantity_combine. apply rising_snoc; [apply quantity_rising; [apply P0|auto]|].
    intros x y Hxy. unfold quantity in Hxy. apply in_map_iff in Hxy as (q & E & Hq). injection E as <- <-. destruct L0 as [_ L0]. apply L0 in Hq. qc_lra.
  - apply Qcltb_ge in C. destruct (quantity_at p_head c0 rate P0 N0) as (k & Ek & Vk). exists k. split; auto.
    exists c0, c1, p0, p1. repeat (split; [assumption|]). right. auto.
Qed.

(** ** the fastest curve and its inverse *)
Lemma falling_of : forall c, StronglySorted (fun a b => b < a) (cv_head c) -> falling (quantity p_head c).
Proof.
  intros [pts sp] S. unfold quantity, cv_head in *. cbn [cv_points] in *. induction pts as [|p pts IH]; [exact I|]. cbn [map] in *.
  apply StronglySorted_inv in S as [S F]. split; auto. intros q Hq. apply in_map_iff in Hq as (r & <- & Hr). cbn [snd].
  rewrite Forall_forall in F. apply F. now apply in_map.
Qed.
Lemma value_at_perm : forall l m x y, (forall p, In p l <-> In p m) -> value_at l x y -> value_at m x y.
Proof.
  intros l m x y H [[[(a & ya & Ha & A) (b & yb & Hb & B)] I]|(a & Ha & C)].
  - left. split; [split; [exists a, ya|exists b, yb]; split; auto; now apply H|]. destruct I as [I|(u & yu & v & yv & Hu & Hv & L1 & L2 & N & E)].
    + left. now apply H.
    + right. exists u, yu, v, yv. split; [now apply H|]. split; [now apply H|]. split; auto. split; auto. split; auto.
      intros c yc Hc. apply (N c yc). now apply H.
  - right. exists a. split; [now apply H|]. destruct C as [[C D]|[C D]]; [left|right]; split; auto; intros b yb Hb; apply (D b yb); now apply H.
Qed.
Lemma combine_fst_snd : forall (A B : Type) (l : list (A * B)), combine (map fst l) (map snd l) = l.
Proof. intros A B. induction l as [|[a b] l IH]; [reflexivity|]. cbn. now rewrite IH. Qed.
Lemma swap_combine : forall c, combine (cv_head c) (cv_rate c) = map swap (quantity p_head c).
Proof. intros [pts sp]. unfold cv_head, cv_rate, quantity, swap. cbn [cv_points]. rewrite map_map. cbn. induction pts as [|p pts IH]; [reflexivity|]. cbn. now rewrite IH. Qed.
Lemma sorted_NoDup : forall l : list Qc, StronglySorted (fun a b => b < a) l -> NoDup l.
Proof.
  induction l as [|a l IH]; intros S; constructor; apply StronglySorted_inv in S as [S F]; auto.
  intros H. rewrite Forall_forall in F. apply F in H. qc_lra.
Qed.
Lemma maximum_rate_value : forall cs head c, regular_chart cs -> fastest cs c -> exists m, maximum_rate_at cs head = Ok m /\
  value_at (map swap (quantity p_head c)) head m.
Proof.
  intros cs head c (P & Fa & _) Sc. pose proof P as (N & PC & _).
  destruct (fastest_ok cs N) as (c1 & E1 & S1 & I1). rewrite (fastest_unique _ _ _ Sc S1) in *. clear c Sc. destruct (PC c1 I1) as [P1 N1].
  unfold maximum_rate_at. rewrite E1. cbn [bind].
  assert (rising (by_head c1)) as R.
  { unfold by_head. apply sort_rising. rewrite swap_combine, map_map.
    replace (map (fun x => fst (swap x)) (quantity p_head c1)) with (cv_head c1).
    - apply sorted_NoDup. now apply Fa.
    - unfold quantity, cv_head, swap. rewrite map_map. reflexivity. }
  assert (forall p, In p (by_head c1) <-> In p (map swap (quantity p_head c1))) as Q.
  { intros p. rewrite <- swap_combine. unfold by_head. split; intros H; eapply Permutation_in; try exact H; [apply Permutation_sym|]; apply sort_perm. }
  assert (by_head c1 <> []) as Nb.
  { intros X. destruct (left_end_first c1 P1) as (p & F & [Hp _]). assert (In (swap (p_rate p, p_head p)) (by_head c1)) as H.
    { apply Q. apply in_map. unfold quantity. apply in_map_iff. exists p. auto. }
    rewrite X in H. destruct H. }
  destruct (bounded_list (map snd (by_head c1))) as (lo & hi & B).
  destruct (interp1d_ends_bounds (map fst (by_head c1)) (map snd (by_head c1)) head lo hi) as (m & Em & _); auto.
  { now rewrite !map_length. }
  { destruct (by_head c1); [congruence|discriminate]. }
  exists m. split; auto. eapply value_at_perm; [exact Q|]. rewrite <- (combine_fst_snd _ _ (by_head c1)).
  apply interp1d_ends_value; auto; [now rewrite !map_length|now rewrite combine_fst_snd].
Qed.
Lemma maximum_head_value : forall cs rate c, proper_chart cs -> fastest cs c -> exists h, maximum_head_at cs rate = Ok h /\ value_at (quantity p_head c) rate h.
Proof.
  intros cs rate c (N & PC & _) Sc. destruct (fastest_ok cs N) as (c1 & E1 & S1 & I1). rewrite (fastest_unique _ _ _ Sc S1) in *.
  destruct (PC c1 I1) as [P1 N1]. unfold maximum_head_at. rewrite E1. cbn [bind]. now apply head_at_value.
Qed.

(** the largest rate at a head is a rate of the fastest curve *)
Lemma swapped_bounds : forall c h m p q, value_at (map swap (quantity p_head c)) h m -> left_end c p -> right_end c q -> p_rate p <= m /\ m <= p_rate q.
Proof.
  intros c h m p q V [_ L] [_ R]. eapply value_at_bounds; [exact V|]. intros a b H. apply in_map_iff in H as ([u v] & E & H). unfold swap in E. cbn in E.
  injection E as <- <-. unfold quantity in H. apply in_map_iff in H as (x & E & Hx). injection E as <- <-. auto.
Qed.

(** below the fastest curve means left of it *)
Lemma below_is_left : forall c rate head h m q, proper_curve c -> NoDup (cv_rate c) -> StronglySorted (fun a b => b < a) (cv_head c) ->
  right_end c q -> rate <= p_rate q ->
  value_at (quantity p_head c) rate h -> value_at (map swap (quantity p_head c)) head m -> head <= h -> rate <= m.
Proof.
  intros c rate head h m q P N S Rq Lr Vh Vm L.
  pose proof (quantity_rising p_head c (proj1 (proj2 P)) N) as R. pose proof (falling_of c S) as F.
  set (pts := quantity p_head c) in *.
  assert (forall x y, In (x, y) pts -> x <= p_rate q) as Hq.
  { intros x y Hxy. unfold pts, quantity in Hxy. apply in_map_iff in Hxy as (z & E & Hz). injection E as <- <-. now apply Rq. }
  assert (In (p_rate q, p_head q) pts) as Iq by (unfold pts, quantity; apply in_map_iff; exists q; split; auto; apply Rq).
  clearbody pts. clear P N S.
  destruct Vm as [[Rm Im]|(a & Ha & C)].
  - apply inverse in Im; auto. destruct (Qclt_le_dec m rate) as [X|X]; auto. exfalso.
    assert (in_range pts m) as IRm.
    { destruct Im as [Im|(u & yu & v & yv & Hu & Hv & L1 & L2 & _)].
      - split; exists m, head; split; auto; apply Qcle_refl.
      - split; [exists u, yu|exists v, yv]; split; auto; now apply Qclt_le_weak. }
    destruct Vh as [[Rh Ih]|(b & Hb & D)].
    + pose proof (falls pts m rate head h R F IRm Rh X Im Ih). qc_lra.
    + destruct D as [[D1 D2]|[D1 D2]].
      * destruct IRm as [(u & yu & Hu & Lu) _]. pose proof (D2 _ _ Hu). qc_lra.
      * pose proof (D2 _ _ Iq). qc_lra.
  - apply in_map_iff in Ha as ([u v] & E & Ha). unfold swap in E. cbn in E. injection E as <- <-. destruct C as [[C1 C2]|[C1 C2]].
    + (* head below every point: the answer is the last rate *)
      assert (u = p_rate q) as ->; auto. destruct (Qclt_le_dec u (p_rate q)) as [X|X].
      * assert (p_head q < v) as Y by (apply (falling_pairs pts u v (p_rate q) (p_head q)); auto).
        assert (v <= p_head q) by (apply (C2 (p_head q) (p_rate q)); apply in_map_iff; exists (p_rate q, p_head q); auto). exfalso. qc_lra.
      * pose proof (Hq u v Ha). qc_lra.
    + (* head above every point *)
      exfalso. assert (h <= v) as X; [|qc_lra].  destruct (bounded_list (map snd pts)) as (lo & hi0 & B). apply (value_at_bounds pts rate h lo v Vh).
      intros x y Hxy. split; [apply B; change y with (snd (x, y)); now apply in_map|]. apply (C2 y x). apply in_map_iff. exists (x, y). auto.
Qed.

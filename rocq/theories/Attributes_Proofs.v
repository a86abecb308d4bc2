(** Proofs about exported attributes: windows of a series. *)
From Coq Require Import String PeanoNat Sorted.
From Verif Require Import QcTac Num Time_Model Time_Spec Time_Proofs Time_Proofs2 Time_Proofs3 Units_Model Rates_Model Rates_Spec Rates_Proofs Rates_Proofs2 Rates_Proofs3 Rates_Proofs4 Rates_Proofs6 Numbers_Model Base BaseLemmas Export_Model Export_Spec Export_Proofs Export_Proofs2 Export_Proofs3 Export_Proofs4 Attributes_Model Attributes_Spec.
Local Open Scope list_scope.

(** ** Points of a slice *)
Lemma points_absent : forall p l, ~ In p (map fst l) -> points_in p l = 0%Qc.
Proof.
  intros p l. induction l as [|[p' v] l IH]; intros H; cbn [points_in]; [reflexivity|]. cbn [map fst In] in H.
  destruct (period_eqb p p') eqn:E; [apply period_eqb_spec in E; subst; exfalso; apply H; now left|]. rewrite IH by tauto. ring.
Qed.
Lemma points_present : forall p v l, NoDup (map fst l) -> In (p, v) l -> points_in p l = nan_zero v.
Proof.
  intros p v l. induction l as [|[p' v'] l IH]; intros N I; [destruct I|]. cbn [map fst] in N. inversion N as [|? ? NI N']; subst. cbn [points_in]. destruct I as [E|I].
  - assert (p' = p) as -> by congruence. assert (v' = v) as -> by congruence. rewrite (proj2 (period_eqb_spec p p) eq_refl), points_absent by exact NI. ring.
  - rewrite (IH N' I). destruct (period_eqb p p') eqn:E; [|ring]. apply period_eqb_spec in E. subst p'. exfalso. apply NI. exact (in_map fst _ _ I).
Qed.
Lemma slice_nth : forall A (l : list A) i j k, (i <= k < j)%nat -> nth_error (slice i j l) (k - i) = nth_error l k.
Proof.
  intros A l i j k H. unfold slice. rewrite nth_error_firstn. replace (k - i <? j - i)%nat with true by (symmetry; apply Nat.ltb_lt; lia).
  revert i k j H. induction l as [|x l IH]; intros [|i] k j H.
  - destruct (k - 0)%nat; destruct k; reflexivity.
  - cbn [skipn]. destruct (k - S i)%nat; destruct k; reflexivity.
  - cbn [skipn]. now rewrite Nat.sub_0_r.
  - destruct k as [|k]; [lia|]. cbn [skipn nth_error]. replace (S k - S i)%nat with (k - i)%nat by lia. apply (IH i k (pred j)). lia.
Qed.
Lemma slice_In : forall A (l : list A) i j x, In x (slice i j l) -> exists k, (i <= k < j)%nat /\ nth_error l k = Some x.
Proof.
  intros A l i j x H. apply In_nth_error in H as (k & E). unfold slice in E. rewrite nth_error_firstn in E. destruct (k <? j - i)%nat eqn:L; [|discriminate]. apply Nat.ltb_lt in L.
  exists (i + k)%nat. split; [lia|]. clear L. revert i k E. induction l as [|y l IH]; intros [|i] k E; cbn [skipn] in E; try (destruct k; discriminate); auto. cbn [Nat.add nth_error]. now apply IH.
Qed.
Lemma NoDup_firstn : forall A (l : list A) n, NoDup l -> NoDup (firstn n l).
Proof. intros A l n N. rewrite <- (firstn_skipn n l) in N. revert N. generalize (skipn n l). induction (firstn n l) as [|x xs IH]; intros m N; [constructor|]. cbn in N. inversion N; subst. constructor; [intros I; apply H1, in_or_app; now left|now apply (IH m)]. Qed.
Lemma NoDup_skipn : forall A (l : list A) n, NoDup l -> NoDup (skipn n l).
Proof. intros A l n N. rewrite <- (firstn_skipn n l) in N. revert N. generalize (firstn n l). induction l0 as [|x xs IH]; intros N; [exact N|]. apply IH. now inversion N. Qed.
Lemma NoDup_slice : forall A (l : list A) i j, NoDup l -> NoDup (slice i j l).
Proof. intros. unfold slice. apply NoDup_firstn. now apply NoDup_skipn. Qed.
Lemma map_slice : forall A B (f : A -> B) l i j, map f (slice i j l) = slice i j (map f l).
Proof. intros. unfold slice. now rewrite <- firstn_map, <- skipn_map. Qed.
Lemma combine_slice : forall A B (l : list A) (m : list B) i j, combine (slice i j l) (slice i j m) = slice i j (combine l m).
Proof.
  intros A B l m i j. unfold slice. rewrite <- combine_firstn. f_equal. revert l m. induction i as [|i IH]; intros [|x l] [|y m]; cbn [skipn combine]; auto. destruct (skipn i l); reflexivity.
Qed.
Lemma map2_slice : forall A B C (f : A -> B -> C) l m i j, map2 f (slice i j l) (slice i j m) = slice i j (map2 f l m).
Proof.
  intros A B C f l m i j. unfold slice. generalize (j - i)%nat as n. intros n.
  assert (forall i l m, map2 f (skipn i l) (skipn i m) = skipn i (map2 f l m)) as S.
  { clear. induction i as [|i IH]; intros [|x l] [|y m]; cbn [skipn map2]; auto. destruct (skipn i l); reflexivity. }
  rewrite <- S. generalize (skipn i l) (skipn i m). clear. induction n as [|n IH]; intros [|x l] [|y m]; cbn [firstn map2]; auto. f_equal. apply IH.
Qed.
Lemma points_slice : forall ps vs i j k p v, NoDup ps -> List.length ps = List.length vs -> nth_error ps k = Some p -> nth_error vs k = Some v ->
  points_in p (slice i j (combine ps vs)) = if ((i <=? k) && (k <? j))%nat then nan_zero v else 0%Qc.
Proof.
  intros ps vs i j k p v N L P V. assert (NoDup (map fst (slice i j (combine ps vs)))) as ND by (rewrite map_slice, combine_keys by exact L; now apply NoDup_slice).
  destruct ((i <=? k) && (k <? j))%nat eqn:E.
  - apply andb_prop in E as [E1 E2]. apply Nat.leb_le in E1. apply Nat.ltb_lt in E2. apply points_present; auto. apply (nth_error_In _ (k - i)). rewrite slice_nth by lia. now apply nth_error_combine.
  - apply points_absent. intros I. rewrite map_slice, combine_keys in I by exact L. apply slice_In in I as (k' & K & E'). assert (k' = k) as ->.
    { apply (proj1 (NoDup_nth_error ps) N); [apply nth_error_Some; congruence|congruence]. }
    apply andb_false_iff in E. rewrite Nat.leb_gt, Nat.ltb_ge in E. lia.
Qed.

(** ** Windows *)
Lemma indices_clip : forall w p ps, get_period_indices w (p :: ps) = get_period_indices (mkPeriod (Z.max (p_start w) (p_start p)) (Z.min (p_end w) (p_end (last ps p)))) (p :: ps).
Proof.
  intros w p ps. unfold get_period_indices. change (last_opt (p :: ps)) with (Some (last ps p)). cbn [p_start p_end].
  replace (Z.max (Z.max (p_start w) (p_start p)) (p_start p)) with (Z.max (p_start w) (p_start p)) by lia.
  replace (Z.min (Z.min (p_end w) (p_end (last ps p))) (p_end (last ps p))) with (Z.min (p_end w) (p_end (last ps p))) by lia. reflexivity.
Qed.
Lemma grid_dates : forall p ps d, contiguous (p :: ps) -> grid_date (p :: ps) d -> p_start p <= d <= p_end (last ps p) -> exists k, nth_error (dates_of (p :: ps)) k = Some d.
Proof.
  intros p ps d C G B. apply In_nth_error. destruct (Z.eq_dec d (p_start p)) as [->|N1].
  { apply (nth_error_In _ 0). destruct (dates_of_nth (p :: ps) 0 p C eq_refl) as [D _]. exact D. }
  destruct (Z.eq_dec d (p_end (last ps p))) as [->|N2].
  { rewrite dates_of_eq. apply in_or_app. right. rewrite last_shift. now left. }
  destruct G as [(r & I & E)|[H|H]].
  - apply (dates_of_In _ _ C). exists r. tauto.
  - specialize (H p (or_introl eq_refl)). lia.
  - specialize (H (last ps p)). assert (In (last ps p) (p :: ps)) as I by (apply last_In). specialize (H I). lia.
Qed.

(** the indices of a window of a series *)
Lemma window_indices : forall p ps w, contiguous (p :: ps) -> nonempty w -> grid_date (p :: ps) (p_start w) -> grid_date (p :: ps) (p_end w) -> intersects (mkPeriod (p_start p) (p_end (last ps p))) w = true ->
  exists i j, get_period_indices w (p :: ps) = Ok (i, j) /\ (i < j <= List.length (p :: ps))%nat /\
    forall k r, nth_error (p :: ps) k = Some r -> ((i <=? k) && (k <? j))%nat = contains_date w (p_start r).
Proof.
  intros p ps w C NW G1 G2 X.
  assert (p_start p < p_end (last ps p)) as W.
  { pose proof (contiguous_nonempty _ _ C (or_introl eq_refl)) as N. destruct (contiguous_within _ _ _ C (ex_intro _ p (ex_intro _ (last ps p) (ex_intro _ ps (conj eq_refl (conj (last_shift _ ps p p) (conj eq_refl eq_refl)))))) p (or_introl eq_refl)) as (_ & _ & H). unfold nonempty in N. lia. }
  assert (p_start w < p_end (last ps p) /\ p_start p < p_end w) as [X1 X2]. { unfold intersects, contains_date in X. cbn in X. unfold nonempty in NW. lia. }
  set (w' := mkPeriod (Z.max (p_start w) (p_start p)) (Z.min (p_end w) (p_end (last ps p)))).
  destruct (grid_dates p ps (p_start w') C) as (i & Ei).
  { unfold w'. cbn [p_start]. destruct (Z.max_spec (p_start w) (p_start p)) as [[_ ->]|[_ ->]]; auto. left. exists p. split; [now left|auto]. }
  { unfold w'. cbn. lia. }
  destruct (grid_dates p ps (p_end w') C) as (j & Ej).
  { unfold w'. cbn [p_end]. destruct (Z.min_spec (p_end w) (p_end (last ps p))) as [[_ ->]|[_ ->]]; auto. left. exists (last ps p). split; [apply last_In|auto]. }
  { unfold w', nonempty in *. cbn. lia. }
  assert (p_start w' < p_end w') as L by (unfold w', nonempty in *; cbn; lia).
  pose proof (dates_of_increasing _ C) as Inc. assert (i < j)%nat as LIJ. { destruct (Nat.le_gt_cases j i) as [H|H]; auto. pose proof (proj1 (increasing_nth_le _ _ _ _ _ Inc Ej Ei) H). lia. }
  assert (j <= List.length (p :: ps))%nat as LJ. { assert (j < List.length (dates_of (p :: ps)))%nat by (apply nth_error_Some; congruence). rewrite dates_length in * by discriminate. lia. }
  exists i, j. split; [rewrite indices_clip; apply period_indices_eq; auto|]. split; [lia|]. intros k r Er. destruct (dates_of_nth _ _ _ C Er) as [D1 D2].
  pose proof (increasing_nth_le _ _ _ _ _ Inc Ei D1) as A1. pose proof (increasing_nth_le _ _ _ _ _ Inc Ej D1) as A2.
  destruct (contiguous_within _ _ _ C (ex_intro _ p (ex_intro _ (last ps p) (ex_intro _ ps (conj eq_refl (conj (last_shift _ ps p p) (conj eq_refl eq_refl)))))) r (nth_error_In _ _ Er)) as (NR & B1 & B2).
  unfold nonempty in NR. unfold contains_date. apply Bool.eq_iff_eq_true. rewrite !andb_true_iff, Nat.leb_le, Nat.ltb_lt, Z.leb_le, Z.ltb_lt.
  unfold w' in *. cbn [p_start p_end] in A1, A2. rewrite Nat.lt_nge, A1, A2. lia.
Qed.

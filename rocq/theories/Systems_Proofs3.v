(** Proofs about pump and compressor systems: the series of a setting and when it is accepted. *)
From Coq Require Import PeanoNat String.
From Verif Require Import Attributes_Proofs Attributes_Proofs2 QcTac Num Time_Model Time_Spec Time_Proofs Time_Proofs2 Units_Model Rates_Model Rates_Spec Rates_Proofs Rates_Proofs3 Rates_Proofs4
  Base BaseLemmas Expr_Model Expr_Spec Expr_Proofs Vars_Model Vars_Proofs Input_Model Interp_Model Energy_Model Energy_Proofs Energy_Proofs2 Energy_Proofs3 Export_Proofs2 Emitters_Proofs5 Emitters_Spec
  Consumer_Model Consumer_Spec Consumer_Proofs Consumer_Proofs2 Consumer_Proofs3 Consumer_Proofs4 Consumer_Proofs5 Consumer_Proofs6 Consumer_Proofs7 Consumer_Proofs8 Consumer_Proofs9
  Equipment_Model Equipment_Spec Equipment_Proofs Equipment_Proofs2 Equipment_Proofs3 System_Model System_Spec Systems_Model Systems_Spec Systems_Proofs Systems_Proofs2.
Local Open Scope list_scope.
Local Open Scope nat_scope.

Lemma forall2_iff : forall {A B} (R R' : A -> B -> Prop) l m, (forall x y, In x l -> R x y <-> R' x y) -> Forall2 R l m <-> Forall2 R' l m.
Proof.
  intros A B R R' l. induction l as [|x l IH]; intros m H; (split; intros F; inversion F; subst; constructor).
  - apply H; [now left|assumption].
  - apply IH; [intros a b I; apply H; now right|assumption].
  - apply H; [now left|assumption].
  - apply IH; [intros a b I; apply H; now right|assumption].
Qed.
Lemma forall2_map : forall {A B D} (f : A -> D) (R : D -> B -> Prop) l m, Forall2 R (map f l) m <-> Forall2 (fun x y => R (f x) y) l m.
Proof.
  intros A B D f R l. induction l as [|x l IH]; intros m; cbn [map]; (split; intros F; inversion F; subst; constructor; auto; now apply IH).
Qed.

(** cells of a list of series *)
Definition cell (vs : list (list Qc)) (c k : nat) : Qc := nth k (nth c vs []) 0%Qc.
Lemma grid_nth : forall {A} count n (vs : list (list A)) c, grid count n vs -> c < count -> List.length (nth c vs []) = n.
Proof. intros A count n vs c [L H] Lc. apply H. apply nth_In. lia. Qed.
Lemma col_cell : forall count n vs c k p, grid count n vs -> nth_error (col k vs) c = Some p <-> c < count /\ p = cell vs c k.
Proof.
  intros count n vs c k p [L _]. unfold col, cell. rewrite nth_error_map. split.
  - destruct (nth_error vs c) as [l|] eqn:E; cbn [option_map]; [|discriminate]. intros H. injection H as <-. split; [rewrite <- L; apply nth_error_Some; congruence|]. now rewrite (nth_error_nth _ _ _ E).
  - intros [Lc ->]. rewrite (nth_error_nth' vs []) by lia. reflexivity.
Qed.
Lemma slice_cell : forall count n vs i j c l, grid count n vs -> nth_error (map (slice i j) vs) c = Some l <-> c < count /\ l = slice i j (nth c vs ([] : list Qc)).
Proof.
  intros count n vs i j c l [L _]. rewrite nth_error_map. split.
  - destruct (nth_error vs c) as [v|] eqn:E; cbn [option_map]; [|discriminate]. intros H. injection H as <-. split; [rewrite <- L; apply nth_error_Some; congruence|]. now rewrite (nth_error_nth _ _ _ E).
  - intros [Lc ->]. rewrite (nth_error_nth' vs []) by lia. reflexivity.
Qed.
Lemma slice_value : forall count n vs i j c k p, grid count n vs -> c < count -> i < j -> j <= n ->
  nth_error (slice i j (nth c vs [])) k = Some p <-> k < j - i /\ p = cell vs c (i + k).
Proof.
  intros count n vs i j c k p G Lc L1 L2. pose proof (grid_nth _ _ _ _ G Lc) as Ln. rewrite nth_error_slice. destruct (Nat.ltb_spec k (j - i)) as [Lk|Lk].
  - rewrite (nth_error_nth' _ 0%Qc) by lia. unfold cell. split; [intros H; injection H as <-; auto|intros [_ ->]; reflexivity].
  - split; [discriminate|lia].
Qed.
Lemma grid_slice : forall count n (vs : list (list Qc)) i j, grid count n vs -> i < j -> j <= n -> grid count (j - i) (map (slice i j) vs).
Proof.
  intros count n vs i j [L H] L1 L2. split; [now rewrite map_length|]. intros l I. apply in_map_iff in I as (v & <- & I). apply slice_length. rewrite (H v I). exact L2.
Qed.
Lemma grid_repeat : forall {A} count n (l : list A), List.length l = n -> grid count n (repeat l count).
Proof. intros A count n l L. split; [apply repeat_length|]. intros x I. apply repeat_spec in I. congruence. Qed.

(** ** What is accepted, on a part of the run *)
Section Accepted.
  Variables (pumps : bool) (g : list Qc) (count n : nat) (rs sv dv : list (list Qc)).
  Hypothesis Gr : grid count n rs.
  Hypothesis Gs : grid count n sv.
  Hypothesis Gd : grid count n dv.
  Hypothesis Lg : List.length g = n.
  Definition cell_ok (c k : nat) : Prop :=
    (0 <= cell rs c k)%Qc /\ (pumps = true \/ (0 < cell rs c k * nth k g 0)%Qc -> (0 < cell sv c k)%Qc /\ (cell sv c k <= cell dv c k)%Qc).
  Definition part_ok (i j : nat) : Prop := forall c k, c < count -> i <= k < j -> cell_ok c k.
  Definition part_masks (i j : nat) : list (list bool) :=
    if pumps then repeat (repeat true (j - i)) count else map (fun r => validation_mask r (slice i j g)) (map (slice i j) rs).
  Definition rates_ok (i j : nat) : Prop := existsb (existsb (fun w => Qcltb w 0)) (map (slice i j) rs) = false.
  Definition pressures_ok (i j : nat) : Prop :=
    forall c mask s d, nth_error (part_masks i j) c = Some mask -> nth_error (map (slice i j) sv) c = Some s -> nth_error (map (slice i j) dv) c = Some d -> fine_where mask s d.

  Lemma masks_grid : forall i j, i < j -> j <= n -> grid count (j - i) (part_masks i j).
  Proof.
    intros i j L1 L2. unfold part_masks. destruct pumps; [apply grid_repeat; apply repeat_length|]. destruct (grid_slice _ _ _ i j Gr L1 L2) as [L H]. split; [now rewrite map_length|].
    intros l I. apply in_map_iff in I as (r & <- & I). unfold validation_mask. rewrite map2_length, (H r I), slice_length by lia. lia.
  Qed.
  Lemma masks_true : forall i j c mask k, i < j -> j <= n -> nth_error (part_masks i j) c = Some mask ->
    nth_error mask k = Some true <-> k < j - i /\ (pumps = true \/ (0 < cell rs c (i + k) * nth (i + k) g 0)%Qc).
  Proof.
    intros i j c mask k L1 L2 E. pose proof (masks_grid i j L1 L2) as [Lm Hm]. assert (c < count) as Lc by (rewrite <- Lm; apply nth_error_Some; congruence). unfold part_masks in E. destruct pumps.
    - rewrite nth_error_repeat in E by exact Lc. injection E as <-. split.
      + intros H. split; [|now left]. rewrite <- (repeat_length true (j - i)). apply nth_error_Some. congruence.
      + intros [L _]. now apply nth_error_repeat.
    - rewrite nth_error_map in E. destruct (nth_error (map (slice i j) rs) c) as [r|] eqn:Er; cbn [option_map] in E; [|discriminate]. injection E as <-. apply (slice_cell _ _ _ _ _ _ _ Gr) in Er as [_ ->].
      unfold validation_mask. rewrite nth_error_map2. split.
      + destruct (nth_error (slice i j (nth c rs [])) k) as [x|] eqn:Ex; [|discriminate]. apply (slice_value _ _ _ _ _ _ _ _ Gr Lc L1 L2) in Ex as [Lk ->]. rewrite nth_error_slice.
        destruct (Nat.ltb_spec k (j - i)) as [_|]; [|lia]. rewrite (nth_error_nth' g 0%Qc) by lia. intros H. injection H as H. apply Qcltb_lt in H. auto.
      + intros [Lk [H|H]]; [discriminate|]. rewrite (proj2 (slice_value _ _ _ _ _ _ k (cell rs c (i + k)) Gr Lc L1 L2)) by auto. rewrite nth_error_slice. destruct (Nat.ltb_spec k (j - i)); [|lia].
        rewrite (nth_error_nth' g 0%Qc) by lia. f_equal. now apply Qcltb_lt.
  Qed.
  Lemma rates_ok_cells : forall i j, i < j -> j <= n -> rates_ok i j <-> forall c k, c < count -> i <= k < j -> (0 <= cell rs c k)%Qc.
  Proof.
    intros i j L1 L2. unfold rates_ok. split.
    - intros H c k Lc Lk. destruct (Qclt_le_dec (cell rs c k) 0) as [B|B]; [exfalso|exact B]. rewrite <- Bool.not_true_iff_false in H. apply H. apply existsb_exists. exists (slice i j (nth c rs [])). split.
      + apply (nth_error_In _ c). apply (slice_cell _ _ _ _ _ _ _ Gr). auto.
      + apply existsb_exists. exists (cell rs c k). split; [|now apply Qcltb_lt]. apply (nth_error_In _ (k - i)). apply (slice_value _ _ _ _ _ _ _ _ Gr Lc L1 L2). split; [lia|]. f_equal. lia.
    - intros H. apply Bool.not_true_iff_false. intros B. apply existsb_exists in B as (l & I & B). apply In_nth_error in I as (c & E). apply (slice_cell _ _ _ _ _ _ _ Gr) in E as [Lc ->].
      apply existsb_exists in B as (w & I & B). apply In_nth_error in I as (k & E). apply (slice_value _ _ _ _ _ _ _ _ Gr Lc L1 L2) in E as [Lk ->]. apply Qcltb_lt in B. apply (Qclt_not_le _ _ B). apply H; lia.
  Qed.
  Lemma part_ok_iff : forall i j, i < j -> j <= n -> part_ok i j <-> rates_ok i j /\ pressures_ok i j.
  Proof.
    intros i j L1 L2. rewrite (rates_ok_cells i j L1 L2). split.
    - intros H. split; [intros c k Lc Lk; now apply H|]. intros c mask s d Em Es Ed k p q M P Q. apply (masks_true i j c mask k L1 L2 Em) in M as [Lk M].
      apply (slice_cell _ _ _ _ _ _ _ Gs) in Es as [Lc ->]. apply (slice_cell _ _ _ _ _ _ _ Gd) in Ed as [_ ->]. apply (slice_value _ _ _ _ _ _ _ _ Gs Lc L1 L2) in P as [_ ->]. apply (slice_value _ _ _ _ _ _ _ _ Gd Lc L1 L2) in Q as [_ ->].
      apply (H c (i + k)); [exact Lc|lia|exact M].
    - intros [H1 H2] c k Lc Lk. split; [now apply H1|]. intros M. destruct (masks_grid i j L1 L2) as [Lm _]. replace k with (i + (k - i)) in * by lia.
      assert (exists mask, nth_error (part_masks i j) c = Some mask) as (mask & Em). { destruct (nth_error (part_masks i j) c) eqn:E; [eauto|]. apply nth_error_None in E. lia. }
      apply (H2 c mask (slice i j (nth c sv [])) (slice i j (nth c dv [])) Em) with (k := k - i).
      + apply (slice_cell _ _ _ _ _ _ _ Gs). auto.
      + apply (slice_cell _ _ _ _ _ _ _ Gd). auto.
      + apply (masks_true i j c mask (k - i) L1 L2 Em). split; [lia|exact M].
      + apply (slice_value _ _ _ _ _ _ _ _ Gs Lc L1 L2). split; [lia|reflexivity].
      + apply (slice_value _ _ _ _ _ _ _ _ Gd Lc L1 L2). split; [lia|reflexivity].
  Qed.
  (** pressures that are in order are not negative *)
  Lemma fine_nonneg : forall i j, i < j -> j <= n -> pressures_ok i j -> Forall2 nonneg_where (part_masks i j) (map (slice i j) sv) /\ Forall2 nonneg_where (part_masks i j) (map (slice i j) dv).
  Proof.
    intros i j L1 L2 H. destruct (masks_grid i j L1 L2) as [Lm Hm]. destruct (grid_slice _ _ _ i j Gs L1 L2) as [Ls Hs]. destruct (grid_slice _ _ _ i j Gd L1 L2) as [Ld Hd].
    assert (forall (A B : Type) (R : A -> B -> Prop) l m, List.length l = List.length m -> (forall c x y, nth_error l c = Some x -> nth_error m c = Some y -> R x y) -> Forall2 R l m) as F2.
    { intros A B R l. induction l as [|x l IH]; intros [|y m] L F; try discriminate; constructor; [now apply (F 0)|]. apply IH; [now injection L|]. intros c. apply (F (S c)). }
    assert (forall c mask, nth_error (part_masks i j) c = Some mask -> exists s d, nth_error (map (slice i j) sv) c = Some s /\ nth_error (map (slice i j) dv) c = Some d /\ List.length s = j - i /\ List.length d = j - i) as X.
    { intros c mask E. assert (c < count) as Lc by (rewrite <- Lm; apply nth_error_Some; congruence). exists (slice i j (nth c sv [])), (slice i j (nth c dv [])).
      assert (nth_error (map (slice i j) sv) c = Some (slice i j (nth c sv []))) as E1 by (apply (slice_cell _ _ _ _ _ _ _ Gs); auto). assert (nth_error (map (slice i j) dv) c = Some (slice i j (nth c dv []))) as E2 by (apply (slice_cell _ _ _ _ _ _ _ Gd); auto).
      split; [exact E1|]. split; [exact E2|]. split; [apply Hs; now apply (nth_error_In _ c)|apply Hd; now apply (nth_error_In _ c)]. }
    split; (apply F2; [congruence|]); intros c mask l Em El k p M P; destruct (X c mask Em) as (s & d & Es & Ed & L3 & L4); pose proof (H c mask s d Em Es Ed k) as Hk.
    - rewrite Es in El. injection El as <-. assert (k < List.length d) as Lk by (rewrite L4, <- L3; apply nth_error_Some; congruence). destruct (nth_error d k) as [q|] eqn:Eq; [|apply nth_error_None in Eq; lia].
      destruct (Hk p q M P eq_refl) as [A _]. now apply Qclt_le_weak.
    - rewrite Ed in El. injection El as <-. assert (k < List.length s) as Lk by (rewrite L3, <- L4; apply nth_error_Some; congruence). destruct (nth_error s k) as [q|] eqn:Eq; [|apply nth_error_None in Eq; lia].
      destruct (Hk q p M eq_refl P) as [A B]. apply (Qcle_trans _ q); [now apply Qclt_le_weak|exact B].
  Qed.
End Accepted.

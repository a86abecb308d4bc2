(** The charts of the generic curves. *)
From Coq Require Import PeanoNat.
From Verif Require Import QcTac BaseLemmas Num Interp_Model Interp_Spec Time_Proofs Interp_Proofs Chart_Model Chart_Spec
  Chart_Proofs Chart_Proofs2 Pump_Proofs Compressor_Model Compressor_Spec Compressor_Proofs Compressor_Proofs2 Compressor_Proofs3
  Compressor_Proofs4 Compressor_Proofs5 Compressor_Proofs6 Compressor_Proofs7 Search_Model Generic_Model Base.
Local Open Scope list_scope.
Local Open Scope Qc_scope.

Lemma sort_id : forall (A : Type) (le : A -> A -> bool) l, StronglySorted (fun a b => le a b = true) l -> sort le l = l.
Proof.
  intros A le. induction l as [|a l IH]; intros S; [reflexivity|]. apply StronglySorted_inv in S as [S F]. cbn [sort]. rewrite IH by auto.
  destruct l as [|b l]; [reflexivity|]. cbn [insert_sorted]. rewrite Forall_forall in F. now rewrite (F b (or_introl eq_refl)).
Qed.
Lemma map_sorted : forall (A B : Type) (f : A -> B) (R : A -> A -> Prop) (S : B -> B -> Prop) l, (forall a b, R a b -> S (f a) (f b)) ->
  StronglySorted R l -> StronglySorted S (map f l).
Proof.
  intros A B f R S l H. induction 1 as [|a l _ IH F]; cbn; constructor; auto. rewrite Forall_forall in *. intros x Hx.
  apply in_map_iff in Hx as (y & <- & Hy). auto.
Qed.

Definition increasing_rates (u : list (Qc * Qc)) : Prop := StronglySorted (fun p q => fst p < fst q) u.
Definition decreasing_heads (u : list (Qc * Qc)) : Prop := StronglySorted (fun p q => snd q < snd p) u.
Lemma unified_105_rates : increasing_rates unified_105. Proof. unfold increasing_rates, unified_105. cbn [map fst snd]. repeat constructor. Qed.
Lemma unified_75_rates : increasing_rates unified_75. Proof. unfold increasing_rates, unified_75. cbn [map fst snd]. repeat constructor. Qed.
Lemma unified_105_heads : decreasing_heads unified_105. Proof. unfold decreasing_heads, unified_105. cbn [map fst snd]. repeat constructor. Qed.
Lemma unified_75_heads : decreasing_heads unified_75. Proof. unfold decreasing_heads, unified_75. cbn [map fst snd]. repeat constructor. Qed.

Lemma scale_lt : forall a x y, 0 < a -> x < y -> a * x < a * y.
Proof. intros a x y A L. assert (0 < a * (y - x)) by (apply mul_pos; auto; qc_lra). qc_lra. Qed.
Lemma scale_le : forall a x y, 0 < a -> x <= y -> a * x <= a * y.
Proof. intros a x y A L. assert (0 <= a * (y - x)) by (apply mul_nn; [now apply Qclt_le_weak|qc_lra]). qc_lra. Qed.

(** the points of a generic curve *)
Definition scaled (a b e : Qc) (u : list (Qc * Qc)) : list (Qc * Qc * Qc) := map (fun p => (a * fst p, b * snd p, e)) u.
Lemma combine_scaled : forall a b e u, combine (combine (map (fun p => a * fst p) u) (map (fun p => b * snd p) u)) (map (fun _ : Qc * Qc => e) u) = scaled a b e u.
Proof. intros a b e. induction u as [|p u IH]; [reflexivity|]. cbn. now rewrite IH. Qed.
Lemma generic_curve_ok : forall u a b e s, increasing_rates u -> (2 <= List.length u)%nat -> 0 < a -> 0 <= e -> e <= 1 ->
  generic_curve u a b e s = Ok (mkCurve (scaled a b e u) s).
Proof.
  intros u a b e s I L A E0 E1. unfold generic_curve, make_curve.
  replace (forallb (fun e => Qcleb 0 e && Qcleb e 1) (map (fun _ => e) u)) with true.
  2:{ symmetry. apply forallb_forall. intros x Hx. apply in_map_iff in Hx as (z & <- & _). apply andb_true_iff. split; now apply Qcleb_le. }
  rewrite !map_length, !Nat.eqb_refl. cbn [negb andb].
  destruct (Nat.ltb_spec (List.length u) 2); [lia|]. rewrite combine_scaled. rewrite sort_id; auto. unfold scaled.
  apply (map_sorted _ _ _ (fun p q => fst p < fst q)); auto. intros p q H'. apply Qcleb_le. cbn. apply Qclt_le_weak. now apply scale_lt.
Qed.
Lemma scaled_proper : forall u a b e s, increasing_rates u -> (2 <= List.length u)%nat -> 0 < a -> 0 <= e -> e <= 1 ->
  proper_curve (mkCurve (scaled a b e u) s) /\ NoDup (cv_rate (mkCurve (scaled a b e u) s)).
Proof.
  intros u a b e s I L A E0 E1.
  assert (StronglySorted Qclt (cv_rate (mkCurve (scaled a b e u) s))) as S.
  { unfold cv_rate, scaled. cbn [cv_points]. rewrite map_map. apply (map_sorted _ _ _ (fun p q => fst p < fst q)); auto. intros p q H. cbn. now apply scale_lt. }
  split; [split; [|split]|].
  - unfold scaled. cbn [cv_points]. now rewrite map_length.
  - rewrite <- (map_id (cv_rate _)). eapply map_sorted; [|exact S]. intros x y H. now apply Qclt_le_weak.
  - unfold cv_eff, scaled. cbn [cv_points]. rewrite map_map. intros x Hx. apply in_map_iff in Hx as (p & <- & _). cbn. auto.
  - clear - S. induction S as [|x l _ IH F]; constructor; auto. intros H. rewrite Forall_forall in F. apply F in H. qc_lra.
Qed.

Definition slow_of (a b e : Qc) : curve := mkCurve (scaled a b e unified_75) (qz 75).
Definition fast_of (a b e : Qc) : curve := mkCurve (scaled a b e unified_105) (qz 105).
Lemma from_design_ok : forall a b e, 0 < a -> 0 <= e -> e <= 1 -> from_design_point a b e = Ok [slow_of a b e; fast_of a b e].
Proof.
  intros a b e A E0 E1. unfold from_design_point. rewrite generic_curve_ok; auto; [|apply unified_75_rates|unfold unified_75; rewrite map_length; cbn; lia].
  cbn [bind]. rewrite generic_curve_ok; auto; [apply unified_105_rates|unfold unified_105; rewrite map_length; cbn; lia].
Qed.
Lemma slow_proper : forall a b e, 0 < a -> 0 <= e -> e <= 1 -> proper_curve (slow_of a b e) /\ NoDup (cv_rate (slow_of a b e)).
Proof. intros. apply scaled_proper; auto; [apply unified_75_rates|unfold unified_75; rewrite map_length; cbn; lia]. Qed.
Lemma fast_proper : forall a b e, 0 < a -> 0 <= e -> e <= 1 -> proper_curve (fast_of a b e) /\ NoDup (cv_rate (fast_of a b e)).
Proof. intros. apply scaled_proper; auto; [apply unified_105_rates|unfold unified_105; rewrite map_length; cbn; lia]. Qed.

(** their ends *)
Definition slow_left (a b e : Qc) := (a * q9 498902665, b * q9 558852888, e).
Definition slow_right (a b e : Qc) := (a * max_rate_75, b * q9 409004665, e).
Definition fast_left (a b e : Qc) := (a * q9 878913798, b * max_head_105, e).
Definition fast_right (a b e : Qc) := (a * max_rate_105, b * min_head_105, e).
Lemma first_left : forall c p, proper_curve c -> hd_error (cv_points c) = Some p -> left_end c p.
Proof. intros c p P E. destruct (left_end_first c P) as (q & E' & L). congruence. Qed.
Lemma last_right : forall c p, proper_curve c -> last_opt (cv_points c) = Some p -> right_end c p.
Proof. intros c p P E. destruct (right_end_last c P) as (q & E' & L). congruence. Qed.
Lemma generic_ends : forall a b e, 0 < a -> 0 <= e -> e <= 1 ->
  left_end (slow_of a b e) (slow_left a b e) /\ right_end (slow_of a b e) (slow_right a b e) /\
  left_end (fast_of a b e) (fast_left a b e) /\ right_end (fast_of a b e) (fast_right a b e).
Proof.
  intros a b e A E0 E1. destruct (slow_proper a b e) as [P _]; auto. destruct (fast_proper a b e) as [P' _]; auto.
  split; [now apply first_left|]. split; [now apply last_right|]. split; [now apply first_left|now apply last_right].
Qed.

Lemma generic_regular : forall a b e, 0 < a -> 0 < b -> 0 <= e -> e <= 1 -> regular_chart [slow_of a b e; fast_of a b e].
Proof.
  intros a b e A B E0 E1. destruct (generic_ends a b e) as (SL & SR & FL & FR); auto. split; [|split].
  - split; [discriminate|]. split; [|cbn; repeat constructor].
    intros c [<-|[<-|[]]]; [now apply slow_proper|now apply fast_proper].
  - intros c E. injection E as <-. unfold cv_head, fast_of, scaled. cbn [cv_points]. rewrite map_map.
    apply (map_sorted _ _ _ (fun p q => snd q < snd p)); [|apply unified_105_heads]. intros p q H. cbn. now apply scale_lt.
  - intros c0 c1 p0 p1 E0' E1' L0 L1. injection E0' as <-. injection E1' as <-.
    destruct (slow_proper a b e) as [_ N0]; auto. destruct (fast_proper a b e) as [_ N1]; auto.
    rewrite (left_point _ _ _ N0 L0 SL), (left_point _ _ _ N1 L1 FL). split; cbn; apply scale_le; auto; vm_compute; discriminate.
Qed.

(** C67: the rate of one curve at a head. *)
From Coq Require Import List Bool ZArith Lia Sorting.Sorted.
From Verif Require Import QcTac Base BaseLemmas Num Interp_Spec Interp_Model Time_Proofs Interp_Proofs Chart_Model Chart_Spec Chart_Proofs Compressor_Model Compressor_Spec
  Compressor_Proofs Compressor_Proofs2 Compressor_Proofs3 Compressor_Proofs4 Compressor_Proofs5 Compressor_Proofs6.
Import ListNotations.
Local Open Scope list_scope.
Local Open Scope Qc_scope.

Lemma ends_of_falling : forall pts p, StronglySorted (fun a b => b < a) (map p_head (p :: pts)) ->
  (forall q, In q (p :: pts) -> p_head q <= p_head p) /\
  (forall q, In q (p :: pts) -> p_head (last pts p) <= p_head q) /\ In (last pts p) (p :: pts).
Proof.
  induction pts as [|a pts IH]; intros p S.
  - split; [|split; [|now left]]; intros q [<-|[]]; apply Qcle_refl.
  - cbn [map] in S. apply StronglySorted_inv in S. destruct S as [S F]. destruct (IH a S) as (I1 & I2 & I3). rewrite last_shift.
    rewrite Forall_forall in F. split; [|split].
    + intros q [<-|Q]; [apply Qcle_refl|]. apply Qclt_le_weak. apply F. exact (in_map p_head _ _ Q).
    + intros q [<-|Q]; [|now apply I2]. apply Qclt_le_weak. apply F. exact (in_map p_head _ _ I3).
    + now right.
Qed.

(** The rate of a curve at a head: between the points as on the curve; the first rate above the largest head and the last rate below the smallest. *)
Theorem curve_rate_proof : forall c head, cv_points c <> [] -> StronglySorted (fun a b => b < a) (cv_head c) ->
  exists rate, curve_rate_at c head = Ok rate /\ value_at (map (fun p => (p_head p, p_rate p)) (cv_points c)) head rate.
Proof.
  intros c head N S.
  assert (D : combine (cv_head c) (cv_rate c) = map (fun p => (p_head p, p_rate p)) (cv_points c)).
  { clear. unfold cv_head, cv_rate. induction (cv_points c) as [|p l IH]; [reflexivity|]. cbn [map combine]. f_equal; exact IH. }
  unfold curve_rate_at. pose proof S as S'. unfold cv_head in S'.
  destruct (cv_points c) as [|p pts] eqn:E; [congruence|]. destruct (ends_of_falling pts p S') as (H1 & H2 & H3).
  set (data := map (fun p => (p_head p, p_rate p)) (p :: pts)) in *.
  assert (LA : last_opt (cv_rate c) = Some (p_rate (last pts p))).
  { unfold cv_rate. rewrite E. cbn [map last_opt]. f_equal. generalize p. clear. induction pts as [|a pts IH]; intros p; [reflexivity|].
    cbn [map]. rewrite !last_shift. apply IH. }
  assert (FI : hd_error (cv_rate c) = Some (p_rate p)) by (unfold cv_rate; now rewrite E).
  rewrite LA, FI. cbn [of_option bind]. unfold interp1d_at.
  assert (L : length (cv_head c) = length (cv_rate c)) by (unfold cv_head, cv_rate; now rewrite !map_length).
  destruct (make_interpolator (cv_head c) (cv_rate c) (Some (p_rate (last pts p))) (Some (p_rate p))) as [f|e] eqn:M.
  2: { exfalso. unfold make_interpolator in M. rewrite (proj2 (Nat.eqb_eq _ _) L) in M. cbn [negb] in M.
       unfold cv_head in M at 1. rewrite E in M. discriminate M. }
  cbn [bind]. pose proof (interpolation_proof _ _ _ _ _ (sorted_NoDup _ S) M) as I. cbv zeta in I. rewrite D in I. destruct I as (_ & I2 & I3 & I4 & _).
  assert (INP : In (p_head p, p_rate p) data) by (now left).
  assert (INL : In (p_head (last pts p), p_rate (last pts p)) data) by (exact (in_map (fun p => (p_head p, p_rate p)) _ _ H3)).
  assert (UP : forall b yb, In (b, yb) data -> b <= p_head p).
  { intros b yb B. apply in_map_iff in B. destruct B as (q & Q & B). injection Q as <- <-. now apply H1. }
  assert (DN : forall b yb, In (b, yb) data -> p_head (last pts p) <= b).
  { intros b yb B. apply in_map_iff in B. destruct B as (q & Q & B). injection Q as <- <-. now apply H2. }
  destruct (Qclt_le_dec head (p_head (last pts p))) as [A|A].
  - rewrite I3 by (intros b yb B; eapply Qclt_le_trans; [exact A|exact (DN b yb B)]).
    eexists. split; [reflexivity|]. right. exists (p_head (last pts p)). split; [exact INL|]. left. split; [exact A|exact DN].
  - destruct (Qclt_le_dec (p_head p) head) as [B|B].
    + rewrite I4 by (intros b yb X; eapply Qcle_lt_trans; [exact (UP b yb X)|exact B]).
      eexists. split; [reflexivity|]. right. exists (p_head p). split; [exact INP|]. right. split; [exact B|exact UP].
    + assert (R : in_range data head) by (split; [exists (p_head (last pts p)), (p_rate (last pts p))|exists (p_head p), (p_rate p)]; auto).
      destruct (I2 head R) as (y & Y1 & Y2). rewrite Y2. exists y. split; [reflexivity|]. left. auto.
Qed.

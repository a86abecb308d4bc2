(** Proofs about consumers: a consumer whose models change over time. *)
From Coq Require Import PeanoNat String.
From Verif Require Import Attributes_Proofs Attributes_Proofs2 QcTac Num Time_Model Time_Spec Time_Proofs Time_Proofs2 Units_Model Rates_Model Rates_Spec Rates_Proofs Rates_Proofs4
  Base BaseLemmas Expr_Model Expr_Proofs Vars_Model Vars_Proofs Input_Model Interp_Model Energy_Model Energy_Proofs Energy_Proofs3 Export_Proofs2 Emitters_Proofs5 Emitters_Spec
  Consumer_Model Consumer_Spec Consumer_Proofs Consumer_Proofs2.
Local Open Scope list_scope.
Local Open Scope Z_scope.

Lemma slice_app : forall A (l : list A) i j k, (i <= j)%nat -> (j <= k)%nat -> (k <= List.length l)%nat -> slice i j l ++ slice j k l = slice i k l.
Proof.
  intros A l i j k L1 L2 L3. apply list_ext_nth. intros m. destruct (Nat.lt_ge_cases m (j - i)) as [L|L].
  - rewrite nth_error_app1 by (rewrite slice_length; lia). rewrite !nth_error_slice. destruct (Nat.ltb_spec m (j - i)), (Nat.ltb_spec m (k - i)); auto; lia.
  - rewrite nth_error_app2 by (rewrite slice_length; lia). rewrite slice_length by lia. rewrite !nth_error_slice.
    destruct (Nat.ltb_spec (m - (j - i)) (k - j)), (Nat.ltb_spec m (k - i)); auto; try lia. f_equal. lia.
Qed.

(** ** the entries of a model restricted to the target period *)
Lemma dates_contiguous : forall M (l : list (datetime * M)), increasing (map fst l) -> (forall k, In k (map fst l) -> k < DT_MAX) -> contiguous (map fst (dates_to_periods l)).
Proof.
  intros M l. induction l as [|[d m] l IH]; intros Inc Mx; [exact I|]. cbn [dates_to_periods map fst]. cbn [map fst] in Inc, Mx.
  assert (contiguous (map fst (dates_to_periods l))) as C. { apply IH; [destruct Inc as [_ Inc]; exact Inc|]. intros k H. apply Mx. now right. }
  destruct l as [|[d' m'] l].
  - cbn [dates_to_periods map contiguous]. split; [|auto]. unfold nonempty. cbn [p_start p_end]. apply Mx. now left.
  - cbn [map fst] in Inc. destruct Inc as [L _]. cbn [dates_to_periods map fst] in C |- *. split; [exact L|]. split; [reflexivity|exact C].
Qed.
Lemma restrict_after : forall M target (l : list (period * M)) e, nonempty target -> contiguous (map fst (e :: l)) -> p_end target <= p_start (fst e) -> flat_map (restrict_entry target) (e :: l) = [].
Proof.
  intros M target l. induction l as [|f l IH]; intros e N C L; cbn [flat_map].
  - assert (nonempty (fst e)) as Ne by (destruct C as [Ne _]; exact Ne). unfold restrict_entry. rewrite intersection_bounds by assumption. unfold nonempty in *.
    replace (Z.max (p_start (fst e)) (p_start target) <? Z.min (p_end (fst e)) (p_end target)) with false by (symmetry; apply Z.ltb_ge; lia). reflexivity.
  - cbn [map] in C. apply contiguous_cons2 in C as (Ne & E & C). specialize (IH f N C). cbn [flat_map] in IH. rewrite IH by lia.
    unfold restrict_entry. rewrite intersection_bounds by assumption. unfold nonempty in *.
    replace (Z.max (p_start (fst e)) (p_start target) <? Z.min (p_end (fst e)) (p_end target)) with false by (symmetry; apply Z.ltb_ge; lia). reflexivity.
Qed.
Lemma restrict_contiguous : forall M target (l : list (period * M)), nonempty target -> contiguous (map fst l) -> contiguous (map fst (flat_map (restrict_entry target) l)).
Proof.
  intros M target l N. induction l as [|e l IH]; intros C; [exact I|]. cbn [flat_map]. rewrite map_app.
  assert (contiguous (map fst (flat_map (restrict_entry target) l))) as C'. { apply IH. cbn [map] in C. now apply contiguous_tl in C. }
  assert (nonempty (fst e)) as Ne by (cbn [map] in C; destruct C as [Ne _]; exact Ne).
  unfold restrict_entry at 1. rewrite intersection_bounds by assumption. unfold nonempty in N, Ne.
  destruct (Z.ltb_spec (Z.max (p_start (fst e)) (p_start target)) (Z.min (p_end (fst e)) (p_end target))) as [L|L]; [|exact C'].
  cbn [map fst app]. destruct l as [|f l]; [cbn; unfold nonempty; cbn [p_start p_end]; auto|].
  cbn [map] in C. apply contiguous_cons2 in C as (_ & E & C). assert (nonempty (fst f)) as Nf by (destruct C as [Nf _]; exact Nf).
  destruct (Z.le_gt_cases (p_end target) (p_start (fst f))) as [Lf|Lf].
  - rewrite (restrict_after M target l f N C Lf). cbn. unfold nonempty. cbn [p_start p_end]. auto.
  - cbn [flat_map] in C' |- *. unfold restrict_entry at 1 in C'. unfold restrict_entry at 1. rewrite intersection_bounds in C' |- * by assumption. unfold nonempty in Nf.
    replace (Z.max (p_start (fst f)) (p_start target) <? Z.min (p_end (fst f)) (p_end target)) with true in C' |- * by (symmetry; apply Z.ltb_lt; lia).
    cbn [app map fst] in C' |- *. split; [unfold nonempty; cbn [p_start p_end]; lia|]. split; [cbn [p_start p_end]; lia|exact C'].
Qed.
Lemma dates_to_periods_In : forall M (l : list (datetime * M)) q m, In (q, m) (dates_to_periods l) ->
  In (p_start q) (map fst l) /\ In m (map snd l) /\ (p_end q = DT_MAX \/ In (p_end q) (map fst l)).
Proof.
  intros M l. induction l as [|[d x] l IH]; intros q m I; [destruct I|]. cbn [dates_to_periods] in I. destruct I as [E|I].
  - injection E as <- <-. cbn [p_start p_end map fst snd]. split; [now left|]. split; [now left|]. destruct l as [|[d' m'] l]; [now left|]. right. right. now left.
  - destruct (IH q m I) as (A & B & D). cbn [map fst snd]. split; [now right|]. split; [now right|]. destruct D as [D|D]; [now left|]. right. now right.
Qed.
Lemma adjusted_facts : forall M (data : temporal_data M) target, (forall e es, data <> TDPeriods e es) -> data_well_formed data -> nonempty target -> p_end target <= DT_MAX ->
  let adjusted := define_time_model_for_period data target in
  contiguous (map fst adjusted) /\
  (forall q m, In (q, m) adjusted -> p_start target <= p_start q /\ p_end q <= p_end target /\ In m (data_models data) /\
     (p_start q = p_start target \/ In (p_start q) (data_dates data)) /\ (p_end q = p_end target \/ In (p_end q) (data_dates data))).
Proof.
  intros M data target NP W N Mx adjusted. destruct (default_model_props M data target W N) as (Ne & P & _).
  unfold adjusted. rewrite (define_restrict M data target N Ne P).
  assert (contiguous (map fst (default_temporal_model data target)) /\ forall q m, In (q, m) (default_temporal_model data target) -> In m (data_models data) /\
    (p_start q = p_start target \/ In (p_start q) (data_dates data)) /\ (p_end q = p_end target \/ p_end q = DT_MAX \/ In (p_end q) (data_dates data))) as [C F].
  { destruct data as [m|[d m] es|e es]; [| |exfalso; now apply (NP e es)].
    - cbn [default_temporal_model map fst contiguous data_models]. split; [auto|]. intros q x [E|[]]. injection E as <- <-. split; [now left|]. auto.
    - cbn [data_well_formed] in W. destruct W as [W1 W2]. unfold default_temporal_model. rewrite period_dict_dates by exact W1. split; [now apply dates_contiguous|].
      intros q x I. apply dates_to_periods_In in I as (A & B & D). cbn [data_models data_dates]. split; [exact B|]. split; [now right|]. right. exact D. }
  split; [now apply restrict_contiguous|]. intros q m I. apply in_flat_map in I as ([p x] & I & I2). unfold restrict_entry in I2. cbn [fst snd] in I2.
  pose proof (Ne _ I) as Np. cbn [fst] in Np. rewrite intersection_bounds in I2 by assumption.
  destruct (Z.ltb_spec (Z.max (p_start p) (p_start target)) (Z.min (p_end p) (p_end target))) as [L|L]; [|destruct I2].
  destruct I2 as [E|[]]. injection E as <- <-. destruct (F p x I) as (A & B & D). cbn [p_start p_end]. unfold nonempty in *. split; [lia|]. split; [lia|]. split; [exact A|]. split.
  - destruct B as [B|B]; [left; lia|]. destruct (Z.max_spec (p_start p) (p_start target)) as [[_ ->]|[_ ->]]; [now left|now right].
  - destruct D as [D|[D|D]]; [left; lia|left; lia|]. destruct (Z.min_spec (p_end p) (p_end target)) as [[_ ->]|[_ ->]]; [now right|now left].
Qed.

(** ** their places in the run *)
Definition placed (ps : list period) (e : period) (ij : nat * nat) : Prop :=
  get_period_indices e ps = Ok ij /\ (fst ij < snd ij)%nat /\ (snd ij <= List.length ps)%nat /\
  nth_error (dates_of ps) (fst ij) = Some (p_start e) /\ nth_error (dates_of ps) (snd ij) = Some (p_end e).
Lemma entry_placed : forall first rest q, let ps := first :: rest in contiguous ps -> nonempty q -> p_start first <= p_start q -> p_end q <= p_end (last rest first) ->
  (forall p, In p ps -> ~ (p_start p < p_start q < p_end p)) -> (forall p, In p ps -> ~ (p_start p < p_end q < p_end p)) ->
  exists ij, placed ps q ij.
Proof.
  intros first rest q ps C N B1 B2 N1 N2. unfold nonempty in N. pose proof (whole_nonempty _ _ C) as Nw.
  assert (intersects q (whole_of first rest) = true) as Is. { rewrite intersects_bounds by assumption. cbn [whole_of p_start p_end]. apply Z.ltb_lt. lia. }
  destruct (period_indices_spec first rest q C N Is (no_cut_on_grid first rest q C N Is N1 N2)) as (i & j & E & L1 & L2 & D1 & D2).
  exists (i, j). unfold placed. cbn [fst snd]. split; [exact E|]. split; [exact L1|]. split; [exact L2|].
  rewrite Z.max_l in D1 by lia. rewrite Z.min_l in D2 by lia. auto.
Qed.
Lemma dates_index : forall ps i j t, contiguous ps -> nth_error (dates_of ps) i = Some t -> nth_error (dates_of ps) j = Some t -> i = j.
Proof.
  intros ps i j t C Ei Ej. pose proof (dates_of_increasing ps C) as Inc. destruct (Nat.lt_trichotomy i j) as [L|[L|L]]; auto;
    [pose proof (increasing_nth_lt _ _ _ _ _ Inc Ei Ej L)|pose proof (increasing_nth_lt _ _ _ _ _ Inc Ej Ei L)]; lia.
Qed.
Lemma placed_chain : forall ps es ijs, contiguous ps -> contiguous es -> Forall2 (placed ps) es ijs -> contiguous (flat_map (fun ij => slice (fst ij) (snd ij) ps) ijs).
Proof.
  intros ps es ijs C Ce F.
  assert (forall e es ij ijs, contiguous (e :: es) -> placed ps e ij -> Forall2 (placed ps) es ijs ->
    exists k, (snd ij <= k)%nat /\ (k <= List.length ps)%nat /\ flat_map (fun ij => slice (fst ij) (snd ij) ps) (ij :: ijs) = slice (fst ij) k ps) as G.
  { clear - C. intros e es. revert e. induction es as [|f es IH]; intros e ij ijs Ce P F; inversion F as [|f' ij' es' ijs' Pf F']; subst.
    - exists (snd ij). cbn [flat_map]. rewrite app_nil_r. destruct P as (_ & _ & L & _). auto.
    - apply contiguous_cons2 in Ce as (_ & E & Ce). destruct (IH f ij' ijs' Ce Pf F') as (k & K1 & K2 & K3).
      exists k. destruct P as (_ & L1 & L2 & _ & D2). destruct Pf as (_ & L1' & L2' & D1' & _). rewrite E in D2.
      assert (snd ij = fst ij') as Q by (apply (dates_index ps _ _ (p_start f) C); assumption).
      split; [lia|]. split; [exact K2|]. cbn [flat_map] in K3 |- *. rewrite K3, Q. apply slice_app; lia. }
  inversion F as [|e ij es' ijs' P F']; subst; [exact I|]. destruct (G e es' ij ijs' Ce P F') as (k & K1 & K2 & ->). now apply contiguous_slice.
Qed.

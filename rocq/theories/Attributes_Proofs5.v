(** Proofs about exported attributes: the category of a fuel. *)
From Coq Require Import String PeanoNat Sorted.
From Verif Require Import QcTac Num Time_Model Time_Spec Time_Proofs Time_Proofs2 Time_Proofs3 Units_Model Rates_Model Rates_Spec Numbers_Model Base BaseLemmas Simple_Proofs4 Export_Model Export_Spec Export_Proofs Attributes_Model Attributes_Spec Attributes_Proofs3 Attributes_Proofs4.
Local Open Scope list_scope.

Definition overlap (w v : period) : period := mkPeriod (Z.max (p_start w) (p_start v)) (Z.min (p_end w) (p_end v)).
Definition pieces (e : period * option categories) : list (period * option string) :=
  match snd e with None => [(fst e, None)] | Some c => map (fun pc => (overlap (fst e) (fst pc), Some (snd pc))) c end.

Lemma pieces_some : forall e c, snd e = Some c -> pieces e = map (fun pc => (overlap (fst e) (fst pc), Some (snd pc))) c.
Proof. intros e c E. unfold pieces. now rewrite E. Qed.
Lemma pieces_none : forall e, snd e = None -> pieces e = [(fst e, None)].
Proof. intros e E. unfold pieces. now rewrite E. Qed.
Lemma strongly_app : forall A (R : A -> A -> Prop) l m, StronglySorted R (l ++ m) -> StronglySorted R l /\ StronglySorted R m /\ forall x y, In x l -> In y m -> R x y.
Proof.
  intros A R l m. induction l as [|a l IH]; intros H; cbn [app] in H.
  - split; [constructor|]. split; [exact H|]. intros x y [].
  - inversion H as [|? ? S F]; subst. destruct (IH S) as (A1 & A2 & A3). rewrite Forall_app in F. destruct F as [F1 F2]. split; [constructor; auto|]. split; [exact A2|]. intros x y [<-|I] J; [|now apply A3]. rewrite Forall_forall in F2. now apply F2.
Qed.
Lemma strongly_join : forall A (R : A -> A -> Prop) l m, StronglySorted R l -> StronglySorted R m -> (forall x y, In x l -> In y m -> R x y) -> StronglySorted R (l ++ m).
Proof.
  intros A R l m S1 S2 H. induction S1 as [|a l S1 IH F]; cbn [app]; [exact S2|]. constructor; [apply IH; intros; apply H; auto; now right|]. apply Forall_app. split; [exact F|]. apply Forall_forall. intros y I. apply H; [now left|exact I].
Qed.
Lemma ordered_new : forall M (d l : list (period * M)) k v, ordered (d ++ (k, v) :: l) -> ~ In k (map fst d).
Proof.
  intros M d l k v [S N] I. apply in_map_iff in I as ([k' v'] & E & I). cbn in E. subst k'. apply strongly_app in S as (_ & _ & X). specialize (X (k, v') (k, v) I (or_introl eq_refl)). cbn in X.
  rewrite Forall_app in N. destruct N as [_ N]. inversion N; subst. unfold nonempty in *. cbn in *. lia.
Qed.
Lemma intersection_overlap : forall w v, intersects w v = true -> intersection w v = Some (overlap w v).
Proof. intros w v H. unfold intersection. now rewrite H. Qed.
Lemma inner_fold : forall w c (d : list (period * option string)), (forall pc, In pc c -> intersects w (fst pc) = true) ->
  ordered (d ++ map (fun pc => (overlap w (fst pc), Some (snd pc))) c) ->
  fold_left (fun acc pc => do d <- acc; do p <- of_option AssertionError (intersection w (fst pc)); Ok (dict_set period_eqb p (Some (snd pc)) d)) c (Ok d) =
  Ok (d ++ map (fun pc : period * string => (overlap w (fst pc), Some (snd pc))) c).
Proof.
  intros w c. induction c as [|pc c IH]; intros d H O; cbn [fold_left map]; [now rewrite app_nil_r|].
  cbn [Base.bind]. rewrite (intersection_overlap w (fst pc)) by (apply H; now left). cbn [of_option Base.bind].
  cbn [map] in O. rewrite (dict_set_new_key _ _ period_eqb period_eqb_spec) by (eapply ordered_new; exact O). rewrite IH.
  - now rewrite <- app_assoc.
  - intros; apply H; now right.
  - now rewrite <- app_assoc.
Qed.
Lemma fuel_fold : forall fuel (d : list (period * option string)), (forall e c pc, In e fuel -> snd e = Some c -> In pc c -> intersects (fst e) (fst pc) = true) ->
  ordered (d ++ flat_map pieces fuel) ->
  fold_left (fun acc e =>
    do d <- acc;
    match snd e with
    | None => Ok (dict_set period_eqb (fst e) None d)
    | Some c => fold_left (fun acc pc => do d <- acc; do p <- of_option AssertionError (intersection (fst e) (fst pc)); Ok (dict_set period_eqb p (Some (snd pc)) d)) c (Ok d)
    end) fuel (Ok d) = Ok (d ++ flat_map pieces fuel).
Proof.
  intros fuel. induction fuel as [|e fuel IH]; intros d H O; cbn [fold_left flat_map]; [now rewrite app_nil_r|].
  cbn [Base.bind]. cbn [flat_map] in O. rewrite app_assoc in O. assert (ordered (d ++ pieces e)) as O1.
  { destruct O as [S N]. apply strongly_app in S as (S & _). rewrite Forall_app in N. split; [exact S|apply N]. }
  destruct (snd e) as [c|] eqn:E.
  - rewrite (pieces_some e c E) in *. rewrite inner_fold.
    + rewrite IH; [now rewrite app_assoc| |exact O]. intros e' c' pc I. apply H. now right.
    + intros pc I. apply (H e c pc); auto. now left.
    + exact O1.
  - rewrite (pieces_none e E) in *. rewrite (dict_set_new_key _ _ period_eqb period_eqb_spec) by (eapply ordered_new; exact O1).
    rewrite IH; [now rewrite app_assoc| |exact O]. intros e' c' pc I. apply H. now right.
Qed.
Lemma ordered_sorted : forall M (l : list (period * M)), ordered l -> Sorted (fun a b => period_leb a b = true) (map fst l).
Proof.
  intros M l [S N]. induction S as [|a l S IH F]; cbn [map]; [constructor|]. inversion N as [|? ? N1 N']; subst. constructor; [now apply IH|]. destruct l as [|b l]; [constructor|]. cbn [map]. constructor.
  inversion F; subst. unfold period_leb, nonempty in *. lia.
Qed.
Lemma overlap_In : forall d w v, In_period d (overlap w v) <-> In_period d w /\ In_period d v.
Proof. intros d w v. unfold In_period, overlap. cbn [p_start p_end]. lia. Qed.
Lemma overlap_nonempty : forall w v, nonempty w -> nonempty v -> intersects w v = true -> nonempty (overlap w v).
Proof. intros w v A B C. unfold nonempty, intersects, contains_date, overlap in *. cbn [p_start p_end]. lia. Qed.

Lemma intersects_common : forall w v d, In_period d w -> In_period d v -> intersects w v = true.
Proof. intros w v d A B. unfold intersects, contains_date, In_period in *. lia. Qed.

Lemma pieces_ordered : forall fuel, fuel_ok fuel -> ordered (flat_map pieces fuel).
Proof.
  intros fuel. induction fuel as [|e fuel IH]; intros [O H]; [split; constructor|]. destruct O as [S N]. inversion S as [|? ? S' SH]; subst. inversion N as [|? ? N1 N']; subst. cbn [flat_map].
  assert (forall e' x, In e' (e :: fuel) -> In x (pieces e') -> p_start (fst e') <= p_start (fst x) /\ p_end (fst x) <= p_end (fst e')) as W.
  { intros e' x _ Ix. unfold pieces in Ix. destruct (snd e') as [c|].
    - apply in_map_iff in Ix as (pc & <- & _). unfold overlap. cbn [fst p_start p_end]. lia.
    - destruct Ix as [<-|[]]. cbn. lia. }
  assert (ordered (pieces e)) as [P1 P2].
  { unfold pieces. destruct (snd e) as [c|] eqn:E; [|split; repeat constructor; exact N1]. destruct (H e c (or_introl eq_refl) E) as [[Sc Nc] X]. split.
    - clear - Sc. induction Sc as [|a l S IH F]; cbn [map]; constructor; auto. apply Forall_forall. intros x I. apply in_map_iff in I as (pc & <- & I). rewrite Forall_forall in F. specialize (F pc I). unfold overlap. cbn [fst p_start p_end]. lia.
    - apply Forall_forall. intros x I. apply in_map_iff in I as (pc & <- & I). cbn [fst]. destruct (X pc I) as (d & D1 & D2). apply overlap_nonempty; [exact N1|rewrite Forall_forall in Nc; now apply Nc|now apply (intersects_common _ _ d)]. }
  destruct IH as [Q1 Q2]; [split; [split; auto|intros; eapply H; eauto; now right]|]. split.
  - apply strongly_join; auto. intros x y Ix Iy. apply in_flat_map in Iy as (e' & Ie & Iy). pose proof (W e x (or_introl eq_refl) Ix). pose proof (W e' y (or_intror Ie) Iy). rewrite Forall_forall in SH. specialize (SH e' Ie). lia.
  - apply Forall_app. split; auto.
Qed.
Lemma fuel_category_ok : forall fuel, fuel_ok fuel -> fuel_category fuel = Ok (flat_map pieces fuel).
Proof.
  intros fuel F. pose proof (pieces_ordered fuel F) as O. destruct F as [_ H]. unfold fuel_category. rewrite fuel_fold; [|intros e c pc I E J; destruct (H e c I E) as [_ X]; destruct (X pc J) as (d & D1 & D2); now apply (intersects_common _ _ d)|exact O].
  cbn [app Base.bind]. apply temporal_model_of_periods_iff. split; [reflexivity|]. now apply ordered_sorted.
Qed.
Lemma pieces_force : forall fuel d c, fuel_ok fuel -> (in_force (flat_map pieces fuel) d c <-> match c with Some m => exists l, in_force fuel d (Some l) /\ in_force l d m | None => in_force fuel d None end).
Proof.
  intros fuel d c _. split.
  - intros (w & I & D). apply in_flat_map in I as ([v o] & Ie & I). unfold pieces in I. cbn [fst snd] in I. destruct o as [l|].
    + apply in_map_iff in I as ([x m] & E & I). cbn [fst snd] in E. injection E as <- <-. apply overlap_In in D as [D1 D2]. exists l. split; [exists v; auto|exists x; auto].
    + destruct I as [E|[]]. injection E as <- <-. exists v. auto.
  - destruct c as [m|].
    + intros (l & (v & Iv & Dv) & (x & Ix & Dx)). exists (overlap v x). split; [|now apply overlap_In]. apply in_flat_map. exists (v, Some l). split; [exact Iv|]. unfold pieces. cbn [fst snd]. apply in_map_iff. exists (x, m). auto.
    + intros (v & Iv & Dv). exists v. split; [|exact Dv]. apply in_flat_map. exists (v, None). split; [exact Iv|]. now left.
Qed.
Lemma pieces_grid : forall ps fuel, fuel_on_grid ps fuel -> on_grid ps (flat_map pieces fuel).
Proof.
  intros ps fuel [G H] e I. apply in_flat_map in I as ([v o] & Ie & I). destruct (G _ Ie) as [G1 G2]. cbn [fst] in *. unfold pieces in I. cbn [fst snd] in I. destruct o as [l|].
  - apply in_map_iff in I as (pc & <- & I). destruct (H _ l Ie eq_refl pc I) as [H1 H2]. unfold overlap. cbn [fst p_start p_end].
    destruct (Z.max_spec (p_start v) (p_start (fst pc))) as [[_ ->]|[_ ->]]; destruct (Z.min_spec (p_end v) (p_end (fst pc))) as [[_ ->]|[_ ->]]; auto.
  - destruct I as [<-|[]]. auto.
Qed.
Lemma fuel_lookup : forall fuel p, fuel_ok fuel -> fuel_category_at fuel p (match lookup (Some (flat_map pieces fuel)) (p_start p) with Some c => c | None => None end).
Proof.
  intros fuel p F. pose proof (pieces_ordered fuel F) as O. destruct (lookup (Some (flat_map pieces fuel)) (p_start p)) as [c|] eqn:E.
  - apply (lookup_some _ _ _ _ O) in E. apply (pieces_force fuel _ _ F) in E. destruct c as [m|]; [exact E|]. cbn [fuel_category_at]. intros l m A _. pose proof F as [Of _].
    apply (get_model_force _ fuel (p_start p) None Of) in E. apply (get_model_force _ fuel (p_start p) (Some l) Of) in A. congruence.
  - cbn [fuel_category_at]. intros l m A B. assert (in_force (flat_map pieces fuel) (p_start p) (Some m)) as X by (apply (pieces_force fuel _ _ F); eauto).
    apply (lookup_some _ _ _ _ O) in X. congruence.
Qed.
Lemma fuel_at_unique : forall fuel p a b, fuel_ok fuel -> fuel_category_at fuel p a -> fuel_category_at fuel p b -> a = b.
Proof.
  intros fuel p a b [Of H] A B. destruct a as [x|], b as [y|]; cbn [fuel_category_at] in *; auto.
  - destruct A as (l & A1 & A2). destruct B as (k & B1 & B2). pose proof A1 as A1'. apply (get_model_force _ fuel _ _ Of) in A1. apply (get_model_force _ fuel _ _ Of) in B1. assert (k = l) as -> by congruence.
    destruct A1' as (w & Iw & _). destruct (H (w, Some l) l Iw eq_refl) as [Ol _]. apply (get_model_force _ l _ _ Ol) in A2. apply (get_model_force _ l _ _ Ol) in B2. congruence.
  - destruct A as (l & A1 & A2). exfalso. eapply B; eauto.
  - destruct B as (l & A1 & A2). exfalso. eapply A; eauto.
Qed.
Lemma fuel_defined_iff : forall fuel d, fuel_ok fuel -> (defined (Some (flat_map pieces fuel)) d <-> fuel_defined fuel d).
Proof.
  intros fuel d F. split.
  - intros (l & c & E & X). injection E as <-. apply (pieces_force fuel _ _ F) in X. destruct c as [m|]; [destruct X as (l & X); right; eauto|left; exact X].
  - intros [X|(l & m & X)]; eexists; [exists None|exists (Some m)]; (split; [reflexivity|]); apply (pieces_force fuel _ _ F); eauto.
Qed.

(** Proofs about emitters: the rates of the input, dictionaries by name, the regularity of a series. *)
From Coq Require Import PeanoNat String.
From Verif Require Import QcTac Num Time_Model Time_Spec Time_Proofs Time_Proofs2 Time_Proofs3 Units_Model Rates_Model Rates_Spec Rates_Proofs Rates_Proofs2 Rates_Proofs3 Rates_Proofs4
  Base BaseLemmas Expr_Model Vars_Model Input_Model Interp_Model Energy_Model Energy_Proofs Energy_Proofs3 Emitters_Model Emitters_Spec.
Local Open Scope list_scope.

(** ** a series over a part of the periods gets the regularity of that part *)
Lemma infix_indices : forall a q qs b, contiguous (a ++ (q :: qs) ++ b) ->
  get_period_indices (mkPeriod (p_start q) (p_end (last qs q))) (a ++ (q :: qs) ++ b) = Ok (List.length a, (List.length a + List.length (q :: qs))%nat).
Proof.
  intros a q qs b C. set (ps := a ++ (q :: qs) ++ b) in *.
  assert (nth_error ps (List.length a) = Some q) as P1 by (unfold ps; rewrite nth_error_app2, Nat.sub_diag by lia; reflexivity).
  assert (nth_error ps (List.length a + List.length qs) = Some (last qs q)) as P2.
  { unfold ps. rewrite nth_error_app2 by lia. rewrite nth_error_app1 by (cbn; lia). replace (List.length a + List.length qs - List.length a)%nat with (List.length qs) by lia.
    clear. revert q. induction qs as [|r qs IH]; intros q; [reflexivity|]. cbn [List.length nth_error]. rewrite IH. cbn [last]. destruct qs as [|x qs]; [reflexivity|]. f_equal. clear. revert x. induction qs as [|y qs IH]; intros x; [reflexivity|]. cbn [last] in *. destruct qs; [reflexivity|]. apply (IH y). }
  destruct (dates_of_nth _ _ _ C P1) as [D1 _]. destruct (dates_of_nth _ _ _ C P2) as [_ D2].
  destruct ps as [|p0 ps0] eqn:Eps; [destruct a; discriminate|].
  apply period_indices_eq; auto.
  - replace (List.length a + List.length (q :: qs))%nat with (S (List.length a + List.length qs)) by (cbn; lia). exact D2.
  - cbn [List.length]. lia.
Qed.
Lemma slice_infix : forall A (a q b : list A), slice (List.length a) (List.length a + List.length q) (a ++ q ++ b) = q.
Proof.
  intros A a q b. unfold slice. replace (List.length a + List.length q - List.length a)%nat with (List.length q) by lia.
  rewrite skipn_app, skipn_all, Nat.sub_diag. cbn [app skipn]. rewrite firstn_app, firstn_all, Nat.sub_diag. cbn [firstn]. apply app_nil_r.
Qed.
Lemma for_periods_infix : forall V a qs b va vq vb u, contiguous (a ++ qs ++ b) -> qs <> [] -> List.length va = List.length a -> List.length vq = List.length qs ->
  series_for_periods (mkSeries (a ++ qs ++ b) (va ++ vq ++ vb) u) qs = @Ok (series V) (mkSeries qs vq u).
Proof.
  intros V a qs b va vq vb u C N La Lq. unfold series_for_periods. cbn [s_periods s_values s_unit].
  destruct qs as [|q qs]; [congruence|]. destruct (a ++ (q :: qs) ++ b) as [|p0 ps0] eqn:E; [destruct a; discriminate|].
  rewrite all_dates_of. cbn [Base.bind].
  replace (forallb _ (q :: qs)) with true.
  2:{ symmetry. apply forallb_forall. intros p I. assert (In p (p0 :: ps0)) as I2 by (rewrite <- E; apply in_or_app; right; apply in_or_app; now left).
      apply In_nth_error in I2 as (k & K). destruct (dates_of_nth _ _ _ C K) as [D1 D2]. now rewrite (existsb_dates _ _ _ D1), (existsb_dates _ _ _ D2). }
  cbn [negb]. unfold periods_period, last_opt. cbn [Base.bind].
  rewrite <- E in C |- *. rewrite (infix_indices a q qs b C). cbn [Base.bind fst snd]. rewrite slice_infix.
  replace (slice _ _ (va ++ vq ++ vb)) with vq by (symmetry; rewrite <- La, <- Lq; apply slice_infix). unfold make_series. now rewrite Lq, Nat.eqb_refl.
Qed.
(** C99: the reported series has the values of the consumer and the regularity of its periods *)
Lemma regularity_infix : forall a qs b ga gq gb vals u, contiguous (a ++ qs ++ b) -> qs <> [] -> List.length ga = List.length a -> List.length gq = List.length qs ->
  List.length vals = List.length qs ->
  rate_from_stream_day (mkSeries qs vals u) (mkSeries (a ++ qs ++ b) (ga ++ gq ++ gb) NONE) = Ok (mkRate qs vals u STREAM_DAY gq).
Proof.
  intros a qs b ga gq gb vals u C N La Lq Lv. unfold rate_from_stream_day. cbn [s_periods s_values s_unit].
  rewrite (for_periods_infix _ a qs b ga gq gb NONE C N La Lq). cbn [Base.bind s_values]. unfold make_rate. now rewrite Lv, Lq, Nat.eqb_refl.
Qed.
Lemma regularity_all : forall qs gq vals u, contiguous qs -> qs <> [] -> List.length gq = List.length qs -> List.length vals = List.length qs ->
  rate_from_stream_day (mkSeries qs vals u) (mkSeries qs gq NONE) = Ok (mkRate qs vals u STREAM_DAY gq).
Proof.
  intros qs gq vals u C N Lq Lv. pose proof (regularity_infix [] qs [] [] gq [] vals u) as H. cbn [app] in H. rewrite !app_nil_r in H. now apply H.
Qed.

(** ** dictionaries by name *)
Lemma string_eqb_iff : forall a b, String.eqb a b = true <-> a = b.
Proof. exact String.eqb_eq. Qed.
Lemma last_named_app : forall A (es : list (string * A)) name a b, last_named (es ++ [(name, a)]) name b -> a = b.
Proof.
  intros A es name a b (l1 & l2 & E & N). destruct l2 as [|x l2 _] using rev_ind.
  - apply app_inj_tail in E as [_ E]. now injection E.
  - replace (l1 ++ (name, b) :: l2 ++ [x]) with ((l1 ++ (name, b) :: l2) ++ [x]) in E by now rewrite <- app_assoc.
    apply app_inj_tail in E as [_ <-]. exfalso. apply N. rewrite map_app. apply in_or_app. right. now left.
Qed.
Lemma dict_build : forall A S (f : A -> result S) step es,
  (forall acc e, step acc e = bind acc (fun d => bind (f (snd e)) (fun s => Ok (dict_set String.eqb (fst e) s d)))) ->
  (forall name a, In (name, a) es -> exists s, f a = Ok s) ->
  exists d, fold_left step es (Ok []) = Ok d /\ NoDup (map fst d) /\ (forall name, In name (map fst d) <-> In name (map fst es)) /\
    forall name s, In (name, s) d -> exists a, last_named es name a /\ f a = Ok s.
Proof.
  intros A S f step es Hs. induction es as [|[name a] es IH] using rev_ind; intros H.
  { exists []. split; [reflexivity|]. split; [constructor|]. split; [reflexivity|]. intros ? ? []. }
  destruct IH as (d & E & ND & K & V). { intros nm x I. apply (H nm x). apply in_or_app. now left. }
  destruct (H name a) as (s & F). { apply in_or_app. right. now left. }
  exists (dict_set String.eqb name s d). split.
  { rewrite fold_left_app. rewrite E. cbn [fold_left]. rewrite Hs. cbn [bind snd fst]. rewrite F. reflexivity. }
  assert (forall nm v, In (nm, v) (dict_set String.eqb name s d) -> NoDup (map fst (dict_set String.eqb name s d)) -> dict_get String.eqb nm (dict_set String.eqb name s d) = Some v) as G
    by (intros nm v I N; now apply dict_get_NoDup; [exact string_eqb_iff| |]).
  assert (NoDup (map fst (dict_set String.eqb name s d)) /\ forall nm, In nm (map fst (dict_set String.eqb name s d)) <-> In nm (map fst d) \/ nm = name) as [ND' K'].
  { destruct (in_dec string_dec name (map fst d)) as [I|I].
    - rewrite (dict_set_keys_in _ _ _ _ _ _ string_eqb_iff I). split; [exact ND|]. intros nm. split; [tauto|]. intros [X | ->]; auto.
    - rewrite (dict_set_keys_notin _ _ _ _ _ _ string_eqb_iff I). rewrite map_app. cbn [map fst]. split.
      + apply NoDup_app_remove_l || idtac. apply (NoDup_Add (a := name) (l := map fst d)); [|split; [exact ND|exact I]]. replace (map fst d) with (map fst d ++ []) at 1 by apply app_nil_r. apply Add_app.
      + intros nm. rewrite in_app_iff. cbn. intuition. }
  split; [exact ND'|]. split.
  { intros nm. rewrite K', K, map_app, in_app_iff. cbn. intuition. }
  intros nm v I. pose proof (G nm v I ND') as Ev. rewrite (dict_get_set _ _ _ _ _ _ _ string_eqb_iff) in Ev.
  destruct (String.eqb nm name) eqn:Q.
  - apply String.eqb_eq in Q. subst nm. injection Ev as <-. exists a. split; [|exact F]. exists es, []. split; [reflexivity|]. intros [].
  - apply dict_get_In in Ev; [|exact string_eqb_iff]. destruct (V nm v Ev) as (x & (l1 & l2 & -> & N) & Fx). exists x. split; [|exact Fx].
    exists l1, (l2 ++ [(name, a)]). split; [now rewrite <- app_assoc|]. rewrite map_app, in_app_iff. cbn. intros [X|[X|[]]]; [tauto|]. subst nm. now rewrite String.eqb_refl in Q.
Qed.
Lemma last_named_In : forall A (es : list (string * A)) name a, last_named es name a -> In (name, a) es.
Proof. intros A es name a (l1 & l2 & -> & _). apply in_or_app. right. now left. Qed.

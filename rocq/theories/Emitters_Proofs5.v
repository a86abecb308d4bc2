(** Proofs about emitters: C99, fuel and electricity consumers. *)
From Coq Require Import PeanoNat String.
From Verif Require Import QcTac Num Time_Model Time_Spec Time_Proofs Time_Proofs2 Time_Proofs3 Units_Model Rates_Model Rates_Spec Rates_Proofs Rates_Proofs2 Rates_Proofs3 Rates_Proofs4
  Base BaseLemmas Expr_Model Vars_Model Input_Model Interp_Model Energy_Model Energy_Proofs Energy_Proofs3 Emitters_Model Emitters_Spec Emitters_Proofs Emitters_Proofs2.
Local Open Scope list_scope.
Local Open Scope Z_scope.

Lemma contiguous_cons2 : forall p q ps, contiguous (p :: q :: ps) -> p_start p < p_end p /\ p_end p = p_start q /\ contiguous (q :: ps).
Proof. intros p q ps (N & E & C). unfold nonempty in N. auto. Qed.
(** a contiguous model is in force exactly between its first start and its last end *)
Lemma contiguous_force : forall M (e : period * M) tm t, contiguous (map fst (e :: tm)) ->
  (exists m, in_force (e :: tm) t m) <-> p_start (fst e) <= t < p_end (fst (last tm e)).
Proof.
  intros M e tm t. revert e. induction tm as [|f tm IH]; intros e C.
  - cbn in C |- *. destruct C as [N _]. unfold nonempty in N. split.
    + intros (m & p & [->|[]] & I). exact I.
    + intros I. destruct e as [p m]. exists m, p. split; [now left|exact I].
  - rewrite last_shift. cbn [map] in C. apply contiguous_cons2 in C as (N & E & C'). specialize (IH f C').
    assert (p_start (fst f) < p_end (fst (last tm f))) as N2.
    { clear - C'. revert f C'. induction tm as [|g tm IH]; intros f C; [destruct C as [N _]; exact N|]. rewrite last_shift.
      apply contiguous_cons2 in C as (C1 & C2 & C3). specialize (IH g C3). lia. }
    split.
    + intros (m & p & [->|I] & T).
      * cbn [fst] in *. unfold In_period in T. lia.
      * assert (exists m, in_force (f :: tm) t m) as H by (exists m, p; split; auto). apply IH in H. lia.
    + intros H. destruct (Z.lt_ge_cases t (p_end (fst e))) as [Hl|Hl].
      * destruct e as [p m]. exists m, p. split; [now left|]. unfold In_period. cbn [fst] in *. lia.
      * destruct IH as [_ IH]. destruct IH as (m & p & I & T); [lia|]. exists m, p. split; [now right|exact T].
Qed.
Lemma fuel_covered_proof : forall F M (fuel : list (period * F)) (model : list (period * M)),
  contiguous (map fst fuel) -> contiguous (map fst model) -> fuel <> [] -> model <> [] ->
  (make_fuel_consumer fuel model = Ok tt /\ forall t m, in_force model t m -> exists f, in_force fuel t f) \/
  (make_fuel_consumer fuel model = Err ValidationError /\ exists t m, in_force model t m /\ forall f, ~ in_force fuel t f).
Proof.
  intros F M [|f fs] [|m ms] Cf Cm Nf Nm; try congruence. unfold make_fuel_consumer, temporal_model_period.
  assert (forall A (e : period * A) tm, periods_period (map fst (e :: tm)) = Ok (mkPeriod (p_start (fst e)) (p_end (fst (last tm e))))) as PP.
  { intros A e tm. unfold periods_period, last_opt. cbn [map]. do 2 f_equal. revert e. induction tm as [|x tm IH]; intros e; [reflexivity|]. cbn [map]. rewrite !last_shift. apply IH. }
  rewrite !PP. cbn [bind]. unfold contains_period. cbn [p_start p_end].
  assert (p_start (fst m) < p_end (fst (last ms m))) as N2.
  { assert (exists x, in_force (m :: ms) (p_start (fst m)) x) as H.
    { destruct m as [p x]. exists x, p. split; [now left|]. cbn [map fst] in *. destruct Cm as [N _]. unfold nonempty in N. unfold In_period. lia. }
    apply (contiguous_force _ m ms) in H; [lia|exact Cm]. }
  destruct ((p_start (fst f) <=? p_start (fst m)) && (p_start (fst m) <? p_end (fst (last ms m))) && (p_end (fst (last ms m)) <=? p_end (fst (last fs f)))) eqn:E.
  - left. split; [reflexivity|]. intros t x H. apply (contiguous_force _ f fs t Cf). assert (exists x, in_force (m :: ms) t x) as H2 by now exists x.
    apply (contiguous_force _ m ms t Cm) in H2. lia.
  - right. split; [reflexivity|].
    assert (exists t, p_start (fst m) <= t < p_end (fst (last ms m)) /\ ~ p_start (fst f) <= t < p_end (fst (last fs f))) as (t & T1 & T2).
    { destruct (Z.lt_ge_cases (p_start (fst m)) (p_start (fst f))); [exists (p_start (fst m)); lia|]. exists (p_end (fst (last ms m)) - 1). lia. }
    apply (contiguous_force _ m ms t Cm) in T1 as (x & Hx). exists t, x. split; [exact Hx|]. intros y Hy. apply T2. apply (contiguous_force _ f fs t Cf). now exists y.
Qed.
(** with a gap between the fuels the check passes although there is no fuel at some time *)
Lemma fuel_gap_refuted : exists (fuel : list (period * nat)) (model : list (period * nat)),
  temporal_model_of_periods fuel = Ok fuel /\ temporal_model_of_periods model = Ok model /\
  make_fuel_consumer fuel model = Ok tt /\ exists t m, in_force model t m /\ forall f, ~ in_force fuel t f.
Proof.
  exists [(mkPeriod 0 10, 1%nat); (mkPeriod 20 30, 2%nat)], [(mkPeriod 0 30, 7%nat)].
  do 3 (split; [reflexivity|]). exists 15, 7%nat. split.
  - exists (mkPeriod 0 30). split; [now left|]. unfold In_period. cbn. lia.
  - intros f (p & [E|[E|[]]] & I); injection E as <- <-; unfold In_period in I; cbn in I; lia.
Qed.

(** ** the series reported: values of the consumer, regularity of the same periods *)
Lemma fuel_rate_proof : forall ps vars vm reg before qs after result_periods values power u g1 gq g2,
  make_variables_map ps vars = Ok vm -> contiguous ps -> ps = before ++ qs ++ after -> qs <> [] ->
  reg = g1 ++ gq ++ g2 -> List.length g1 = List.length before -> List.length gq = List.length qs -> List.length g2 = List.length after ->
  List.length values = List.length qs ->
  fuel_consumption vm reg (mkConsumerResult result_periods (mkSeries qs values u) power) = Ok (mkRate qs values u STREAM_DAY (map Some gq)).
Proof.
  intros ps vars vm reg a qs b rp values power u g1 gq g2 Evm C Eps N Er L1 Lq L2 Lv. unfold fuel_consumption.
  rewrite (regularity_series_ok ps vars vm reg Evm) by (subst; rewrite !app_length; lia). cbn [bind cr_energy_usage]. subst ps reg. rewrite !map_app.
  apply regularity_infix; auto; now rewrite map_length.
Qed.
Lemma electricity_power_proof : forall ps vars vm reg before qs after result_periods usage values u g1 gq g2,
  make_variables_map ps vars = Ok vm -> contiguous ps -> ps = before ++ qs ++ after -> qs <> [] ->
  reg = g1 ++ gq ++ g2 -> List.length g1 = List.length before -> List.length gq = List.length qs -> List.length g2 = List.length after ->
  List.length values = List.length qs ->
  electricity_consumer_power vm reg (mkConsumerResult result_periods usage (Some (mkSeries qs values u))) = Ok (Some (mkRate qs values u STREAM_DAY (map Some gq))) /\
  electricity_consumer_power vm reg (mkConsumerResult result_periods usage None) = Ok None.
Proof.
  intros ps vars vm reg a qs b rp usage values u g1 gq g2 Evm C Eps N Er L1 Lq L2 Lv. unfold electricity_consumer_power. cbn [cr_power]. split; [|reflexivity].
  rewrite (regularity_series_ok ps vars vm reg Evm) by (subst; rewrite !app_length; lia). cbn [bind]. subst ps reg. rewrite !map_app.
  rewrite regularity_infix; auto; now rewrite map_length.
Qed.
Lemma fuel_power_proof : forall ps vars vm reg result_periods usage qs values u,
  make_variables_map ps vars = Ok vm -> contiguous ps -> ps <> [] -> List.length reg = List.length ps -> List.length values = List.length qs ->
  let reported := fuel_consumer_power vm reg (mkConsumerResult result_periods usage (Some (mkSeries qs values u))) in
  (* power in every period: reported *)
  (qs = ps -> List.length result_periods = List.length ps -> reported = Ok (Some (mkRate ps values u STREAM_DAY (map Some reg)))) /\
  (* otherwise nothing is reported *)
  (List.length qs <> List.length ps \/ List.length result_periods <> List.length qs -> reported = Ok None) /\
  fuel_consumer_power vm reg (mkConsumerResult result_periods usage None) = Ok None.
Proof.
  intros ps vars vm reg rp usage qs values u Evm C N Lr Lv reported. unfold reported, fuel_consumer_power. cbn [cr_power cr_periods s_values s_periods]. destruct (vm_fields ps vars vm Evm) as [-> _].
  split; [|split; [|reflexivity]].
  - intros -> Lp. rewrite Lv, Lp, !Nat.eqb_refl. replace (Nat.ltb 0 (List.length ps)) with true by (symmetry; apply Nat.ltb_lt; destruct ps; [congruence|cbn; lia]). cbn [andb].
    rewrite (regularity_series_ok ps vars vm reg Evm Lr). cbn [bind]. rewrite regularity_all; auto. now rewrite map_length.
  - intros H. rewrite Lv. destruct H as [H|H].
    + replace (Nat.eqb (List.length qs) (List.length ps)) with false by (symmetry; now apply Nat.eqb_neq). now rewrite andb_false_r.
    + replace (Nat.eqb (List.length rp) (List.length qs)) with false by (symmetry; now apply Nat.eqb_neq). now rewrite andb_false_r.
Qed.

(** C99: the emissions of a fuel consumer *)
Lemma fuel_emissions_proof : forall pow first rest vars vm (tm : list (period * fuel_type)) fuel result_periods power u reg,
  let ps := first :: rest in
  let n := List.length ps in
  make_variables_map ps vars = Ok vm -> contiguous ps ->
  (forall r l, dict_get String.eqb r vars = Some l -> List.length l = n) ->
  disjoint_entries tm -> (forall e, In e tm -> nonempty (fst e)) ->
  (forall q m, In (q, m) tm -> no_cut ps (p_start q) /\ no_cut ps (p_end q)) ->
  (forall q m, In (q, m) tm -> NoDup (map fst m)) ->
  (forall q m name ts, In (q, m) tm -> In (name, ts) m -> exists v, evaluate pow ts vars n = Ok v) ->
  List.length fuel = n -> List.length reg = n ->
  exists d, fuel_consumer_emissions pow vm reg tm (mkConsumerResult result_periods (mkSeries ps fuel u) power) = Ok d /\
    NoDup (map fst d) /\
    (forall name, In name (map fst d) <-> exists q m, In (q, m) tm /\ In name (map fst m)) /\
    forall name s, In (name, s) d ->
      r_periods s = ps /\ r_unit s = TONS_PER_DAY /\ r_type s = STREAM_DAY /\ r_regularity s = map Some reg /\ List.length (r_values s) = n /\
      forall k p, nth_error ps k = Some p ->
        (forall t m ts, In_period t p -> in_force tm t m -> In (name, ts) m ->
           exists f x, evaluates_at pow vars n ts k x /\ nth_error fuel k = Some f /\
             nth_error (r_values s) k = Some (nmul f (Some (x / qz 1000)%Qc))) /\
        ((forall t m, In_period t p -> in_force tm t m -> ~ In name (map fst m)) -> nth_error (r_values s) k = Some (Some 0%Qc)).
Proof.
  intros pow first rest vars vm tm fuel rp power u reg ps n Evm C Lvars D NE NC ND EV Lf Lr.
  destruct (emissions_proof pow first rest vars vm tm fuel Evm C Lvars D NE NC ND EV Lf) as (d & Ed & NDd & K & V).
  assert (ps <> []) as N by discriminate. destruct (vm_fields ps vars vm Evm) as [Vp _].
  unfold fuel_consumer_emissions, fuel_consumption. rewrite (regularity_series_ok ps vars vm reg Evm Lr). cbn [bind cr_energy_usage].
  rewrite regularity_all; auto; [|now rewrite map_length]. cbn [bind r_values]. rewrite Ed. cbn [bind].
  assert (mapM (fun e : string * list num => bind (make_series (vm_periods vm) (snd e) TONS_PER_DAY) (fun s => Ok (fst e, s))) d = Ok (map (fun e => (fst e, mkSeries ps (snd e) TONS_PER_DAY)) d)) as ->.
  { rewrite Vp. assert (forall name vs, In (name, vs) d -> List.length vs = n) as Ls by (intros name vs I; now destruct (V name vs I)). clear - Ls.
    induction d as [|[name vs] d IH]; [reflexivity|]. cbn [mapM map fst snd]. unfold make_series at 1. rewrite (Ls name vs (or_introl eq_refl)). fold n. rewrite Nat.eqb_refl. cbn [bind].
    rewrite IH; [reflexivity|]. intros nm v I. apply (Ls nm). now right. }
  cbn [bind]. rewrite (with_regularity_ok ps vars vm reg _ Evm C N Lr).
  2:{ intros name s I. apply in_map_iff in I as ([nm vs] & E & I). injection E as <- <-. cbn [s_periods s_unit s_values snd]. destruct (V nm vs I) as [L _]. auto. }
  eexists. split; [reflexivity|]. rewrite !map_map. cbn [fst snd]. split; [exact NDd|]. split; [exact K|].
  intros name s I. apply in_map_iff in I as ([nm vs] & E & I). cbn [fst snd s_values] in E. injection E as <- <-. cbn [r_periods r_unit r_type r_regularity r_values].
  destruct (V nm vs I) as [L H]. do 4 (split; [reflexivity|]). split; [exact L|]. intros k p P. destruct (H k p P) as [H1 H2]. split; [|exact H2].
  intros t m ts T1 T2 T3. destruct (H1 t m ts T1 T2 T3) as (v & f & x & A1 & A2 & A3 & A4). exists f, x. split; [exists v; split; assumption|]. split; assumption.
Qed.

(** Proofs about consumers whose power is not their energy usage: the result in terms of the models in force. *)
From Coq Require Import PeanoNat String.
From Verif Require Import Attributes_Proofs Attributes_Proofs2 QcTac Num Time_Model Time_Spec Time_Proofs Time_Proofs2 Units_Model Rates_Model Rates_Spec Rates_Proofs Rates_Proofs3 Rates_Proofs4
  Base BaseLemmas Expr_Model Expr_Spec Expr_Proofs Vars_Model Vars_Proofs Input_Model Interp_Model Energy_Model Energy_Proofs Energy_Proofs2 Energy_Proofs3 Export_Proofs2 Emitters_Proofs5 Emitters_Spec
  Consumer_Model Consumer_Spec Consumer_Proofs Consumer_Proofs2 Consumer_Proofs3 Consumer_Proofs4 Consumer_Proofs5 Consumer_Proofs6 Consumer_Proofs7 Equipment_Model Equipment_Spec.
Local Open Scope list_scope.
Local Open Scope Z_scope.

(** ** Views of the results *)
Lemma attribute_series_map : forall R R' V (h : R -> R') periods attribute unit allow (fill : V) rs acc,
  attribute_series periods attribute unit allow fill (map h rs) acc =
  attribute_series (fun r => periods (h r)) (fun r => attribute (h r)) (fun r => unit (h r)) allow fill rs acc.
Proof.
  intros R R' V h periods attribute unit allow fill rs. induction rs as [|r rs IH]; intros acc; [reflexivity|]. cbn [map attribute_series].
  destruct (attribute (h r)); [|destruct allow; [reflexivity|]]; destruct (make_series _ _ _); cbn [bind]; auto.
Qed.
Lemma concatenated_map : forall R R' V (h : R -> R') periods attribute unit allow (fill : V) rs all,
  concatenated periods attribute unit allow fill (map h rs) all =
  concatenated (fun r => periods (h r)) (fun r => attribute (h r)) (fun r => unit (h r)) allow fill rs all.
Proof. intros. unfold concatenated. now rewrite attribute_series_map. Qed.
Lemma attribute_series_ext : forall R V (periods : R -> list period) a1 a2 unit allow1 allow2 (fill : V) rs acc,
  (forall r, In r rs -> exists v, a1 r = Some v /\ a2 r = Some v) ->
  attribute_series periods a1 unit allow1 fill rs acc = attribute_series periods a2 unit allow2 fill rs acc.
Proof.
  intros R V periods a1 a2 unit allow1 allow2 fill rs. induction rs as [|r rs IH]; intros acc H; [reflexivity|]. cbn [attribute_series].
  destruct (H r (or_introl eq_refl)) as (v & -> & ->). destruct (make_series _ _ _); cbn [bind]; [|reflexivity]. apply IH. intros x I. apply H. now right.
Qed.
Lemma attribute_series_none : forall R V (periods : R -> list period) a unit (fill : V) rs acc r,
  (forall x, In x rs -> forall v, a x = Some v -> exists s, make_series (periods x) v (unit x) = Ok s) -> In r rs -> a r = None ->
  attribute_series periods a unit true fill rs acc = Ok None.
Proof.
  intros R V periods a unit fill rs. induction rs as [|x rs IH]; intros acc r H I E; [destruct I|]. cbn [attribute_series].
  destruct (a x) as [v|] eqn:Ex; [|reflexivity]. destruct (H x (or_introl eq_refl) v Ex) as (s & ->). cbn [bind]. destruct I as [->|I]; [congruence|]. apply (IH _ r); auto. intros y Iy. apply H. now right.
Qed.
Definition energy_view (r : function_result) : function_result := mkFR (fr_periods r) (fr_energy r) (fr_unit r) None (fr_valid r).
Definition power_view (r : function_result) : function_result :=
  mkFR (fr_periods r) (match fr_power r with Some p => p | None => fr_energy r end) MEGA_WATT None (fr_valid r).

Section View.
  Context {M : Type}.
  Variable pow : Qc -> Qc -> Qc.
  Variable evaluate : M -> list Qc -> variables_map -> result function_result.
  Variable view : function_result -> function_result.
  Definition viewed (m : M) (g : list Qc) (sub : variables_map) : result function_result := bind (evaluate m g sub) (fun r => Ok (view r)).
  Lemma mapM_view : forall A (f : A -> result function_result) l,
    mapM (fun x => bind (f x) (fun r => Ok (view r))) l = bind (mapM f l) (fun rs => Ok (map view rs)).
  Proof.
    intros A f l. induction l as [|x l IH]; [reflexivity|]. cbn [mapM]. rewrite IH. destruct (f x); cbn [bind]; [|reflexivity]. now destruct (mapM f l).
  Qed.
  Lemma results_view : forall input vm data target,
    model_results pow viewed input vm data target = bind (model_results pow evaluate input vm data target) (fun o => Ok (option_map (map view) o)).
  Proof.
    intros input vm data target. unfold model_results, viewed. destruct (mapM _ (define_time_model_for_period data target)) as [subsets|]; cbn [bind]; [|reflexivity].
    destruct (define_time_model_for_period data target) as [|a l]; [reflexivity|]. destruct (temporal_model_of_periods _); cbn [bind]; [|reflexivity].
    rewrite (mapM_view _ (fun e : M * (list Qc * variables_map) => evaluate (fst e) (fst (snd e)) (snd (snd e)))). now destruct (mapM _ subsets).
  Qed.
End View.

Section General2.
  Context {M : Type}.
  Variable pow : Qc -> Qc -> Qc.
  Variable evaluate : M -> list Qc -> variables_map -> result function_result.
  Variables (first : period) (rest : list period) (vars : variables_dict) (vm : variables_map).
  Let ps := first :: rest.
  Let n := List.length ps.
  Variables (input : option (temporal_data expression_input)) (g : list Qc) (data : temporal_data M) (target : period).
  Hypothesis Evm : make_variables_map ps vars = Ok vm.
  Hypothesis S : consumer_setting pow first rest vars input data target.
  Hypothesis Eg : regularity_values pow input (whole_of first rest) vm = Ok g.
  Variables (consumes : energy_usage_type) (SPEC : M -> nat -> num -> bool -> Prop) (SPECP : M -> nat -> num -> Prop) (has_power : M -> bool).
  Definition part_result2 (m : M) (i j : nat) (r : function_result) : Prop :=
    fr_periods r = slice i j ps /\ fr_unit r = usage_unit consumes /\ List.length (fr_energy r) = (j - i)%nat /\ List.length (fr_valid r) = (j - i)%nat /\
    (forall k e v, nth_error (fr_energy r) k = Some e -> nth_error (fr_valid r) k = Some v -> SPEC m (i + k) e v) /\
    (if has_power m then exists pw, fr_power r = Some pw /\ List.length pw = (j - i)%nat /\ forall k w, nth_error pw k = Some w -> SPECP m (i + k) w
     else fr_power r = None).
  Hypothesis Ev : forall m i j sub, In m (data_models data) -> (i < j)%nat -> (j <= n)%nat -> get_subset vm i j = Ok sub ->
    (forall k, (i <= k < j)%nat -> in_force_at ps data target k m) -> exists r, evaluate m (slice i j g) sub = Ok r /\ part_result2 m i j r.

  (** one view of the results, as a consumer of fuel *)
  Lemma view_core : forall view U (SP : M -> nat -> num -> bool -> Prop),
    (forall m i j r, (i < j)%nat -> part_result2 m i j r -> (forall k, (i <= k < j)%nat -> in_force_at ps data target k m) ->
       fr_periods (view r) = slice i j ps /\ fr_unit (view r) = U /\ List.length (fr_energy (view r)) = (j - i)%nat /\ List.length (fr_valid (view r)) = (j - i)%nat /\ fr_power (view r) = None /\
       forall k e v, nth_error (fr_energy (view r)) k = Some e -> nth_error (fr_valid (view r)) k = Some v -> SP m (i + k)%nat e v) ->
    (exists k m, in_force_at ps data target k m) ->
    exists s, evaluate_consumer pow (viewed evaluate view) input vm data target = Ok (Some s) /\
      s_periods (cs_energy s) = ps /\ s_unit (cs_energy s) = U /\ List.length (s_values (cs_energy s)) = n /\
      s_periods (cs_valid s) = ps /\ List.length (s_values (cs_valid s)) = n /\
      forall k, (k < n)%nat -> exists e v, nth_error (s_values (cs_energy s)) k = Some e /\ nth_error (s_values (cs_valid s)) k = Some v /\
        (forall m, in_force_at ps data target k m -> SP m k e v) /\
        ((forall m, ~ in_force_at ps data target k m) -> e = Some 0%Qc /\ v = true).
  Proof.
    intros view U SP Hv (k0 & m0 & p0 & d0 & _ & _ & D0 & F0). pose proof S as (C & Mx & Un & Rok & NP & W & N & T1 & T2 & NC).
    destruct (consumer_core pow (viewed evaluate view) first rest vars vm Evm C Un Mx input g Rok Eg data target NP W N T1 T2 NC U false SP) as [H _].
    { intros m i j sub Im L1 L2 Es Hf.
      assert (forall k, (i <= k < j)%nat -> in_force_at ps data target k m) as Hf'.
      { intros k Hk. destruct (nth_error ps k) as [p|] eqn:K; [|apply nth_error_None in K; unfold n, ps in *; lia].
        assert (In_period (p_start p) p) as Dp. { pose proof (contiguous_nonempty _ _ C (nth_error_In _ _ K)) as Np. unfold nonempty in Np. unfold In_period. lia. }
        destruct (Hf k p _ Hk K Dp) as [A B]. exists p, (p_start p). auto. }
      destruct (Ev m i j sub Im L1 L2 Es Hf') as (r & Er & Pr). exists (view r). split; [unfold viewed; now rewrite Er|].
      destruct (Hv m i j r L1 Pr Hf') as (V1 & V2 & V3 & V4 & V5 & V6). split; [exact V1|]. split; [exact V2|]. split; [exact V3|]. split; [exact V4|]. split; [exact V5|exact V6]. }
    { discriminate. }
    destruct H as (s & Es & A1 & A2 & A3 & A4 & A5 & A6 & A7); [exists d0, m0; auto|]. exists s. split; [exact Es|].
    split; [exact A1|]. split; [exact A2|]. split; [exact A3|]. split; [exact A4|]. split; [exact A5|].
    intros k L. destruct (nth_error ps k) as [p|] eqn:K; [|apply nth_error_None in K; unfold n, ps in *; lia].
    assert (In_period (p_start p) p) as Dp. { pose proof (contiguous_nonempty _ _ C (nth_error_In _ _ K)) as Np. unfold nonempty in Np. unfold In_period. lia. }
    destruct (A7 k p K) as [B1 B2]. destruct (in_force_at_decide pow first rest vars input data target S k L) as [(m & F)|F].
    - destruct (in_force_all pow first rest vars input data target S k m p _ F K Dp) as [Dt Df]. destruct (B1 _ m Dp Dt Df) as (e & v & E1 & E2 & _). exists e, v. split; [exact E1|]. split; [exact E2|]. split; [|intros H; destruct (H m F)].
      intros m' F'. destruct (in_force_all pow first rest vars input data target S k m' p _ F' K Dp) as [Dt' Df']. destruct (B1 _ m' Dp Dt' Df') as (e' & v' & E1' & E2' & Sp). congruence.
    - destruct B2 as [E1 E2]. { intros d m D [D1 D2]. apply (F m). exists p, d. auto. }
      exists (Some 0%Qc), true. split; [exact E1|]. split; [exact E2|]. split; [intros m H; destruct (F m H)|auto].
  Qed.
  (** every result comes from a part of the run where its model is in force, and every model in force has a result *)
  Lemma results_parts : forall rs, model_results pow evaluate input vm data target = Ok (Some rs) ->
    (forall r, In r rs -> exists m i j, (i < j)%nat /\ (j <= n)%nat /\ (forall k, (i <= k < j)%nat -> in_force_at ps data target k m) /\ part_result2 m i j r) /\
    (forall k m, in_force_at ps data target k m -> exists r i j, In r rs /\ (i <= k < j)%nat /\ (j <= n)%nat /\ part_result2 m i j r).
  Proof.
    pose proof S as (C & Mx & Un & Rok & NP & W & N & T1 & T2 & NC). intros rs Ers.
    destruct (entries_placed first rest C Mx data target NP W N T1 T2 NC) as (ijs & P & _). destruct (adjusted_facts M data target NP W N) as [_ F]; [lia|].
    assert (temporal_model_of_periods (define_time_model_for_period data target) = Ok (define_time_model_for_period data target)) as AS by exact (adjusted_sorted first rest data target NP W N NC).
    assert (forall d m, In_period d target /\ data_in_force data d m <-> exists q, In (q, m) (define_time_model_for_period data target) /\ In_period d q) as IE by (intros d m; symmetry; apply (define_time_model_proof M data target W N d m)).
    unfold model_results in Ers. set (adjusted := define_time_model_for_period data target) in *.
    assert (exists subsets, mapM (fun e => bind (period_subset pow input vm (fst e)) (fun s => Ok (snd e, s))) adjusted = Ok subsets /\ Forall2 (part first rest vm g) adjusted subsets) as (subsets & Es & Fs).
    { assert (Forall2 (fun e ij => placed ps (fst e) ij) adjusted ijs) as P'. { clear -P. revert ijs P. induction adjusted as [|e l IH]; intros ijs P; inversion P; subst; constructor; auto. }
      clear -P' Evm C Un Mx Rok Eg. induction P' as [|e ij l ijs Pq P' IH]; [exists []; split; [reflexivity|constructor]|].
      destruct IH as (ss & A & B). destruct (subset_of_entry pow first rest vars vm Evm C Un Mx input g Rok Eg e ij Pq) as (s & E1 & E2 & E3 & E4).
      exists (s :: ss). cbn [mapM]. rewrite E1. cbn [bind]. rewrite A. cbn [bind]. split; [reflexivity|]. constructor; [|exact B]. split; [exact E2|]. exists ij. auto. }
    assert (forall e s, In e adjusted -> part first rest vm g e s -> exists i j r, (i < j)%nat /\ (j <= n)%nat /\ evaluate (fst s) (fst (snd s)) (snd (snd s)) = Ok r /\ part_result2 (snd e) i j r /\
      (forall k, (i <= k < j)%nat -> in_force_at ps data target k (snd e)) /\ forall k p d, nth_error ps k = Some p -> In_period d p -> In_period d (fst e) -> (i <= k < j)%nat) as G.
    { intros [q m] s I [E1 (ij & Pq & E2 & E3)]. cbn [fst snd] in *. pose proof Pq as (_ & L1 & L2 & _).
      assert (forall k, (fst ij <= k < snd ij)%nat -> in_force_at ps data target k m) as Hf.
      { intros k Hk. destruct (nth_error ps k) as [p|] eqn:K; [|apply nth_error_None in K; unfold ps in *; lia].
        assert (In_period (p_start p) p) as Dp. { pose proof (contiguous_nonempty _ _ C (nth_error_In _ _ K)) as Np. unfold nonempty in Np. unfold In_period. lia. }
        destruct (placed_inside first rest C q ij k p Pq K) as [H _]. specialize (H Hk _ Dp). destruct (proj2 (IE (p_start p) m)) as [A B]; [exists q; auto|]. exists p, (p_start p). auto. }
      destruct (Ev m (fst ij) (snd ij) (snd (snd s)) (proj1 (proj2 (proj2 (F q m I)))) L1 L2 E3 Hf) as (r & Er & Pr).
      exists (fst ij), (snd ij), r. split; [exact L1|]. split; [exact L2|]. split; [rewrite E1, E2; exact Er|]. split; [exact Pr|]. split; [exact Hf|].
      intros k p d K D1' D2'. destruct (placed_inside first rest C q ij k p Pq K) as [_ H]. now apply (H d). }
    rewrite Es in Ers. cbn [bind] in Ers. rewrite AS in Ers. cbn [bind] in Ers.
    assert (mapM (fun e : M * (list Qc * variables_map) => evaluate (fst e) (fst (snd e)) (snd (snd e))) subsets = Ok rs) as Em.
    { destruct adjusted; [discriminate|]. destruct (mapM _ subsets); cbn [bind] in Ers; [congruence|discriminate]. }
    apply mapM_Ok in Em. split.
    - intros r Ir. destruct (forall2_in_r _ _ _ _ _ _ Em Ir) as (s & Is & Er). destruct (forall2_in_r _ _ _ _ _ _ Fs Is) as (e & Ie & Pe).
      destruct (G e s Ie Pe) as (i & j & r' & L1 & L2 & Er' & Pr & Hf & _). cbv beta in Er. assert (r' = r) as -> by congruence. exists (snd e), i, j. auto.
    - intros k m (p & d & K & D1 & D2 & D3). destruct (proj1 (IE d m) (conj D2 D3)) as (q & I & Q). destruct (forall2_in_l _ _ _ _ _ _ Fs I) as (s & Is & Ps).
      destruct (forall2_in_l _ _ _ _ _ _ Em Is) as (r & Ir & Er). destruct (G (q, m) s I Ps) as (i & j & r' & L1 & L2 & Er' & Pr & _ & H). cbv beta in Er. assert (r' = r) as -> by congruence.
      exists r, i, j. split; [exact Ir|]. split; [apply (H k p d K D1 Q)|]. auto.
  Qed.

  Lemma equipment_general : (exists k m, in_force_at ps data target k m) ->
    exists s, evaluate_consumer pow evaluate input vm data target = Ok (Some s) /\ equipment_result ps consumes data target SPEC SPECP has_power s.
  Proof.
    intros Ex. pose proof S as (C & Mx & Un & Rok & NP & W & N & T1 & T2 & NC).
    assert (vm_periods vm = ps) as Vps. { clear -Evm. unfold make_variables_map in Evm. destruct (all_dates ps); cbn [bind] in Evm; [|discriminate]. injection Evm as <-. reflexivity. }
    destruct (view_core energy_view (usage_unit consumes) SPEC) as (se & Ese & A1 & A2 & A3 & A4 & A5 & A6); [|exact Ex|].
    { intros m i j r L (R1 & R2 & R3 & R4 & R5 & _) _. cbn [energy_view fr_periods fr_unit fr_energy fr_valid fr_power]. split; [exact R1|]. split; [exact R2|]. split; [exact R3|]. split; [exact R4|]. split; [reflexivity|exact R5]. }
    unfold evaluate_consumer in Ese. rewrite results_view in Ese.
    destruct (model_results pow evaluate input vm data target) as [[rs|]|] eqn:Ers; cbn [bind option_map] in Ese; try discriminate.
    destruct (results_parts rs Ers) as [P1 P2].
    assert (result_energy rs ps = Ok (Some (cs_energy se)) /\ result_valid rs ps = Ok (Some (cs_valid se))) as [Ee Evv].
    { rewrite Vps in Ese. unfold consumer_series_of, result_energy, result_power, result_valid in Ese. rewrite !concatenated_map in Ese. unfold result_energy, result_valid. cbn [energy_view fr_periods fr_unit fr_energy fr_valid fr_power] in Ese.
      destruct (concatenated fr_periods (fun r => Some (fr_energy r)) fr_unit false (Some 0%Qc) rs ps) as [[e|]|]; cbn [bind] in Ese; try discriminate;
      destruct (concatenated _ _ _ true _ _ _) as [w|]; cbn [bind] in Ese; try discriminate;
      destruct (concatenated fr_periods (fun r => Some (fr_valid r)) (fun _ => NONE) false true rs ps) as [[v|]|]; cbn [bind] in Ese; try discriminate.
      injection Ese as <-. cbn [cs_energy cs_valid]. auto. }
    assert (forall w, result_power rs ps = Ok w -> evaluate_consumer pow evaluate input vm data target = Ok (Some (mkCS (cs_energy se) w (cs_valid se)))) as Run.
    { intros w Ew. unfold evaluate_consumer. rewrite Ers. cbn [bind]. unfold consumer_series_of. rewrite Vps, Ee, Ew, Evv. reflexivity. }
    assert (forall r, In r rs -> match fr_power r with Some pw => List.length pw = List.length (fr_periods r) /\ fr_periods r <> [] | None => True end) as Lp.
    { intros r I. destruct (P1 r I) as (m & i & j & L1 & L2 & _ & R1 & _ & _ & _ & _ & R6). destruct (has_power m).
      - destruct R6 as (pw & -> & Lpw & _). assert (List.length (fr_periods r) = (j - i)%nat) as Lr by (rewrite R1; now apply slice_length). split; [congruence|]. intros E. rewrite E in Lr. cbn [List.length] in Lr. lia.
      - now rewrite R6. }
    assert ((exists r, In r rs /\ fr_power r = None) \/ forall r, In r rs -> fr_power r <> None) as [(r0 & I0 & N0)|All].
    { clear. induction rs as [|r l IH]; [right; intros r []|]. destruct (fr_power r) as [p|] eqn:E; [|left; exists r; split; [now left|exact E]].
      destruct IH as [(r0 & I & N)|H]; [left; exists r0; split; [now right|exact N]|]. right. intros x [<-|I]; [congruence|now apply H]. }
    - assert (result_power rs ps = Ok None) as Ew.
      { unfold result_power, concatenated. rewrite (attribute_series_none _ _ _ _ _ _ rs [] r0); [reflexivity| |exact I0|exact N0].
        intros x Ix v Ex'. specialize (Lp x Ix). rewrite Ex' in Lp. destruct Lp as [Lv _]. unfold make_series. rewrite Lv, Nat.eqb_refl. eauto. }
      exists (mkCS (cs_energy se) None (cs_valid se)). split; [now apply Run|]. split; [exact A1|]. split; [exact A4|]. split; [exact A2|]. split; [exact A3|]. split; [exact A5|]. split; [exact A6|]. split; [reflexivity|].
      intros H. exfalso. destruct (P1 r0 I0) as (m & i & j & L1 & L2 & Hf & _ & _ & _ & _ & _ & R6). rewrite (H i m (Hf i ltac:(lia))) in R6. destruct R6 as (pw & E & _). congruence.
    - destruct (view_core power_view MEGA_WATT (fun m k w _ => has_power m = true -> SPECP m k w)) as (sp & Esp & B1 & B2 & B3 & B4 & B5 & B6); [|exact Ex|].
      { intros m i j r L (R1 & R2 & R3 & R4 & R5 & R6) Hf. cbn [power_view fr_periods fr_unit fr_energy fr_valid fr_power]. split; [exact R1|]. split; [reflexivity|]. split; [|split; [exact R4|split; [reflexivity|]]].
        - destruct (has_power m); [destruct R6 as (pw & -> & Lpw & _); exact Lpw|]. rewrite R6. exact R3.
        - intros k e v Ke _ Hp. rewrite Hp in R6. destruct R6 as (pw & E & _ & H). rewrite E in Ke. now apply H. }
      unfold evaluate_consumer in Esp. rewrite results_view, Ers in Esp. cbn [bind option_map] in Esp.
      assert (result_power rs ps = Ok (Some (cs_energy sp))) as Ew.
      { rewrite Vps in Esp. unfold consumer_series_of, result_energy, result_power, result_valid in Esp. rewrite !concatenated_map in Esp. cbn [power_view fr_periods fr_unit fr_energy fr_valid fr_power] in Esp.
        assert (result_power rs ps = concatenated fr_periods (fun r => Some (match fr_power r with Some p => p | None => fr_energy r end)) (fun _ => MEGA_WATT) false (Some 0%Qc) rs ps) as Eq.
        { unfold result_power, concatenated. rewrite (attribute_series_ext _ _ fr_periods fr_power (fun r => Some (match fr_power r with Some p => p | None => fr_energy r end)) (fun _ => MEGA_WATT) true false); [reflexivity|].
          intros r I. specialize (All r I). destruct (fr_power r) as [pw|]; [exists pw; auto|congruence]. }
        rewrite Eq.
        destruct (concatenated fr_periods (fun r => Some (match fr_power r with Some p => p | None => fr_energy r end)) _ false (Some 0%Qc) rs ps) as [[e|]|]; cbn [bind] in Esp; try discriminate;
        destruct (concatenated _ _ _ true _ _ _) as [w|]; cbn [bind] in Esp; try discriminate;
        destruct (concatenated _ _ _ false true _ _) as [[v|]|]; cbn [bind] in Esp; try discriminate.
        injection Esp as <-. reflexivity. }
      exists (mkCS (cs_energy se) (Some (cs_energy sp)) (cs_valid se)). split; [now apply Run|]. split; [exact A1|]. split; [exact A4|]. split; [exact A2|]. split; [exact A3|]. split; [exact A5|]. split; [exact A6|]. split.
      + intros (k & m & F & H). exfalso. destruct (P2 k m F) as (r & i & j & Ir & _ & _ & _ & _ & _ & _ & _ & R6). rewrite H in R6. now apply (All r Ir).
      + intros H. exists (cs_energy sp). split; [reflexivity|]. split; [exact B1|]. split; [exact B2|]. split; [exact B3|]. intros k L. destruct (B6 k L) as (w & v & K1 & _ & K3 & K4). exists w. split; [exact K1|]. split.
        * intros m F. apply (K3 m F). now apply (H k).
        * intros Nf. now apply K4.
  Qed.
End General2.

(** Proofs about consumers: results in terms of the models in force in each period; direct consumers. *)
From Coq Require Import PeanoNat String.
From Verif Require Import Attributes_Proofs Attributes_Proofs2 QcTac Num Time_Model Time_Spec Time_Proofs Time_Proofs2 Units_Model Rates_Model Rates_Spec Rates_Proofs Rates_Proofs3 Rates_Proofs4
  Base BaseLemmas Expr_Model Expr_Spec Expr_Proofs Vars_Model Vars_Proofs Input_Model Interp_Model Energy_Model Energy_Proofs Energy_Proofs2 Energy_Proofs3 Export_Proofs2 Emitters_Proofs5 Emitters_Spec
  Consumer_Model Consumer_Spec Consumer_Proofs Consumer_Proofs2 Consumer_Proofs3 Consumer_Proofs4 Consumer_Proofs5 Consumer_Proofs6.
Local Open Scope list_scope.
Local Open Scope Z_scope.

Lemma contiguous_covers : forall rest first d, contiguous (first :: rest) -> p_start first <= d -> d < p_end (last rest first) -> exists k p, nth_error (first :: rest) k = Some p /\ In_period d p.
Proof.
  induction rest as [|q rest IH]; intros first d C L1 L2.
  - exists 0%nat, first. cbn [last] in L2. split; [reflexivity|]. unfold In_period. lia.
  - destruct (Z_lt_ge_dec d (p_end first)) as [L|L]; [exists 0%nat, first; split; [reflexivity|unfold In_period; lia]|].
    apply contiguous_cons2 in C as (_ & E & C). rewrite last_shift in L2. destruct (IH q d C) as (k & p & K & D); [lia|exact L2|]. exists (S k), p. auto.
Qed.

Section General.
  Context {M : Type}.
  Variable pow : Qc -> Qc -> Qc.
  Variable evaluate : M -> list Qc -> variables_map -> result function_result.
  Variables (first : period) (rest : list period) (vars : variables_dict) (vm : variables_map).
  Let ps := first :: rest.
  Let n := List.length ps.
  Variables (input : option (temporal_data expression_input)) (g : list Qc) (data : temporal_data M) (target : period).
  Hypothesis Evm : make_variables_map ps vars = Ok vm.
  Hypothesis S : consumer_setting pow first rest vars input data target.
  Hypothesis Eg : regularity_values pow input (whole_of first rest) vm = Ok g.

  (** in force in an instant of a period of the run is in force in all *)
  Lemma in_force_all : forall k m p d, in_force_at ps data target k m -> nth_error ps k = Some p -> In_period d p -> In_period d target /\ data_in_force data d m.
  Proof.
    destruct S as (C & Mx & Un & Rok & NP & W & N & T1 & T2 & NC). intros k m p d (p' & d' & K' & D1 & D2 & D3) K D. fold ps in NC. rewrite K in K'. injection K' as <-.
    assert (p_end p <= p_end (last rest first)) as Bp.
    { pose proof (contiguous_nonempty _ _ C (nth_error_In _ _ K)) as Np. unfold nonempty in Np.
      pose proof (contiguous_bounds _ _ _ (p_end p - 1) _ C K ltac:(unfold In_period; lia)) as B. rewrite last_shift in B. lia. }
    split.
    - pose proof (NC (p_start target) p (or_introl eq_refl) (nth_error_In _ _ K)). pose proof (NC (p_end target) p (or_intror (or_introl eq_refl)) (nth_error_In _ _ K)). unfold In_period in *. lia.
    - apply (in_force_period M data p d d' m D3 D D1); [lia|]. intros t I. apply NC; auto. apply (nth_error_In _ _ K).
  Qed.
  Lemma in_force_at_decide : forall k, (k < n)%nat -> (exists m, in_force_at ps data target k m) \/ (forall m, ~ in_force_at ps data target k m).
  Proof.
    pose proof S as (C & Mx & Un & Rok & NP & W & N & T1 & T2 & NC). intros k L. destruct (nth_error ps k) as [p|] eqn:K; [|apply nth_error_None in K; unfold n in L; lia].
    assert (In_period (p_start p) p) as Dp. { pose proof (contiguous_nonempty _ _ C (nth_error_In _ _ K)) as Np. unfold nonempty in Np. unfold In_period. lia. }
    assert (In_period (p_start p) target \/ ~ In_period (p_start p) target) as [Dt|Dt] by (unfold In_period; lia).
    - destruct (in_force_decide M data target _ W N Dt) as [(m & H)|H]; [left; exists m, p, (p_start p); auto|]. right. intros m I. destruct (in_force_all k m p _ I K Dp) as [_ F]. now apply (H m).
    - right. intros m I. now destruct (in_force_all k m p _ I K Dp).
  Qed.

  Variables (consumes : energy_usage_type) (SPEC : M -> nat -> num -> bool -> Prop).
  Definition part_result (m : M) (i j : nat) (r : function_result) : Prop :=
    fr_periods r = slice i j ps /\ fr_unit r = usage_unit consumes /\ List.length (fr_energy r) = (j - i)%nat /\ List.length (fr_valid r) = (j - i)%nat /\
    fr_power r = (match consumes with POWER => Some (fr_energy r) | FUEL => None end) /\
    forall k e v, nth_error (fr_energy r) k = Some e -> nth_error (fr_valid r) k = Some v -> SPEC m (i + k) e v.
  Hypothesis Ev : forall m i j sub, In m (data_models data) -> (i < j)%nat -> (j <= n)%nat -> get_subset vm i j = Ok sub ->
    (forall k, (i <= k < j)%nat -> in_force_at ps data target k m) -> exists r, evaluate m (slice i j g) sub = Ok r /\ part_result m i j r.
  Lemma consumer_general : (exists k m, in_force_at ps data target k m) ->
    exists s, evaluate_consumer pow evaluate input vm data target = Ok (Some s) /\ consumer_result ps consumes data target SPEC s.
  Proof.
    pose proof S as (C & Mx & Un & Rok & NP & W & N & T1 & T2 & NC). intros (k0 & m0 & p0 & d0 & _ & _ & D0 & F0).
    destruct (consumer_core pow evaluate first rest vars vm Evm C Un Mx input g Rok Eg data target NP W N T1 T2 NC (usage_unit consumes) (match consumes with POWER => true | FUEL => false end) SPEC) as [H _].
    { intros m i j sub Im L1 L2 Es Hf. destruct (Ev m i j sub Im L1 L2 Es) as (r & Er & R1 & R2 & R3 & R4 & R5 & R6).
      { intros k Hk. destruct (nth_error ps k) as [p|] eqn:K; [|apply nth_error_None in K; unfold n, ps in *; lia].
        assert (In_period (p_start p) p) as Dp. { pose proof (contiguous_nonempty _ _ C (nth_error_In _ _ K)) as Np. unfold nonempty in Np. unfold In_period. lia. }
        destruct (Hf k p _ Hk K Dp) as [A B]. exists p, (p_start p). auto. }
      exists r. split; [exact Er|]. split; [exact R1|]. split; [exact R2|]. split; [exact R3|]. split; [exact R4|]. split; [now destruct consumes|exact R6]. }
    { now destruct consumes. }
    destruct H as (s & Es & A1 & A2 & A3 & A4 & A5 & A6 & A7); [exists d0, m0; auto|]. exists s. split; [exact Es|].
    split; [exact A1|]. split; [exact A4|]. split; [exact A2|]. split; [rewrite A6; now destruct consumes|]. split; [exact A3|]. split; [exact A5|].
    intros k L. destruct (nth_error ps k) as [p|] eqn:K; [|apply nth_error_None in K; unfold ps in *; lia].
    assert (In_period (p_start p) p) as Dp. { pose proof (contiguous_nonempty _ _ C (nth_error_In _ _ K)) as Np. unfold nonempty in Np. unfold In_period. lia. }
    destruct (A7 k p K) as [B1 B2]. destruct (in_force_at_decide k L) as [(m & F)|F].
    - destruct (in_force_all k m p _ F K Dp) as [Dt Df]. destruct (B1 _ m Dp Dt Df) as (e & v & E1 & E2 & _). exists e, v. split; [exact E1|]. split; [exact E2|]. split; [|intros H; destruct (H m F)].
      intros m' F'. destruct (in_force_all k m' p _ F' K Dp) as [Dt' Df']. destruct (B1 _ m' Dp Dt' Df') as (e' & v' & E1' & E2' & Sp). congruence.
    - destruct B2 as [E1 E2]. { intros d m D [D1 D2]. apply (F m). exists p, d. auto. }
      exists (Some 0%Qc), true. split; [exact E1|]. split; [exact E2|]. split; [intros m H; destruct (F m H)|auto].
  Qed.
End General.

Section None.
  Context {M : Type}.
  Variable pow : Qc -> Qc -> Qc.
  Variable evaluate : M -> list Qc -> variables_map -> result function_result.
  Variables (first : period) (rest : list period) (vars : variables_dict) (vm : variables_map).
  Let ps := first :: rest.
  Let n := List.length ps.
  Variables (input : option (temporal_data expression_input)) (g : list Qc) (data : temporal_data M) (target : period).
  Hypothesis Evm : make_variables_map ps vars = Ok vm.
  Hypothesis S : consumer_setting pow first rest vars input data target.
  Hypothesis Eg : regularity_values pow input (whole_of first rest) vm = Ok g.
  (** no model at all *)
  Lemma consumer_none : (forall k m, ~ in_force_at ps data target k m) -> evaluate_consumer pow evaluate input vm data target = Ok None.
  Proof.
    pose proof S as (C & Mx & Un & Rok & NP & W & N & T1 & T2 & NC). intros F. unfold evaluate_consumer, model_results.
    destruct (adjusted_facts M data target NP W N) as [Ca _]; [lia|].
    destruct (define_time_model_for_period data target) as [|[q m] l] eqn:E; [reflexivity|]. exfalso.
    assert (nonempty q) as Nq. { cbn [map fst] in Ca. destruct Ca as [Nq _]. exact Nq. }
    destruct (proj1 (define_time_model_proof M data target W N (p_start q) m)) as [D1 D2]. { exists q. rewrite E. split; [now left|]. unfold nonempty in Nq. unfold In_period. lia. }
    destruct (contiguous_covers rest first (p_start q) C) as (k & p & K & D); [unfold In_period in D1; lia|unfold In_period in D1; lia|].
    apply (F k m). exists p, (p_start q). auto.
  Qed.
  (** a refused model *)
  Variable err : error.
  Hypothesis Ev : forall m i j sub, In m (data_models data) -> (i < j)%nat -> (j <= n)%nat -> get_subset vm i j = Ok sub ->
    (forall k, (i <= k < j)%nat -> in_force_at ps data target k m) -> (exists r, evaluate m (slice i j g) sub = Ok r) \/ evaluate m (slice i j g) sub = Err err.
  Lemma consumer_refused : forall k0 m0, in_force_at ps data target k0 m0 ->
    (forall i j sub, (i <= k0 < j)%nat -> (j <= n)%nat -> get_subset vm i j = Ok sub -> evaluate m0 (slice i j g) sub = Err err) ->
    evaluate_consumer pow evaluate input vm data target = Err err.
  Proof.
    pose proof S as (C & Mx & Un & Rok & NP & W & N & T1 & T2 & NC). intros k0 m0 F0 B0.
    destruct (entries_placed first rest C Mx data target NP W N T1 T2 NC) as (ijs & P & _). destruct (adjusted_facts M data target NP W N) as [_ F]; [lia|].
    assert (temporal_model_of_periods (define_time_model_for_period data target) = Ok (define_time_model_for_period data target)) as AS by exact (adjusted_sorted first rest data target NP W N NC).
    assert (forall d m, In_period d target /\ data_in_force data d m <-> exists q, In (q, m) (define_time_model_for_period data target) /\ In_period d q) as IE by (intros d m; symmetry; apply (define_time_model_proof M data target W N d m)).
    set (adjusted := define_time_model_for_period data target) in *.
    destruct F0 as (p0 & d0 & K0 & D1 & D2 & D3). destruct (proj1 (IE d0 m0) (conj D2 D3)) as (q0 & I0 & Q0).
    assert (exists subsets, mapM (fun e => bind (period_subset pow input vm (fst e)) (fun s => Ok (snd e, s))) adjusted = Ok subsets /\ Forall2 (part first rest vm g) adjusted subsets) as (subsets & Es & Fs).
    { assert (Forall2 (fun e ij => placed ps (fst e) ij) adjusted ijs) as P'. { clear -P. revert ijs P. induction adjusted as [|e l IH]; intros ijs P; inversion P; subst; constructor; auto. }
      clear -P' Evm C Un Mx Rok Eg. induction P' as [|e ij l ijs Pq P' IH]; [exists []; split; [reflexivity|constructor]|].
      destruct IH as (ss & A & B). destruct (subset_of_entry pow first rest vars vm Evm C Un Mx input g Rok Eg e ij Pq) as (s & E1 & E2 & E3 & E4).
      exists (s :: ss). cbn [mapM]. rewrite E1. cbn [bind]. rewrite A. cbn [bind]. split; [reflexivity|]. constructor; [|exact B]. split; [exact E2|]. exists ij. auto. }
    assert (forall e s, In e adjusted -> part first rest vm g e s -> exists i j, (i < j)%nat /\ (j <= n)%nat /\ get_subset vm i j = Ok (snd (snd s)) /\ fst (snd s) = slice i j g /\ fst s = snd e /\
      (forall k, (i <= k < j)%nat -> in_force_at ps data target k (snd e)) /\ forall k p d, nth_error ps k = Some p -> In_period d p -> In_period d (fst e) -> (i <= k < j)%nat) as G.
    { intros [q m] s I [E1 (ij & Pq & E2 & E3)]. cbn [fst snd] in *. exists (fst ij), (snd ij). pose proof Pq as (_ & L1 & L2 & _). split; [exact L1|]. split; [exact L2|]. split; [exact E3|]. split; [exact E2|]. split; [exact E1|]. split.
      - intros k Hk. destruct (nth_error ps k) as [p|] eqn:K; [|apply nth_error_None in K; unfold ps in *; lia].
        assert (In_period (p_start p) p) as Dp. { pose proof (contiguous_nonempty _ _ C (nth_error_In _ _ K)) as Np. unfold nonempty in Np. unfold In_period. lia. }
        destruct (placed_inside first rest C q ij k p Pq K) as [H _]. specialize (H Hk _ Dp). destruct (proj2 (IE (p_start p) m)) as [A B]; [exists q; auto|]. exists p, (p_start p). auto.
      - intros k p d K D1' D2'. destruct (placed_inside first rest C q ij k p Pq K) as [_ H]. now apply (H d). }
    unfold evaluate_consumer, model_results. fold adjusted. rewrite Es. cbn [bind]. rewrite AS. cbn [bind].
    assert (mapM (fun e : M * (list Qc * variables_map) => evaluate (fst e) (fst (snd e)) (snd (snd e))) subsets = Err err) as Em.
    { destruct (forall2_in_l _ _ _ _ _ _ Fs I0) as (s0 & Is0 & Ps0). apply (mapM_fails _ _ _ err subsets s0).
      - intros s Is. destruct (forall2_in_r _ _ _ _ _ _ Fs Is) as (e & Ie & Pe). destruct (G e s Ie Pe) as (i & j & L1 & L2 & E1 & E2 & E3 & E4 & _). rewrite E2, E3.
        apply (Ev (snd e) i j); auto. destruct e as [q m]. apply (F q m Ie).
      - exact Is0.
      - destruct (G (q0, m0) s0 I0 Ps0) as (i & j & L1 & L2 & E1 & E2 & E3 & _ & E5). cbn [fst snd] in *. rewrite E2, E3. apply (B0 i j); auto. apply (E5 k0 p0 d0 K0 D1 Q0). }
    rewrite Em. cbn [bind]. destruct adjusted; [destruct I0|reflexivity].
  Qed.
End None.

(** ** Direct consumers *)
Lemma usage_type_eqb_eq : forall a b, usage_type_eqb a b = true <-> a = b.
Proof. intros [] []; cbn; split; congruence. Qed.
Lemma usage_result_ok : forall ps t allow us ls, List.length us = List.length ls -> exists energy, usage_result ps t allow ls (map Some us) = Ok (mkFR ps energy (usage_unit t) (match t with POWER => Some energy | FUEL => None end) (map (generic_is_valid allow) (map Some us))) /\
  List.length energy = List.length us /\ forall k u f e, nth_error us k = Some u -> nth_error ls k = Some f -> nth_error energy k = Some e -> supplied u f e.
Proof.
  intros ps t allow us ls L. destruct (power_loss_proof us ls L) as (energy & E & Le & V). exists energy. unfold usage_result. rewrite E. cbn [bind]. split; [reflexivity|]. split; [exact Le|].
  intros k u f e Ku Kf Ke. destruct (V k u f Ku Kf) as (V1 & _ & V3). unfold supplied. destruct (Qc_eq_dec f 1) as [F|F]; [specialize (V3 F); congruence|].
  destruct (V1 F) as (u' & E' & Eq). exists u'. split; [congruence|exact Eq].
Qed.

Theorem direct_consumer_proof : forall pow consumes first rest vars vm input g (data : temporal_data direct_model) target,
  let ps := first :: rest in
  let n := List.length ps in
  consumer_setting pow first rest vars input data target ->
  make_variables_map ps vars = Ok vm -> regularity_values pow input (whole_of first rest) vm = Ok g ->
  (forall m, In m (data_models data) -> direct_ok pow vars n m) ->
  let run := evaluate_consumer pow (direct_evaluate pow consumes) input vm data target in
  (* some model in force, and every one in force is acceptable *)
  ((exists k m, in_force_at ps data target k m) ->
   (forall k m, in_force_at ps data target k m -> direct_acceptable pow vars n g consumes m k) ->
   exists s, run = Ok (Some s) /\ consumer_result ps consumes data target (fun m k e v => direct_energy pow vars n g m k e /\ v = true) s) /\
  (* a model in force that is not acceptable *)
  ((exists k m, in_force_at ps data target k m /\ ~ direct_acceptable pow vars n g consumes m k) -> run = Err ValidationError) /\
  (* no model in force *)
  ((forall k m, ~ in_force_at ps data target k m) -> run = Ok None).
Proof.
  intros pow consumes first rest vars vm input g data target ps n S Evm Eg Hm. cbv zeta. pose proof S as (C & Mx & Un & Rok & NP & W & N & T1 & T2 & NC). fold ps in C, Un, Rok, NC. fold n in Un.
  assert (List.length g = n) as Lg by (destruct (regularity_slice pow first rest vars vm input g 0 1 Evm C Un Mx Rok Eg) as [L _]; [lia|cbn; lia|exact L]).
  split; [|split].
  - intros Ex Acc. apply (consumer_general pow _ first rest vars vm input g data target Evm S Eg); [|exact Ex].
    intros m i j sub Im L1 L2 Es Hf. change (j <= n)%nat in L2. destruct (direct_facts pow first rest vars vm Evm C Un g Lg consumes m (Hm m Im)) as (us & ls & Lu & Ll & Vu & Vl & D). fold ps in Lu, Ll, Vu, Vl, D. fold n in Lu, Ll, Vu, Vl, D.
    rewrite (D i j sub L1 L2 Es). destruct (Acc i m (Hf i ltac:(lia))) as [Ty _]. rewrite (proj2 (usage_type_eqb_eq consumes (dm_type m)) (eq_sym Ty)).
    assert (usage_type_eqb (dm_type m) FUEL && existsb (fun r : num => match r with Some q => Qcltb q 0 | None => false end) (map Some (slice i j us)) = false)%bool as Nn.
    { apply Bool.not_true_is_false. intros B. apply andb_prop in B as [B1 B2]. apply usage_type_eqb_eq in B1. apply existsb_negative in B2 as (k & u & Ku & Hu). rewrite nth_error_slice in Ku.
      destruct (Nat.ltb_spec k (j - i)) as [K|K]; [|discriminate]. destruct (Acc (i + k)%nat m (Hf (i + k)%nat ltac:(lia))) as [_ A]. specialize (A ltac:(congruence) u ltac:(apply Vu; [lia|exact Ku])). revert A. now apply Qclt_not_le. }
    rewrite Nn. destruct (usage_result_ok (slice i j ps) (dm_type m) (usage_type_eqb (dm_type m) POWER) (slice i j us) (slice i j ls)) as (energy & -> & Le & Ve). { rewrite !slice_length; lia. }
    eexists. split; [reflexivity|]. rewrite slice_length in Le by lia. unfold part_result. cbn [fr_periods fr_unit fr_energy fr_valid fr_power]. rewrite <- Ty. split; [reflexivity|]. split; [reflexivity|]. split; [exact Le|].
    split; [rewrite !map_length, slice_length; lia|]. split; [reflexivity|]. intros k e v Ke Kv.
    assert (k < j - i)%nat as K by (apply nth_error_Some_lt in Ke || (assert (k < List.length energy)%nat by (apply nth_error_Some; congruence)); lia).
    destruct (nth_error us (i + k)) as [u|] eqn:Ku; [|apply nth_error_None in Ku; lia]. destruct (nth_error ls (i + k)) as [f|] eqn:Kf; [|apply nth_error_None in Kf; lia].
    assert (nth_error (slice i j us) k = Some u) as Ku' by (rewrite nth_error_slice; destruct (Nat.ltb_spec k (j - i)); [exact Ku|lia]).
    split.
    + exists u, f. split; [apply Vu; [lia|exact Ku]|]. split; [apply Vl; [lia|exact Kf]|]. apply (Ve k u f e Ku'); auto. rewrite nth_error_slice. destruct (Nat.ltb_spec k (j - i)); [exact Kf|lia].
    + rewrite nth_error_map, nth_error_map, Ku' in Kv. cbn [option_map generic_is_valid] in Kv. injection Kv as <-.
      destruct (dm_type m) eqn:Td; cbn [usage_type_eqb]; [reflexivity|]. cbn [orb]. apply Qcleb_le. destruct (Acc (i + k)%nat m (Hf (i + k)%nat ltac:(lia))) as [_ A]. apply A; [congruence|]. apply Vu; [lia|exact Ku].
  - intros (k0 & m0 & F0 & Bad). apply (consumer_refused pow _ first rest vars vm input g data target Evm S Eg ValidationError) with (k0 := k0) (m0 := m0); [|exact F0|].
    + intros m i j sub Im L1 L2 Es Hf. change (j <= n)%nat in L2. destruct (direct_facts pow first rest vars vm Evm C Un g Lg consumes m (Hm m Im)) as (us & ls & Lu & Ll & Vu & Vl & D). rewrite (D i j sub L1 L2 Es).
      destruct (usage_type_eqb consumes (dm_type m)); [|now right]. destruct (_ && _)%bool; [now right|]. left.
      destruct (usage_result_ok (slice i j ps) (dm_type m) (usage_type_eqb (dm_type m) POWER) (slice i j us) (slice i j ls)) as (energy & E & _). { fold ps in Lu, Ll, Vu, Vl, D. fold n in Lu, Ll, Vu, Vl, D. rewrite !slice_length; lia. } eauto.
    + intros i j sub Hk L2 Es. change (j <= n)%nat in L2.
      assert (In m0 (data_models data)) as Im.
      { destruct F0 as (p0 & d0 & K0 & D1 & D2 & D3). destruct (proj2 (define_time_model_proof direct_model data target W N d0 m0) (conj D2 D3)) as (q & Iq & _). destruct (adjusted_facts _ data target NP W N) as [_ F]; [lia|]. now apply (F q m0 Iq). }
      destruct (direct_facts pow first rest vars vm Evm C Un g Lg consumes m0 (Hm m0 Im)) as (us & ls & Lu & Ll & Vu & Vl & D). fold ps in Lu, Ll, Vu, Vl, D. fold n in Lu, Ll, Vu, Vl, D. rewrite (D i j sub ltac:(lia) L2 Es).
      destruct (usage_type_eqb consumes (dm_type m0)) eqn:Ty; [|reflexivity]. apply usage_type_eqb_eq in Ty.
      destruct (usage_type_eqb (dm_type m0) FUEL && existsb _ _)%bool eqn:Nn; [reflexivity|]. exfalso. apply Bad. split; [now symmetry|]. intros Fu u Hu.
      rewrite <- Ty, Fu in Nn. cbn [usage_type_eqb andb] in Nn. destruct (Qclt_le_dec u 0) as [Lu0|Lu0]; [exfalso|exact Lu0].
      assert (existsb (fun r : num => match r with Some q => Qcltb q 0 | None => false end) (map Some (slice i j us)) = true) as B; [|congruence].
      apply existsb_negative. exists (k0 - i)%nat, u. split; [|exact Lu0]. rewrite nth_error_slice. destruct (Nat.ltb_spec (k0 - i) (j - i)); [|lia]. replace (i + (k0 - i))%nat with k0 by lia. apply Vu; [lia|exact Hu].
  - apply (consumer_none pow _ first rest vars vm input data target S).
Qed.

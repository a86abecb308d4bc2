(** Proofs about consumers: the result of a consumer whose models change over time, for any kind of model. *)
From Coq Require Import PeanoNat String.
From Verif Require Import Attributes_Proofs Attributes_Proofs2 QcTac Num Time_Model Time_Spec Time_Proofs Time_Proofs2 Units_Model Rates_Model Rates_Spec Rates_Proofs Rates_Proofs4
  Base BaseLemmas Expr_Model Expr_Proofs Vars_Model Vars_Proofs Input_Model Interp_Model Energy_Model Energy_Proofs Energy_Proofs3 Export_Proofs2 Emitters_Proofs5 Emitters_Spec
  Consumer_Model Consumer_Spec Consumer_Proofs Consumer_Proofs2 Consumer_Proofs3.
Local Open Scope list_scope.
Local Open Scope Z_scope.

Lemma forall2_exists : forall A B (R : A -> B -> Prop) l, (forall x, In x l -> exists y, R x y) -> exists m, Forall2 R l m.
Proof.
  intros A B R l. induction l as [|x l IH]; intros H; [exists []; constructor|]. destruct (H x (or_introl eq_refl)) as (y & Y).
  destruct IH as (m & Fm). { intros z I. apply H. now right. } exists (y :: m). now constructor.
Qed.
Lemma forall2_in_l : forall A B (R : A -> B -> Prop) l m x, Forall2 R l m -> In x l -> exists y, In y m /\ R x y.
Proof.
  intros A B R l m x F. induction F as [|a b l m H F IH]; intros I; [destruct I|]. destruct I as [->|I]; [exists b; split; [now left|exact H]|].
  destruct (IH I) as (y & Y1 & Y2). exists y. split; [now right|exact Y2].
Qed.
Lemma forall2_in_r : forall A B (R : A -> B -> Prop) l m y, Forall2 R l m -> In y m -> exists x, In x l /\ R x y.
Proof.
  intros A B R l m y F. induction F as [|a b l m H F IH]; intros I; [destruct I|]. destruct I as [->|I]; [exists a; split; [now left|exact H]|].
  destruct (IH I) as (x & X1 & X2). exists x. split; [now right|exact X2].
Qed.
Lemma forall2_map_eq : forall A B C (R : A -> B -> Prop) (f : A -> C) (g : B -> C) l m, Forall2 R l m -> (forall x y, R x y -> f x = g y) -> map f l = map g m.
Proof. intros A B C R f g l m F H. induction F as [|a b l m Hab F IH]; [reflexivity|]. cbn [map]. now rewrite IH, (H a b Hab). Qed.
Lemma forall2_trans : forall A B C (R : A -> B -> Prop) (S : B -> C -> Prop) (T : A -> C -> Prop) l m k, Forall2 R l m -> Forall2 S m k -> (forall x y z, R x y -> S y z -> T x z) -> Forall2 T l k.
Proof.
  intros A B C R S T l m k F. revert k. induction F as [|a b l m Hab F IH]; intros k G H; inversion G as [|b' c m' k' Hbc G']; subst; constructor; eauto.
Qed.

Section Core.
  Context {M : Type}.
  Variable pow : Qc -> Qc -> Qc.
  Variable evaluate : M -> list Qc -> variables_map -> result function_result.
  Variables (first : period) (rest : list period) (vars : variables_dict) (vm : variables_map).
  Let ps := first :: rest.
  Let n := List.length ps.
  Hypothesis Evm : make_variables_map ps vars = Ok vm.
  Hypothesis C : contiguous ps.
  Hypothesis Un : forall r l, dict_get String.eqb r vars = Some l -> List.length l = n.
  Hypothesis Mx : p_end (last rest first) <= DT_MAX.
  Variables (input : option (temporal_data expression_input)) (g : list Qc).
  Hypothesis Rok : regularity_ok pow vars ps input.
  Hypothesis Eg : regularity_values pow input (whole_of first rest) vm = Ok g.
  Variables (data : temporal_data M) (target : period).
  Hypothesis NP : forall e es, data <> TDPeriods e es.
  Hypothesis W : data_well_formed data.
  Hypothesis N : nonempty target.
  Hypothesis T1 : p_start first <= p_start target.
  Hypothesis T2 : p_end target <= p_end (last rest first).
  Hypothesis NC : forall t p, t = p_start target \/ t = p_end target \/ In t (data_dates data) -> In p ps -> ~ (p_start p < t < p_end p).

  Lemma vm_periods_ps : vm_periods vm = ps.
  Proof. unfold make_variables_map in Evm. destruct (all_dates ps); cbn [bind] in Evm; [|discriminate]. injection Evm as <-. reflexivity. Qed.

  (** every entry has its place, and its part of the run *)
  Lemma entries_placed : exists ijs, Forall2 (placed ps) (map fst (define_time_model_for_period data target)) ijs /\
    contiguous (flat_map (fun ij => slice (fst ij) (snd ij) ps) ijs).
  Proof.
    destruct (adjusted_facts M data target NP W N) as [Ca F]; [lia|].
    destruct (forall2_exists _ _ (placed ps) (map fst (define_time_model_for_period data target))) as (ijs & P).
    { intros q I. pose proof (contiguous_nonempty _ _ Ca I) as Nq. apply in_map_iff in I as ([q' m] & E & I). cbn [fst] in E. subst q'. destruct (F q m I) as (A & B & _ & D1 & D2).
      apply entry_placed; auto; try lia; intros p Ip; apply NC; auto; destruct D1, D2; auto. }
    exists ijs. split; [exact P|]. apply (placed_chain ps _ ijs C Ca P).
  Qed.
  Definition part (e : period * M) (s : M * (list Qc * variables_map)) : Prop :=
    fst s = snd e /\ exists ij, placed ps (fst e) ij /\ fst (snd s) = slice (fst ij) (snd ij) g /\ get_subset vm (fst ij) (snd ij) = Ok (snd (snd s)).
  Lemma subset_of_entry : forall (e : period * M) ij, placed ps (fst e) ij -> exists s, bind (period_subset pow input vm (fst e)) (fun s => Ok (snd e, s)) = Ok s /\
    fst s = snd e /\ fst (snd s) = slice (fst ij) (snd ij) g /\ get_subset vm (fst ij) (snd ij) = Ok (snd (snd s)).
  Proof.
    intros e ij (E & L1 & L2 & _). unfold period_subset. rewrite vm_periods_ps, E. cbn [bind].
    destruct (regularity_slice pow first rest vars vm input g (fst ij) (snd ij) Evm C Un Mx Rok Eg L1 L2) as (_ & ->). cbn [bind].
    destruct (get_subset_spec first rest vars vm (fst ij) (snd ij) C Evm L1 L2) as (sub & -> & _). cbn [bind]. eexists. split; [reflexivity|]. auto.
  Qed.
  Lemma regularity_length : List.length g = n.
  Proof. destruct (regularity_slice pow first rest vars vm input g 0 1 Evm C Un Mx Rok Eg) as [L _]; [lia|cbn; lia|exact L]. Qed.
  Lemma adjusted_sorted : temporal_model_of_periods (define_time_model_for_period data target) = Ok (define_time_model_for_period data target).
  Proof.
    apply temporal_model_of_periods_iff. split; [reflexivity|]. destruct (default_model_props M data target W N) as (Ne & P & O & _).
    rewrite (define_restrict M data target N Ne P). apply restrict_sorted; auto. apply O. destruct data; cbn [data_ordered]; auto. exfalso. eapply NP. reflexivity.
  Qed.
  Lemma in_force_entry : forall d m, In_period d target /\ data_in_force data d m <-> exists q, In (q, m) (define_time_model_for_period data target) /\ In_period d q.
  Proof. intros d m. symmetry. apply (define_time_model_proof M data target W N d m). Qed.

  Variables (U : unit_) (known : bool) (SPEC : M -> nat -> num -> bool -> Prop).
  Definition good_result (m : M) (i j : nat) (r : function_result) : Prop :=
    fr_periods r = slice i j ps /\ fr_unit r = U /\ List.length (fr_energy r) = (j - i)%nat /\ List.length (fr_valid r) = (j - i)%nat /\
    fr_power r = (if known then Some (fr_energy r) else None) /\
    forall k e v, nth_error (fr_energy r) k = Some e -> nth_error (fr_valid r) k = Some v -> SPEC m (i + k) e v.
  Hypothesis Ev : forall m i j sub, In m (data_models data) -> (i < j)%nat -> (j <= n)%nat -> get_subset vm i j = Ok sub ->
    (forall k p d, (i <= k < j)%nat -> nth_error ps k = Some p -> In_period d p -> In_period d target /\ data_in_force data d m) ->
    exists r, evaluate m (slice i j g) sub = Ok r /\ good_result m i j r.
  Hypothesis KU : known = true -> U = MEGA_WATT.

  Lemma placed_inside : forall q ij k p, placed ps q ij -> nth_error ps k = Some p ->
    ((fst ij <= k < snd ij)%nat -> forall d, In_period d p -> In_period d q) /\ (forall d, In_period d p -> In_period d q -> (fst ij <= k < snd ij)%nat).
  Proof.
    intros q ij k p (E & L1 & L2 & D1 & D2) K.
    assert (p_start first <= p_start q) as B1. { apply nth_error_In in D1. apply (dates_bounds _ _ _ C) in D1. lia. }
    assert (p_end q <= p_end (last rest first)) as B2. { apply nth_error_In in D2. apply (dates_bounds _ _ _ C) in D2. rewrite ?last_shift in D2. lia. }
    apply (period_indices_inside first rest q (fst ij) (snd ij) C); auto; [rewrite Z.max_l by lia|rewrite Z.min_l by lia]; assumption.
  Qed.

  (** the results of the models *)
  Definition result_of_entry (e : period * M) (r : function_result) : Prop :=
    exists ij, placed ps (fst e) ij /\ good_result (snd e) (fst ij) (snd ij) r.
  Lemma results_ok : define_time_model_for_period data target <> [] -> exists results,
    model_results pow evaluate input vm data target = Ok (Some results) /\
    Forall2 result_of_entry (define_time_model_for_period data target) results /\ contiguous (flat_map fr_periods results).
  Proof.
    intros Ne. destruct entries_placed as (ijs & P & Cc). destruct (adjusted_facts M data target NP W N) as [Ca F]; [lia|].
    set (adjusted := define_time_model_for_period data target) in *.
    assert (forall e ij, In e adjusted -> placed ps (fst e) ij -> exists s r, bind (period_subset pow input vm (fst e)) (fun s => Ok (snd e, s)) = Ok s /\ evaluate (fst s) (fst (snd s)) (snd (snd s)) = Ok r /\ good_result (snd e) (fst ij) (snd ij) r) as G.
    { intros [q m] ij I Pq. cbn [fst snd] in *. destruct (subset_of_entry (q, m) ij Pq) as (s & E1 & E2 & E3 & E4). cbn [fst snd] in *.
      destruct (F q m I) as (_ & _ & Im & _). pose proof Pq as (_ & L1 & L2 & _).
      destruct (Ev m (fst ij) (snd ij) (snd (snd s)) Im L1 L2 E4) as (r & R1 & R2).
      { intros k p d K Kp D. destruct (placed_inside q ij k p Pq Kp) as [H _]. apply in_force_entry. exists q. split; [exact I|]. now apply H. }
      exists s, r. rewrite E2, E3. auto. }
    assert (exists subsets results, mapM (fun e => bind (period_subset pow input vm (fst e)) (fun s => Ok (snd e, s))) adjusted = Ok subsets /\
      mapM (fun s => evaluate (fst s) (fst (snd s)) (snd (snd s))) subsets = Ok results /\
      Forall2 result_of_entry adjusted results /\ flat_map fr_periods results = flat_map (fun ij => slice (fst ij) (snd ij) ps) ijs) as (subsets & results & S1 & S2 & S3 & S4).
    { clear Cc Ca F Ne. revert ijs P. induction adjusted as [|e es IH]; intros ijs P; inversion P as [|q ij qs ijs' Pq P']; subst.
      - exists [], []. split; [reflexivity|]. split; [reflexivity|]. split; [constructor|reflexivity].
      - destruct (G e ij (or_introl eq_refl) Pq) as (s & r & E1 & E2 & E3). destruct (IH (fun e' ij' I => G e' ij' (or_intror I)) ijs' P') as (ss & rs & A & B & D & E).
        exists (s :: ss), (r :: rs). cbn [mapM]. rewrite E1. cbn [bind]. rewrite A. cbn [bind]. split; [reflexivity|]. cbn [mapM]. rewrite E2. cbn [bind]. rewrite B. cbn [bind]. split; [reflexivity|].
        split; [constructor; [exists ij; auto|exact D]|]. cbn [flat_map]. rewrite E. f_equal. apply E3. }
    exists results. split.
    - unfold model_results. fold adjusted. rewrite S1. cbn [bind]. pose proof adjusted_sorted as AS. fold adjusted in AS. rewrite AS. cbn [bind]. rewrite S2. cbn [bind]. destruct adjusted as [|a l]; [congruence|]. reflexivity.
    - split; [exact S3|]. rewrite S4. exact Cc.
  Qed.

  Theorem consumer_core :
    ((exists d m, In_period d target /\ data_in_force data d m) ->
      exists s, evaluate_consumer pow evaluate input vm data target = Ok (Some s) /\
        s_periods (cs_energy s) = ps /\ s_unit (cs_energy s) = U /\ List.length (s_values (cs_energy s)) = n /\
        s_periods (cs_valid s) = ps /\ List.length (s_values (cs_valid s)) = n /\
        cs_power s = (if known then Some (cs_energy s) else None) /\
        forall k p, nth_error ps k = Some p ->
          (forall d m, In_period d p -> In_period d target -> data_in_force data d m ->
             exists e v, nth_error (s_values (cs_energy s)) k = Some e /\ nth_error (s_values (cs_valid s)) k = Some v /\ SPEC m k e v) /\
          ((forall d m, In_period d p -> ~ (In_period d target /\ data_in_force data d m)) ->
             nth_error (s_values (cs_energy s)) k = Some (Some 0%Qc) /\ nth_error (s_values (cs_valid s)) k = Some true)) /\
    ((forall d m, In_period d target -> ~ data_in_force data d m) -> evaluate_consumer pow evaluate input vm data target = Ok None).
  Proof.
    destruct (adjusted_facts M data target NP W N) as [Ca F]; [lia|]. split.
    - intros (d0 & m0 & D0).
      assert (define_time_model_for_period data target <> []) as Ne. { apply in_force_entry in D0 as (q & I & _). intros E. rewrite E in I. destruct I. }
      destruct (results_ok Ne) as (results & Er & Fr & Cr). unfold evaluate_consumer. rewrite Er. cbn [bind]. unfold consumer_series_of. rewrite vm_periods_ps.
      destruct results as [|r rs]. { inversion Fr as [E|]. congruence. }
      assert (forall x, In x (r :: rs) -> exists q m ij, In (q, m) (define_time_model_for_period data target) /\ placed ps q ij /\ good_result m (fst ij) (snd ij) x) as Each.
      { intros x I. destruct (forall2_in_r _ _ _ _ _ _ Fr I) as ([q m] & Iq & ij & Pq & Gq). exists q, m, ij. auto. }
      assert (forall x, In x (r :: rs) -> fr_periods x <> [] /\ fr_unit x = U /\ List.length (fr_energy x) = List.length (fr_periods x) /\ List.length (fr_valid x) = List.length (fr_periods x) /\
        fr_power x = (if known then Some (fr_energy x) else None) /\ forall p, In p (fr_periods x) -> In p ps) as Shape.
      { intros x I. destruct (Each x I) as (q & m & ij & _ & (_ & L1 & L2 & _) & G1 & G2 & G3 & G4 & G5 & _).
        assert (List.length (fr_periods x) = (snd ij - fst ij)%nat) as Lx by (rewrite G1; now apply slice_length).
        split; [intros E; rewrite E in Lx; cbn in Lx; lia|]. split; [exact G2|]. split; [congruence|]. split; [congruence|]. split; [exact G5|].
        intros p Ip. rewrite G1 in Ip. apply In_nth_error in Ip as (k & K). rewrite nth_error_slice in K. destruct (Nat.ltb k _); [|discriminate]. now apply nth_error_In in K. }
      assert (NoDup ps) as ND by now apply periods_NoDup.
      destruct (concatenated_proof function_result num fr_periods (fun r => Some (fr_energy r)) fr_unit false (Some 0%Qc) r rs ps) as [CE _].
      { intros x I. destruct (Shape x I) as (A & B & _). split; [exact A|]. destruct (Shape r (or_introl eq_refl)) as (_ & B' & _). congruence. }
      { intros x vs I E. injection E as <-. apply (Shape x I). }
      { exact Cr. } { exact ND. } { intros x p I Ip. now apply (Shape x I). }
      destruct CE as (se & Ee & Pe & Ue & Le & Ve). { intros x _ E. discriminate E. }
      destruct (concatenated_proof function_result bool fr_periods (fun r => Some (fr_valid r)) (fun _ => NONE) false true r rs ps) as [CV _].
      { intros x I. destruct (Shape x I) as (A & _). auto. }
      { intros x vs I E. injection E as <-. apply (Shape x I). }
      { exact Cr. } { exact ND. } { intros x p I Ip. now apply (Shape x I). }
      destruct CV as (sv & Evv & Pv & Uv & Lv & Vv). { intros x _ E. discriminate E. }
      destruct (concatenated_proof function_result num fr_periods fr_power (fun _ => MEGA_WATT) true (Some 0%Qc) r rs ps) as [CP CN].
      { intros x I. destruct (Shape x I) as (A & _). auto. }
      { intros x vs I E. destruct (Shape x I) as (_ & _ & L & _ & P & _). rewrite P in E. destruct known; [|discriminate]. injection E as <-. exact L. }
      { exact Cr. } { exact ND. } { intros x p I Ip. now apply (Shape x I). }
      assert (result_power (r :: rs) ps = Ok (if known then Some se else None)) as Ep.
      { unfold result_power. destruct known eqn:Kn.
        - destruct CP as (sp & Esp & Pp & Up & Lp & Vp). { intros x I E. destruct (Shape x I) as (_ & _ & _ & _ & P & _). rewrite P in E. discriminate E. }
          rewrite Esp. do 2 f_equal. destruct sp as [pp pv pu], se as [ep evs eu]. cbn [s_periods s_values s_unit] in *.
          assert (pv = evs) as ->.
          { apply list_ext_nth. intros k. destruct (nth_error ps k) as [q|] eqn:Kq.
            - destruct (Vp k q Kq) as (V1 & _ & V3). destruct (Ve k q Kq) as (W1 & _ & W3).
              destruct (in_dec (fun a b : period => match Bool.bool_dec (period_eqb a b) true with left e => left (proj1 (period_eqb_spec a b) e) | right e => right (fun E => e (proj2 (period_eqb_spec a b) E)) end) q (flat_map fr_periods (r :: rs))) as [I|I].
              + apply in_flat_map in I as (x & Ix & I). apply In_nth_error in I as (i & Ki). destruct (Shape x Ix) as (_ & _ & _ & _ & P & _).
                rewrite (V1 x i (fr_energy x) Ix Ki P). symmetry. apply (W1 x i _ Ix Ki eq_refl).
              + rewrite V3, W3; auto; intros x Ix Iq; apply I; apply in_flat_map; exists x; auto.
            - assert (n <= k)%nat as Lk by (apply nth_error_None; exact Kq). rewrite (proj2 (nth_error_None pv k)), (proj2 (nth_error_None evs k)); auto; unfold n in Lk; lia. }
          subst pp ep. f_equal. subst pu. rewrite Ue. destruct (Shape r (or_introl eq_refl)) as (_ & -> & _). symmetry. now apply KU.
        - apply (CN r); auto; [now left|]. destruct (Shape r (or_introl eq_refl)) as (_ & _ & _ & _ & P & _). exact P. }
      unfold result_energy, result_valid. rewrite Ee. cbn [bind]. rewrite Ep. cbn [bind]. rewrite Evv. cbn [bind]. eexists. split; [reflexivity|]. cbn [cs_energy cs_valid cs_power].
      split; [exact Pe|]. split; [rewrite Ue; now destruct (Shape r (or_introl eq_refl)) as (_ & -> & _)|]. split; [exact Le|]. split; [exact Pv|]. split; [exact Lv|]. split; [reflexivity|].
      intros k p K. destruct (Ve k p K) as (E1 & _ & E3). destruct (Vv k p K) as (V1 & _ & V3). split.
      + intros d m Dp Dt Df. destruct (proj1 (in_force_entry d m) (conj Dt Df)) as (q & Iq & Dq).
        destruct (forall2_in_l _ _ _ _ _ _ Fr Iq) as (x & Ix & ij & Pq & Gx). cbn [fst snd] in *.
        destruct (placed_inside q ij k p Pq K) as [_ H]. specialize (H d Dp Dq). destruct Pq as (_ & L1 & L2 & _). destruct Gx as (G1 & _ & G3 & G4 & _ & G6).
        assert (nth_error (fr_periods x) (k - fst ij) = Some p) as Kx.
        { rewrite G1, nth_error_slice. destruct (Nat.ltb_spec (k - fst ij) (snd ij - fst ij)); [|lia]. replace (fst ij + (k - fst ij))%nat with k by lia. exact K. }
        destruct (nth_error (fr_energy x) (k - fst ij)) as [e|] eqn:Ke; [|apply nth_error_None in Ke; lia].
        destruct (nth_error (fr_valid x) (k - fst ij)) as [v|] eqn:Kv; [|apply nth_error_None in Kv; lia].
        exists e, v. rewrite (E1 x _ _ Ix Kx eq_refl), (V1 x _ _ Ix Kx eq_refl). split; [exact Ke|]. split; [exact Kv|].
        replace k with (fst ij + (k - fst ij))%nat by lia. now apply G6.
      + intros Hn. assert (forall x, In x (r :: rs) -> ~ In p (fr_periods x)) as Out.
        { intros x Ix Ip. destruct (Each x Ix) as (q & m & ij & Iq & Pq & G1 & _). rewrite G1 in Ip. apply In_nth_error in Ip as (i & Ki). rewrite nth_error_slice in Ki.
          destruct (Nat.ltb_spec i (snd ij - fst ij)) as [Li|]; [|discriminate].
          destruct (placed_inside q ij _ p Pq Ki) as [H _].
          assert (In_period (p_start p) p) as Dp. { pose proof (contiguous_nonempty _ _ C (nth_error_In _ _ K)) as Np. unfold nonempty in Np. unfold In_period. lia. }
          apply (Hn (p_start p) m Dp). apply in_force_entry. exists q. split; [exact Iq|]. apply H; [lia|exact Dp]. }
        split; [now apply E3|now apply V3].
    - intros Hn. unfold evaluate_consumer, model_results.
      destruct (define_time_model_for_period data target) as [|[q m] l] eqn:E; [reflexivity|]. exfalso.
      assert (nonempty q) as Nq. { cbn [map fst] in Ca. destruct Ca as [Nq _]. exact Nq. }
      destruct (proj2 (in_force_entry (p_start q) m)) as [D1 D2]. { exists q. rewrite E. split; [now left|]. unfold nonempty in Nq. unfold In_period. lia. }
      now apply (Hn _ m D1).
  Qed.
End Core.

(** Proofs about consumers: the part of the run a model applies to. *)
From Coq Require Import PeanoNat String.
From Verif Require Import Attributes_Proofs Attributes_Proofs2 QcTac Num Time_Model Time_Spec Time_Proofs Time_Proofs2 Units_Model Rates_Model Rates_Spec Rates_Proofs Rates_Proofs4
  Base BaseLemmas Expr_Model Expr_Proofs Vars_Model Vars_Proofs Input_Model Interp_Model Energy_Model Energy_Proofs Energy_Proofs3 Emitters_Proofs5 Emitters_Spec
  Consumer_Model Consumer_Spec Consumer_Proofs.
Local Open Scope list_scope.
Local Open Scope Z_scope.

Lemma evaluable_tokens : forall pow vars n e, evaluable pow vars n e <-> exists v, evaluate pow (input_tokens e) vars n = Ok v.
Proof.
  intros pow vars n [q|ts]; cbn [evaluable input_tokens]; [|reflexivity]. split; [|auto]. intros _. exists (repeat q n). apply evaluate_number.
Qed.
Lemma input_at_tokens : forall pow vars n e k v, (k < n)%nat -> (input_at pow vars n e k v <-> evaluates_at pow vars n (input_tokens e) k v).
Proof.
  intros pow vars n [q|ts] k v L; cbn [input_at input_tokens]; [|reflexivity]. unfold evaluates_at. rewrite evaluate_number. split.
  - intros ->. exists (repeat q n). split; [reflexivity|]. rewrite (nth_error_nth' _ q) by now rewrite repeat_length. f_equal. apply nth_repeat_lt. exact L.
  - intros (l & E & N). injection E as <-. apply nth_error_In in N. apply repeat_spec in N. exact N.
Qed.

(** what is in force does not change inside a period no date cuts *)
Lemma in_force_period : forall M (data : temporal_data M) p d d' m, data_in_force data d' m -> In_period d p -> In_period d' p -> p_end p <= DT_MAX ->
  (forall t, In t (data_dates data) -> ~ (p_start p < t < p_end p)) -> data_in_force data d m.
Proof.
  intros M data p d d' m H D D' Mx NC. destruct data as [x|e es|e es]; cbn [data_in_force data_dates] in *; auto.
  - destruct H as [_ (k & I & L & B)]. unfold In_period in *. split; [lia|]. exists k. split; [exact I|].
    assert (forall k' m', In (k', m') (e :: es) -> k' <= d' <-> k' <= d) as S.
    { intros k' m' I'. specialize (NC k' (in_map fst _ _ I')). lia. }
    split; [apply (S k m I); exact L|]. intros k' m' I' L'. apply (B k' m' I'). now apply (S k' m' I').
  - destruct H as (q & I & Q). exists q. split; [exact I|]. unfold In_period in *.
    assert (~ (p_start p < p_start q < p_end p) /\ ~ (p_start p < p_end q < p_end p)) as [A B].
    { split; apply NC; apply in_flat_map; exists (q, m); (split; [exact I|]); cbn [fst]; [now left|right; now left]. }
    lia.
Qed.
Lemma in_force_decide : forall M (data : temporal_data M) target d, data_well_formed data -> nonempty target -> In_period d target ->
  (exists m, data_in_force data d m) \/ (forall m, ~ data_in_force data d m).
Proof.
  intros M data target d W N D. destruct (default_model_props M data target W N) as (_ & P & _ & F).
  destruct (get_model (default_temporal_model data target) d) as [m|e] eqn:E.
  - left. exists m. apply F; auto. now apply find_pdisj.
  - right. intros m H. apply F in H; auto. apply find_pdisj in H; auto. congruence.
Qed.

(** the subset as the variables of its periods *)
Lemma get_subset_make : forall first rest vars vm i j, contiguous (first :: rest) -> make_variables_map (first :: rest) vars = Ok vm ->
  (i < j)%nat -> (j <= List.length (first :: rest))%nat ->
  get_subset vm i j = make_variables_map (slice i j (first :: rest)) (map (fun kv => (fst kv, slice i j (snd kv))) vars).
Proof.
  intros first rest vars vm i j Hc E Hij Hj. unfold make_variables_map in E. rewrite dates_of_all in E.
  assert (vm = mkVM (first :: rest) (dates_of (first :: rest)) vars) as -> by (cbn [bind] in E; congruence).
  unfold get_subset. cbn [vm_time_vector vm_variables]. rewrite create_periods_ff.
  rewrite consecutive_slice by assumption. reflexivity.
Qed.
Lemma slice_nonempty : forall A (l : list A) i j, (i < j)%nat -> (j <= List.length l)%nat -> exists x xs, slice i j l = x :: xs.
Proof.
  intros A l i j L1 L2. pose proof (slice_length A l i j L2) as L. destruct (slice i j l) as [|x xs]; [cbn in L; lia|]. eauto.
Qed.
Lemma slice_uniform : forall (vars : variables_dict) n i j, (forall r l, dict_get String.eqb r vars = Some l -> List.length l = n) -> (j <= n)%nat ->
  forall r l, dict_get String.eqb r (map (fun kv => (fst kv, slice i j (snd kv))) vars) = Some l -> List.length l = (j - i)%nat.
Proof.
  intros vars n i j U L r l E. rewrite dict_get_map in E. destruct (dict_get String.eqb r vars) as [l0|] eqn:E0; [|discriminate].
  injection E as <-. apply slice_length. rewrite (U r l0 E0). exact L.
Qed.

Section Pow.
  Variable pow : Qc -> Qc -> Qc.

  (** an expression that depends on time gives, on a part of the run, the part of its values *)
  Lemma temporal_slice : forall first rest vars vm (data : temporal_data (list token)) i j,
    let ps := first :: rest in
    let n := List.length ps in
    make_variables_map ps vars = Ok vm -> contiguous ps ->
    (forall r l, dict_get String.eqb r vars = Some l -> List.length l = n) ->
    data_well_formed data -> data_ordered data -> p_end (last rest first) <= DT_MAX ->
    (forall t p, In t (data_dates data) -> In p ps -> ~ (p_start p < t < p_end p)) ->
    (forall ts, In ts (data_models data) -> exists v, evaluate pow ts vars n = Ok v) ->
    (i < j)%nat -> (j <= n)%nat ->
    exists vec sub q qs, temporal_expression_evaluate pow data (whole_of first rest) vm = Ok vec /\ List.length vec = n /\
      get_subset vm i j = Ok sub /\ slice i j ps = q :: qs /\ vm_periods sub = q :: qs /\ vm_variables sub = map (fun kv => (fst kv, slice i j (snd kv))) vars /\
      temporal_expression_evaluate pow data (whole_of q qs) sub = Ok (slice i j vec).
  Proof.
    intros first rest vars vm data i j ps n Evm C U W O Mx NC Ev Lij Lj.
    pose proof (whole_nonempty _ _ C) as Nw.
    assert (forall p, In p ps -> nonempty p /\ p_start first <= p_start p /\ p_end p <= p_end (last rest first)) as In_run by (intros p I; exact (period_inside first rest p C I)).
    destruct (temporal_expression_proof pow first rest vars vm data (whole_of first rest) Evm C U W O Nw Mx) as (vec & E & L & V).
    { intros t p [->|[->|I]] Ip X; [..|now apply (NC t p I Ip)]; destruct (In_run p Ip) as (_ & B1 & B2); cbn [whole_of p_start p_end] in X; lia. }
    { exact Ev. }
    destruct (get_subset_spec first rest vars vm i j C Evm Lij Lj) as (sub & Es & Sp & Sv).
    destruct (slice_nonempty _ ps i j Lij Lj) as (q & qs & Eq).
    pose proof (get_subset_make first rest vars vm i j C Evm Lij Lj) as Mk. rewrite Es in Mk. symmetry in Mk. fold ps in Mk. rewrite Eq in Mk.
    assert (contiguous (q :: qs)) as Cq by (rewrite <- Eq; apply contiguous_slice; exact C).
    assert (forall p, In p (q :: qs) -> In p ps) as Inc.
    { intros p I. rewrite <- Eq in I. unfold slice in I. rewrite <- (firstn_skipn i ps). apply in_or_app. right.
      rewrite <- (firstn_skipn (j - i) (skipn i ps)). apply in_or_app. now left. }
    assert (List.length (q :: qs) = (j - i)%nat) as Lq by (rewrite <- Eq; apply slice_length; exact Lj).
    pose proof (whole_nonempty _ _ Cq) as Nq.
    assert (p_end (last qs q) <= p_end (last rest first)) as Be.
    { apply (In_run (last qs q)). apply Inc. apply last_In'. }
    destruct (temporal_expression_proof pow q qs (map (fun kv => (fst kv, slice i j (snd kv))) vars) sub data (whole_of q qs) Mk Cq) as (vec' & E' & L' & V').
    { rewrite Lq. apply (slice_uniform vars n); assumption. }
    { exact W. } { exact O. } { exact Nq. } { cbn [whole_of p_end]. lia. }
    { intros t p [->|[->|I]] Ip X; [..|now apply (NC t p I (Inc p Ip))]; destruct (period_inside q qs p Cq Ip) as (_ & B1 & B2); cbn [whole_of p_start p_end] in X; lia. }
    { intros ts I. destruct (Ev ts I) as (v & Hv). exists (slice i j v). rewrite Lq. apply (evaluate_slice pow ts vars n i j v U); auto. lia. }
    exists vec, sub, q, qs. split; [exact E|]. split; [exact L|]. split; [exact Es|]. split; [exact Eq|]. split; [now rewrite Sp|]. split; [exact Sv|]. rewrite E'. f_equal.
    apply list_ext_nth. intros k. rewrite nth_error_slice. rewrite Lq in L'. destruct (Nat.ltb_spec k (j - i)) as [Lk|Lk].
    2:{ apply nth_error_None. lia. }
    assert (nth_error (q :: qs) k = nth_error ps (i + k)) as Nk by (rewrite <- Eq, nth_error_slice; destruct (Nat.ltb_spec k (j - i)); [reflexivity|lia]).
    destruct (nth_error (q :: qs) k) as [p|] eqn:Ek; [|apply nth_error_None in Ek; lia]. symmetry in Nk.
    destruct (V (i + k)%nat p Nk) as [V1 V2]. destruct (V' k p Ek) as [V1' V2'].
    assert (In p ps) as Ip by (now apply nth_error_In in Nk). destruct (In_run p Ip) as (Np & Bs & Be2). unfold nonempty in Np.
    destruct (period_inside q qs p Cq (nth_error_In _ _ Ek)) as (_ & Bq1 & Bq2).
    assert (In_period (p_start p) p) as D by (unfold In_period; lia).
    assert (In_period (p_start p) (whole_of first rest)) as D1 by (unfold In_period, whole_of; cbn [p_start p_end]; lia).
    assert (In_period (p_start p) (whole_of q qs)) as D2 by (unfold In_period, whole_of; cbn [p_start p_end]; lia).
    destruct (in_force_decide _ data (whole_of first rest) (p_start p) W Nw D1) as [(ts & F)|F].
    - destruct (V1 _ ts D D1 F) as (v & Ev1 & ->). destruct (V1' _ ts D D2 F) as (v' & Ev2 & ->). rewrite Lq in Ev2.
      assert (Ok v' = Ok (slice i j v)) as Q by (rewrite <- Ev2; apply (evaluate_slice pow ts vars n i j v U); auto; lia). injection Q as ->.
      rewrite nth_error_slice. destruct (Nat.ltb_spec k (j - i)); [reflexivity|lia].
    - assert (forall d ts, In_period d p -> ~ data_in_force data d ts) as NF.
      { intros d ts Dp H. apply (F ts). apply (in_force_period _ data p _ d ts H D Dp); [lia|]. intros t I. now apply NC. }
      rewrite V2, V2'; auto; intros d ts Dp [_ H]; now apply (NF d ts Dp).
  Qed.

  (** the regularity of a part of the run is the part of the regularity *)
  Lemma regularity_slice : forall first rest vars vm input g i j,
    let ps := first :: rest in
    let n := List.length ps in
    make_variables_map ps vars = Ok vm -> contiguous ps ->
    (forall r l, dict_get String.eqb r vars = Some l -> List.length l = n) ->
    p_end (last rest first) <= DT_MAX -> regularity_ok pow vars ps input ->
    regularity_values pow input (whole_of first rest) vm = Ok g ->
    (i < j)%nat -> (j <= n)%nat ->
    List.length g = n /\ regularity_subset pow input vm i j = Ok (slice i j g).
  Proof.
    intros first rest vars vm input g i j ps n Evm C U Mx Rok Eg Lij Lj. unfold regularity_values in Eg.
    assert (data_well_formed (or_default 1%Qc input) /\ data_ordered (or_default 1%Qc input) /\
      (forall t p, In t (data_dates (or_default 1%Qc input)) -> In p ps -> ~ (p_start p < t < p_end p)) /\
      (forall e, In e (data_models (or_default 1%Qc input)) -> evaluable pow vars n e)) as (W & O & NC & Ev).
    { unfold or_default. destruct input as [d|]; [destruct (truthy d); [exact Rok|]|]; (split; [exact I|]; split; [exact I|]; split; [intros t p []|]; intros e [<-|[]]; exact I). }
    destruct (temporal_slice first rest vars vm (td_map input_tokens (or_default 1%Qc input)) i j Evm C U) as (vec & sub & q & qs & E & L & Es & Eq & Sp & Sv & E'); auto using td_map_well_formed, td_map_ordered.
    { intros t p. rewrite td_map_dates. apply NC. }
    { intros ts. rewrite td_map_models, in_map_iff. intros (e & <- & He). apply evaluable_tokens. now apply Ev. }
    rewrite E in Eg. cbn [bind] in Eg. destruct (forallb _ vec) eqn:F; [|discriminate]. injection Eg as <-. split; [exact L|].
    unfold regularity_subset, regularity_values. rewrite Es. cbn [bind]. rewrite Sp.
    replace (periods_period (q :: qs)) with (Ok (whole_of q qs)).
  2:{ exact (eq_sym (Attributes_Proofs2.whole_of q qs)). }
    cbn [bind]. rewrite E'. cbn [bind]. replace (forallb (fun v => (Qcleb 0 v && Qcleb v 1)%bool) (slice i j vec)) with true; [reflexivity|]. symmetry.
    apply forallb_forall. intros x I. rewrite forallb_forall in F. apply F. apply In_nth_error in I as (k & K). rewrite nth_error_slice in K.
    destruct (Nat.ltb k (j - i)); [|discriminate]. now apply nth_error_In in K.
  Qed.
End Pow.

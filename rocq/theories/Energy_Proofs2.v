From Coq Require Import PeanoNat String.
From Verif Require Import QcTac Base BaseLemmas Time_Model Time_Spec Time_Proofs Time_Proofs2 Num Expr_Model Expr_Proofs Vars_Model
  Vars_Proofs Units_Model Rates_Model Rates_Proofs Input_Model Interp_Model Interp_Spec Interp_Proofs Energy_Model Energy_Proofs.
Local Open Scope list_scope.
Local Open Scope Z_scope.

(** ** Generator sets *)
Lemma genset_values_spec : forall first rest vars vm (tm : list (period * generator_set)) f initial power,
  let ps := first :: rest in
  make_variables_map ps vars = Ok vm -> contiguous ps -> disjoint_entries tm -> (forall e, In e tm -> nonempty (fst e)) ->
  (forall q m, In (q, m) tm -> no_cut ps (p_start q) /\ no_cut ps (p_end q)) -> length power = length ps ->
  exists vals, genset_values vm tm f initial power = Ok vals /\ length vals = length ps /\
    forall k p x, nth_error ps k = Some p -> nth_error power k = Some x ->
      (forall t g, In_period t p -> in_force tm t g -> nth_error vals k = Some (f g x)) /\
      ((forall t g, In_period t p -> ~ in_force tm t g) -> nth_error vals k = Some initial).
Proof.
  intros first rest vars vm tm f initial power. cbv zeta. intros Evm Hc Hdis Hne Hcut Lp.
  set (ps := first :: rest) in *.
  assert (vm_periods vm = ps) as Eps.
  { unfold make_variables_map in Evm. destruct (all_dates ps); cbn in Evm; [|discriminate]. now injection Evm as <-. }
  pose proof (vm_period_spec _ _ _ _ Evm) as Ew. apply disjoint_pdisj in Hdis.
  unfold genset_values.
  assert (forall (tm' : list (period * generator_set)) v0, pdisj tm' -> incl tm' tm -> length v0 = length ps ->
    exists vals, fold_left (genset_step vm f power) tm' (Ok v0) = Ok vals /\ length vals = length ps /\
    forall k p x, nth_error ps k = Some p -> nth_error power k = Some x ->
      (forall t g, In_period t p -> in_force tm' t g -> nth_error vals k = Some (f g x)) /\
      ((forall t g, In_period t p -> ~ in_force tm' t g) -> nth_error vals k = nth_error v0 k)) as Main.
  { induction tm' as [|[q g] tm' IH]; intros v0 Hdj Hincl L0.
    - exists v0. split; [reflexivity|]. split; [assumption|]. intros k p x Hk Hx. split; [|auto]. intros t g _ (q & [] & _).
    - cbn [fold_left]. unfold genset_step at 2. cbn [bind fst snd]. rewrite Ew. cbn [bind].
      inversion Hdj as [|? ? Hdj' Hd]; subst.
      assert (In (q, g) tm) as Hq by (apply Hincl; now left). assert (incl tm' tm) as Hincl' by (intros e He; apply Hincl; now right).
      pose proof (Hne _ Hq) as Hnq. cbn [fst] in Hnq. destruct (Hcut _ _ Hq) as [C1 C2].
      destruct (entry_window first rest q Hc Hnq C1 C2) as [[Ei (i & j & Eij & Lij & Lj & Hin)]|[Ei Hout]]; rewrite Ei.
      + rewrite Eps. fold ps in Eij, Lj. rewrite Eij. cbn [bind fst snd].
        assert (length (map (f g) (slice i j power)) = (j - i)%nat) as Ls by (rewrite map_length, slice_length; lia).
        destruct (IH (splice i j (map (f g) (slice i j power)) v0) Hdj' Hincl') as (vals & E & L & H).
        { rewrite splice_length; lia. }
        exists vals. split; [exact E|]. split; [exact L|]. intros k p x Hk Hx. destruct (H k p x Hk Hx) as [H1 H2].
        destruct (Hin k p Hk) as [I1 I2].
        assert (nth_error (splice i j (map (f g) (slice i j power)) v0) k =
          if ((i <=? k) && (k <? j))%nat%bool then Some (f g x) else nth_error v0 k) as Es.
        { rewrite nth_error_splice by lia. rewrite nth_error_map, nth_error_slice.
          destruct (Nat.ltb_spec k i), (Nat.leb_spec i k); cbn [andb]; try lia; auto.
          destruct (Nat.ltb_spec k j); auto. destruct (Nat.ltb_spec (k - i) (j - i)); [|lia].
          replace (i + (k - i))%nat with k by lia. now rewrite Hx. }
        split.
        * intros t g' Ht (q' & [Eq|Hq'] & Htq); [|apply (H1 t g' Ht); exists q'; auto].
          injection Eq as <- <-. rewrite H2, Es.
          -- pose proof (I2 t Ht Htq). destruct (Nat.leb_spec i k), (Nat.ltb_spec k j); cbn [andb]; auto; lia.
          -- intros t2 g2 Ht2 (q2 & Hq2 & Htq2). pose proof (I2 t Ht Htq). apply (Hd (q2, g2) t2 Hq2); cbn [fst]; auto.
        * intros Hno. rewrite H2, Es.
          -- destruct (Nat.leb_spec i k), (Nat.ltb_spec k j); cbn [andb]; auto. exfalso.
             pose proof (contiguous_nonempty _ _ Hc (nth_error_In _ _ Hk)) as Hpn. unfold nonempty in Hpn.
             apply (Hno (p_start p) g); [unfold In_period; lia|]. exists q. split; [now left|]. apply I1; [lia|unfold In_period; lia].
          -- intros t2 g2 Ht2 (q2 & Hq2 & Htq2). apply (Hno t2 g2 Ht2). exists q2. split; auto. now right.
      + destruct (IH v0 Hdj' Hincl' L0) as (vals & E & L & H). exists vals. split; [exact E|]. split; [exact L|].
        intros k p x Hk Hx. destruct (H k p x Hk Hx) as [H1 H2]. split.
        * intros t g' Ht (q' & [Eq|Hq'] & Htq); [|apply (H1 t g' Ht); exists q'; auto].
          injection Eq as <- <-. elim (Hout k p t Hk Ht Htq).
        * intros Hno. apply H2. intros t2 g2 Ht2 (q2 & Hq2 & Htq2). apply (Hno t2 g2 Ht2). exists q2. split; auto. now right. }
  destruct (Main tm (repeat initial (length power)) Hdis (incl_refl _)) as (vals & E & L & H).
  { now rewrite repeat_length. }
  exists vals. split; [exact E|]. split; [exact L|]. intros k p x Hk Hx. destruct (H k p x Hk Hx) as [H1 H2]. split; [exact H1|].
  intros Hno. rewrite (H2 Hno). rewrite (nth_error_nth' _ initial); [f_equal; apply nth_repeat|].
  rewrite repeat_length. apply nth_error_Some. congruence.
Qed.

(** extrema *)
Lemma fold_Qcmax_spec : forall l d, In (fold_left Qcmax l d) (d :: l) /\ forall x, In x (d :: l) -> (x <= fold_left Qcmax l d)%Qc.
Proof.
  induction l as [|a l IH]; intros d; cbn [fold_left].
  - split; [now left|]. intros x [<-|[]]. apply Qcle_refl.
  - destruct (IH (Qcmax d a)) as [H1 H2]. split.
    + destruct H1 as [H1|H1]; [|right; now right]. rewrite <- H1. unfold Qcmax. destruct (Qcleb d a); [right; now left|now left].
    + assert (d <= Qcmax d a /\ a <= Qcmax d a)%Qc as [L1 L2] by (qc_cases; split; qc_lra).
      pose proof (H2 _ (or_introl eq_refl)) as H3.
      intros x [<-|[<-|Hx]]; [| |apply H2; now right]; eapply Qcle_trans; eauto.
Qed.
Lemma fold_Qcmin_spec : forall l d, In (fold_left Qcmin l d) (d :: l) /\ forall x, In x (d :: l) -> (fold_left Qcmin l d <= x)%Qc.
Proof.
  induction l as [|a l IH]; intros d; cbn [fold_left].
  - split; [now left|]. intros x [<-|[]]. apply Qcle_refl.
  - destruct (IH (Qcmin d a)) as [H1 H2]. split.
    + destruct H1 as [H1|H1]; [|right; now right]. rewrite <- H1. unfold Qcmin. destruct (Qcleb d a); [now left|right; now left].
    + assert (Qcmin d a <= d /\ Qcmin d a <= a)%Qc as [L1 L2] by (qc_cases; split; qc_lra).
      pose proof (H2 _ (or_introl eq_refl)) as H3.
      intros x [<-|[<-|Hx]]; [| |apply H2; now right]; eapply Qcle_trans; eauto.
Qed.
Definition maximum_of (l : list Qc) (m : Qc) : Prop := In m l /\ forall x, In x l -> (x <= m)%Qc.
Definition minimum_of (l : list Qc) (m : Qc) : Prop := In m l /\ forall x, In x l -> (m <= x)%Qc.
Lemma list_max_spec : forall l m, list_max l = Ok m -> maximum_of l m.
Proof. intros [|a l] m H; [discriminate|]. injection H as <-. apply fold_Qcmax_spec. Qed.
Lemma list_min_spec : forall l m, list_min l = Ok m -> minimum_of l m.
Proof. intros [|a l] m H; [discriminate|]. injection H as <-. apply fold_Qcmin_spec. Qed.

(** what a generator set with a table of power and fuel does *)
Theorem generator_set_proof : forall t g, make_generator_set t = Ok g ->
  exists power fuel cap lo hi, column_of t "POWER" power /\ column_of t "FUEL" fuel /\ length power = length fuel /\
    maximum_of power cap /\ minimum_of fuel lo /\ maximum_of fuel hi /\
    (forall x, evaluate_power_capacity_margin g (Some x) = Some (cap - x)%Qc) /\
    (forall x, (x <= 0)%Qc -> evaluate_fuel_usage g (Some x) = Some 0%Qc) /\
    (NoDup power -> forall x, (0 < x)%Qc ->
       (in_range (combine power fuel) x -> exists y, interpolates (combine power fuel) x y /\ evaluate_fuel_usage g (Some x) = Some y) /\
       ((forall p, In p power -> (x < p)%Qc) -> evaluate_fuel_usage g (Some x) = Some lo) /\
       ((cap < x)%Qc -> evaluate_fuel_usage g (Some x) = Some hi)).
Proof.
  intros t g H. unfold make_generator_set in H.
  destruct (generator_set_validate t) as [u|]; [|discriminate]. cbn [bind] in H.
  destruct (tabular_column t "FUEL") as [fuel|] eqn:Ef; [|discriminate]. cbn [bind] in H.
  destruct (tabular_column t "POWER") as [power|] eqn:Ep; [|discriminate]. cbn [bind] in H.
  destruct (list_min fuel) as [lo|] eqn:Elo; [|discriminate]. cbn [bind] in H.
  destruct (list_max fuel) as [hi|] eqn:Ehi; [|discriminate]. cbn [bind] in H.
  destruct (make_interpolator power fuel (Some lo) (Some hi)) as [f|] eqn:Ei; [|discriminate]. cbn [bind] in H.
  destruct (list_max power) as [cap|] eqn:Ecap; [|discriminate]. cbn [bind] in H. injection H as <-.
  assert (length power = length fuel) as L.
  { unfold make_interpolator in Ei. destruct (Nat.eqb (length power) (length fuel)) eqn:E; [now apply Nat.eqb_eq|discriminate]. }
  exists power, fuel, cap, lo, hi. split; [now apply tabular_column_of|]. split; [now apply tabular_column_of|]. split; [exact L|].
  split; [now apply list_max_spec|]. split; [now apply list_min_spec|]. split; [now apply list_max_spec|].
  split; [reflexivity|]. split.
  - intros x Hx. unfold evaluate_fuel_usage. replace (Qcltb 0 x) with false; auto. symmetry. now apply Qcltb_ge.
  - intros Hnd x Hx. unfold evaluate_fuel_usage. replace (Qcltb 0 x) with true by (symmetry; now apply Qcltb_lt). cbn [gs_function].
    destruct (interpolation_proof power fuel (Some lo) (Some hi) f Hnd Ei) as (_ & HR & HB & HA & _).
    split; [exact (HR x)|]. split.
    + intros Hb. apply HB. intros a ya Ha. apply Hb. now apply in_combine_l in Ha.
    + intros Hc. apply HA. intros a ya Ha. apply in_combine_l in Ha. apply list_max_spec in Ecap as [_ Hm]. apply Hm in Ha. qc_lra.
Qed.

(** a table with distinct powers always gives a fuel *)
Lemma fuel_usage_known : forall t g x, make_generator_set t = Ok g -> exists y, evaluate_fuel_usage g x = Some y.
Proof.
  intros t g x H. destruct x as [x|]; [|eexists; reflexivity].
  unfold make_generator_set in H.
  destruct (generator_set_validate t) as [u|]; [|discriminate]. cbn [bind] in H.
  destruct (tabular_column t "FUEL") as [fuel|] eqn:Ef; [|discriminate]. cbn [bind] in H.
  destruct (tabular_column t "POWER") as [power|] eqn:Ep; [|discriminate]. cbn [bind] in H.
  destruct (list_min fuel) as [lo|] eqn:Elo; [|discriminate]. cbn [bind] in H.
  destruct (list_max fuel) as [hi|] eqn:Ehi; [|discriminate]. cbn [bind] in H.
  destruct (make_interpolator power fuel (Some lo) (Some hi)) as [f|] eqn:Ei; [|discriminate]. cbn [bind] in H.
  destruct (list_max power) as [cap|] eqn:Ecap; [|discriminate]. cbn [bind] in H. injection H as <-.
  unfold evaluate_fuel_usage. cbn [gs_function]. destruct (Qcltb 0 x); [|eexists; reflexivity].
  unfold make_interpolator in Ei. destruct (negb _); [discriminate|]. destruct power as [|pw power]; [discriminate|]. injection Ei as <-.
  unfold interpolate_1d. cbn [ip_points ip_below ip_above].
  destruct fuel as [|fu fuel]; [discriminate|]. change (combine (pw :: power) (fu :: fuel)) with ((pw, fu) :: combine power fuel).
  destruct (sort (fun p q : Qc * Qc => Qcleb (fst p) (fst q)) ((pw, fu) :: combine power fuel)) as [|[x0 y0] l] eqn:Es.
  { exfalso. pose proof (sort_perm _ (fun p q : Qc * Qc => Qcleb (fst p) (fst q)) ((pw, fu) :: combine power fuel)) as P.
    rewrite Es in P. apply Permutation_sym, Permutation_nil in P. discriminate. }
  destruct (Qcltb x x0); [eexists; reflexivity|]. destruct (Qcltb _ x); [eexists; reflexivity|].
  clear. revert x0 y0. induction l as [|[x1 y1] l IH]; intros x0 y0; cbn [np_interp]; [eexists; reflexivity|].
  destruct (Qcltb x x1); [eexists; reflexivity|]. apply IH.
Qed.

Theorem genset_result_proof : forall first rest vars vm (tm : list (period * generator_set)) power,
  let ps := first :: rest in
  make_variables_map ps vars = Ok vm -> contiguous ps -> disjoint_entries tm -> (forall e, In e tm -> nonempty (fst e)) ->
  (forall q m, In (q, m) tm -> no_cut ps (p_start q) /\ no_cut ps (p_end q)) ->
  (* the models are tables *)
  (forall q g, In (q, g) tm -> exists t, make_generator_set t = Ok g) ->
  length power = length ps ->
  exists r, evaluate_process_model vm tm (Some power) = Ok r /\ gr_power r = power /\
    length (gr_valid r) = length ps /\ length (gr_margin r) = length ps /\ length (gr_fuel r) = length ps /\
    forall k p t g x, nth_error ps k = Some p -> In_period t p -> in_force tm t g -> nth_error power k = Some (Some x) ->
      nth_error (gr_fuel r) k = Some (evaluate_fuel_usage g (Some x)) /\
      (exists margin, nth_error (gr_margin r) k = Some (Some margin) /\
         evaluate_power_capacity_margin g (Some x) = Some margin /\
         (nth_error (gr_valid r) k = Some true <-> (0 <= margin)%Qc) /\
         (nth_error (gr_valid r) k = Some false <-> (margin < 0)%Qc)).
Proof.
  intros first rest vars vm tm power. cbv zeta. intros Evm Hc Hdis Hne Hcut Htab Lp.
  assert (vm_periods vm = first :: rest) as Eps.
  { unfold make_variables_map in Evm. destruct (all_dates (first :: rest)); cbn in Evm; [|discriminate]. now injection Evm as <-. }
  destruct (genset_values_spec first rest vars vm tm evaluate_fuel_usage None power Evm Hc Hdis Hne Hcut Lp) as (fuel & Ef & Lf & Hf).
  destruct (genset_values_spec first rest vars vm tm evaluate_power_capacity_margin (Some 0%Qc) power Evm Hc Hdis Hne Hcut Lp) as (marg & Em & Lm & Hm).
  unfold evaluate_process_model. rewrite Eps, Lp, Nat.eqb_refl. cbn [negb]. rewrite Ef. cbn [bind]. rewrite Em. cbn [bind].
  eexists. split; [reflexivity|]. cbn [gr_power gr_valid gr_margin gr_fuel].
  split; [reflexivity|]. split; [rewrite map2_length; lia|]. split; [exact Lm|].
  assert (forall prev (l : list num), length (ffill_from prev l) = length l) as Lff.
  { clear. intros prev l. revert prev. induction l as [|[v|] l IH]; intros prev; cbn; auto. }
  split; [unfold clean_nan_values, ffill; rewrite map_length, Lff; exact Lf|].
  intros k p t g x Hk Ht Hg Hx.
  destruct (Hf k p _ Hk Hx) as [F _]. destruct (Hm k p _ Hk Hx) as [M _]. specialize (F t g Ht Hg). specialize (M t g Ht Hg).
  destruct Hg as (q & Hq & Htq). destruct (Htab q g Hq) as (tab & Htabg).
  destruct (fuel_usage_known tab g (Some x) Htabg) as (y & Ey). rewrite Ey in F |- *.
  assert (forall prev (l : list num) k v, nth_error l k = Some (Some v) -> nth_error (ffill_from prev l) k = Some (Some v)) as Hff.
  { clear. intros prev l. revert prev. induction l as [|[w|] l IH]; intros prev [|k] v Hv; cbn in *; try congruence; eauto. }
  split.
  - unfold clean_nan_values, ffill. rewrite nth_error_map, (Hff _ _ _ _ F). reflexivity.
  - cbn [evaluate_power_capacity_margin nsub num_lift2]. eexists. split; [exact M|]. split; [reflexivity|].
    rewrite nth_error_map2, F, M. cbn. set (mg := (gs_max_capacity g - x)%Qc). destruct (Qcleb 0 mg) eqn:L.
    + apply Qcleb_le in L. split; [tauto|]. split; [discriminate|]. intros Q. exfalso. qc_lra.
    + apply Qcleb_gt in L. split; [|tauto]. split; [discriminate|]. intros Q. exfalso. qc_lra.
Qed.

(** without a model in force a period is invalid although its margin is 0 *)
Theorem genset_no_model_proof : forall first rest vars vm (tm : list (period * generator_set)) power,
  let ps := first :: rest in
  make_variables_map ps vars = Ok vm -> contiguous ps -> disjoint_entries tm -> (forall e, In e tm -> nonempty (fst e)) ->
  (forall q m, In (q, m) tm -> no_cut ps (p_start q) /\ no_cut ps (p_end q)) -> length power = length ps ->
  exists r, evaluate_process_model vm tm (Some power) = Ok r /\
    forall k p x, nth_error ps k = Some p -> nth_error power k = Some x -> (forall t g, In_period t p -> ~ in_force tm t g) ->
      nth_error (gr_margin r) k = Some (Some 0%Qc) /\ nth_error (gr_valid r) k = Some false.
Proof.
  intros first rest vars vm tm power. cbv zeta. intros Evm Hc Hdis Hne Hcut Lp.
  assert (vm_periods vm = first :: rest) as Eps.
  { unfold make_variables_map in Evm. destruct (all_dates (first :: rest)); cbn in Evm; [|discriminate]. now injection Evm as <-. }
  destruct (genset_values_spec first rest vars vm tm evaluate_fuel_usage None power Evm Hc Hdis Hne Hcut Lp) as (fuel & Ef & Lf & Hf).
  destruct (genset_values_spec first rest vars vm tm evaluate_power_capacity_margin (Some 0%Qc) power Evm Hc Hdis Hne Hcut Lp) as (marg & Em & Lm & Hm).
  unfold evaluate_process_model. rewrite Eps, Lp, Nat.eqb_refl. cbn [negb]. rewrite Ef. cbn [bind]. rewrite Em. cbn [bind].
  eexists. split; [reflexivity|]. cbn [gr_margin gr_valid]. intros k p x Hk Hx Hno.
  destruct (Hf k p _ Hk Hx) as [_ F]. destruct (Hm k p _ Hk Hx) as [_ M]. rewrite nth_error_map2, (F Hno), (M Hno). auto.
Qed.

(** ** Power requirement *)
Lemma add_all_spec : forall l acc n, length acc = n -> (forall v, In v l -> length v = n) ->
  exists s, add_all acc l = Ok s /\ length s = n /\ (l = [] -> s = acc) /\
    (l <> [] -> forall k, (k < n)%nat -> nth_error s k =
       Some (Some (fold_left (fun a v => (a + nan_zero (nth k v None))%Qc) l (nan_zero (nth k acc None))))).
Proof.
  induction l as [|v l IH]; intros acc n La Hl.
  - exists acc. split; [reflexivity|]. split; [assumption|]. split; [auto|]. congruence.
  - cbn [add_all]. unfold elementwise_sum, np_broadcast. rewrite La, (Hl v (or_introl eq_refl)), Nat.eqb_refl. cbn [bind].
    set (s0 := map2 _ acc v).
    assert (forall k, (k < n)%nat -> nth_error s0 k = Some (Some (nan_zero (nth k acc None) + nan_zero (nth k v None))%Qc)) as H0.
    { intros k Hk. unfold s0. rewrite nth_error_map2. rewrite (nth_error_nth' acc None) by lia.
      rewrite (nth_error_nth' v None); [reflexivity|]. rewrite (Hl v (or_introl eq_refl)). lia. }
    assert (length s0 = n) as L0. { unfold s0. rewrite map2_length, La, (Hl v (or_introl eq_refl)). lia. }
    destruct (IH s0 n L0) as (s & E & L & H1 & H2); [intros w Hw; apply Hl; now right|].
    exists s. split; [exact E|]. split; [exact L|]. split; [discriminate|]. intros _ k Hk. cbn [fold_left].
    destruct l as [|w l]; [rewrite (H1 eq_refl); now apply H0|].
    rewrite (H2 ltac:(discriminate) k Hk). do 2 f_equal. do 1 f_equal.
    erewrite nth_error_nth; [|now apply H0]. reflexivity.
Qed.

Definition present {A} (l : list (option A)) : list A := flat_map (fun c => match c with Some v => [v] | None => [] end) l.

(** consumers with finite power: the requirement is the sum; None if no consumer has power *)
Theorem power_requirement_proof : forall (consumers : list (option (list Qc))) n,
  (forall v, In (Some v) consumers -> length v = n) ->
  exists r, power_requirement (map (option_map (map Some)) consumers) = Ok r /\
    (present consumers = [] -> r = None) /\
    (present consumers <> [] -> exists total, r = Some total /\ length total = n /\
       forall k, (k < n)%nat -> nth_error total k = Some (Some (qsum (map (fun v => nth k v 0%Qc) (present consumers))))).
Proof.
  intros consumers n Hn. unfold power_requirement.
  assert (flat_map (fun c : option (list num) => match c with Some v => [v] | None => [] end)
    (map (option_map (map Some)) consumers) = map (map Some) (present consumers)) as ->.
  { clear. induction consumers as [|[c|] l IH]; cbn; auto. now f_equal. }
  assert (forall v, In v (present consumers) -> length v = n) as Hp.
  { intros v Hv. apply Hn. unfold present in Hv. apply in_flat_map in Hv as ([c|] & Hc & Hv); [|destruct Hv]. destruct Hv as [<-|[]]. exact Hc. }
  destruct (present consumers) as [|v [|w l]].
  - exists None. split; [reflexivity|]. split; [auto|]. congruence.
  - exists (Some (map Some v)). split; [reflexivity|]. split; [discriminate|]. intros _. exists (map Some v).
    split; [reflexivity|]. split; [rewrite map_length; apply Hp; now left|]. intros k Hk.
    rewrite nth_error_map. rewrite (nth_error_nth' v 0%Qc) by (rewrite (Hp v (or_introl eq_refl)); lia). cbn. do 2 f_equal. ring.
  - cbn [map].
    destruct (add_all_spec (map (map Some) (w :: l)) (map Some v) n) as (s & E & L & _ & H).
    { rewrite map_length. apply Hp. now left. }
    { intros u Hu. apply in_map_iff in Hu as (u' & <- & Hu). rewrite map_length. apply Hp. now right. }
    change (map Some w :: map (map Some) l) with (map (map Some) (w :: l)). cbn [map] in E |- *. rewrite E. cbn [bind].
    exists (Some s). split; [reflexivity|]. split; [discriminate|]. intros _. exists s. split; [reflexivity|]. split; [exact L|].
    intros k Hk. rewrite (H ltac:(discriminate) k Hk). do 2 f_equal.
    assert (forall u, length u = n -> nan_zero (nth k (map Some u) None) = nth k u 0%Qc) as Hz.
    { intros u Lu. rewrite (nth_indep _ None (Some 0%Qc)) by (rewrite map_length; lia). change (Some 0%Qc) with (Some (0%Qc)). now rewrite map_nth. }
    rewrite Hz by (apply Hp; now left).
    assert (forall l' a, (forall u, In u l' -> length u = n) ->
      fold_left (fun a v => (a + nan_zero (nth k v None))%Qc) (map (map Some) l') a = (a + qsum (map (fun v => nth k v 0%Qc) l'))%Qc) as Hfold.
    { clear - Hz. induction l' as [|u l' IH]; intros a Hl; cbn [map fold_left qsum fold_right]; [ring|].
      rewrite IH by (intros; apply Hl; now right). rewrite Hz by (apply Hl; now left). unfold qsum. ring. }
    change (map Some w :: map (map Some) l) with (map (map Some) (w :: l)).
    rewrite Hfold by (intros u Hu; apply Hp; now right). reflexivity.
Qed.

(** ** Power loss *)
Theorem power_loss_proof : forall usage factor, length usage = length factor ->
  exists usage', apply_power_loss (map Some usage) factor = Ok usage' /\ length usage' = length usage /\
    forall k u f, nth_error usage k = Some u -> nth_error factor k = Some f ->
      (f <> 1%Qc -> exists u', nth_error usage' k = Some (Some u') /\ (u' * (1 - f) = u)%Qc) /\
      (f = 0%Qc -> nth_error usage' k = Some (Some u)) /\
      (f = 1%Qc -> nth_error usage' k = Some None).
Proof.
  intros usage factor L. unfold apply_power_loss.
  destruct (existsb (fun f => negb (Qceqb f 0)) factor) eqn:Ex.
  - unfold np_broadcast. rewrite map_length, L, Nat.eqb_refl. eexists. split; [reflexivity|].
    split; [rewrite map2_length, map_length; lia|]. intros k u f Hu Hf.
    rewrite nth_error_map2, nth_error_map, Hu, Hf. cbn [option_map ndiv].
    assert (Qceqb (1 - f) 0 = true <-> f = 1%Qc) as Hz.
    { rewrite Qceqb_eq. split; intros H; [qc_lra|subst; ring]. }
    split; [|split].
    + intros Hne. destruct (Qceqb (1 - f) 0) eqn:E; [elim Hne; now apply Hz|]. apply Qceqb_neq in E.
      eexists. split; [reflexivity|]. field. exact E.
    + intros ->. replace (Qceqb (1 - 0) 0) with false by reflexivity. do 2 f_equal. field. discriminate.
    + intros H. apply Hz in H. now rewrite H.
  - exists (map Some usage). split; [reflexivity|]. split; [apply map_length|]. intros k u f Hu Hf.
    assert (f = 0%Qc) as ->.
    { destruct (Qceqb f 0) eqn:E; [now apply Qceqb_eq|]. exfalso. assert (existsb (fun f => negb (Qceqb f 0)) factor = true); [|congruence].
      apply existsb_exists. exists f. split; [now apply nth_error_In in Hf|]. now rewrite E. }
    rewrite nth_error_map, Hu. cbn [option_map]. split; [|split; [auto|discriminate]].
    intros _. exists u. split; [reflexivity|]. ring.
Qed.

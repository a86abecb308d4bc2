(** The properties of the sampled compressor. *)
From Coq Require Import PeanoNat.
From Verif Require Import QcTac Base BaseLemmas Num Interp_Model Interp_Spec Interp_Proofs Sampled_Model Sampled_Spec Sampled_Proofs Sampled_Proofs2 Sampled_Proofs3 Sampled_Proofs4 Sampled_Proofs5.
Local Open Scope list_scope.
Local Open Scope Qc_scope.

Lemma evaluate_inv : forall m rate ps pd res, evaluate_sampled m rate ps pd = Ok res ->
  interpolated_values m rate ps pd = Ok (sr_usage res).
Proof.
  intros m rate ps pd res H. unfold evaluate_sampled in H. destruct (interpolated_values m rate ps pd) as [us|]; [|discriminate].
  cbn [bind] in H. destruct (fuel_to_power (sa_samples m)) as [t|]; [|discriminate]. cbn [bind] in H. injection H as <-. reflexivity.
Qed.

Lemma conditions_within : forall g s m rate ps pd k, make_sampled g s = Ok m -> running rate k ->
  (conditions m (shifted (value_at rate k)) (value_at ps k) (value_at pd k) = true <-> within_constants s rate ps pd k).
Proof.
  intros g s m rate ps pd k Hm Hr. destruct (make_sampled_inv g s m Hm) as (_ & _ & _ & E1 & E2 & E3).
  unfold conditions, within_constants. rewrite E1, E2, E3, !andb_true_iff.
  assert (met (Qcltb 0) (shifted (value_at rate k)) = true) as P.
  { destruct (value_at rate k) as [r|] eqn:E; [|reflexivity]. cbn. apply Qcltb_lt. apply shift_on. apply Hr. now apply value_at_requested. }
  assert (met (at_most (constant_value s RATE)) (shifted (value_at rate k)) = true <->
    (forall c r, column_is (sm_rate s) c -> requested rate k r -> r - tiny <= c)) as A1.
  { split.
    - intros H c r Hc Hq. apply (constant_value_ok s RATE c) in Hc. rewrite Hc in H. pose proof (Hr r Hq) as Hr'. apply value_at_requested in Hq. rewrite Hq in H. cbn in H.
      destruct (shift_on r Hr') as [<- _]. now apply Qcleb_le.
    - intros H. destruct (value_at rate k) as [r|] eqn:E; [|reflexivity]. cbn. destruct (constant_value s RATE) as [c|] eqn:Ec; [|reflexivity]. cbn.
      apply value_at_requested in E. apply (constant_value_ok s RATE c) in Ec. destruct (shift_on r (Hr r E)) as [-> _]. apply Qcleb_le. now apply H. }
  assert (met (at_least (constant_value s PS)) (value_at ps k) = true <->
    (forall c p, column_is (sm_ps s) c -> requested ps k p -> c <= p)) as A2.
  { split.
    - intros H c p Hc Hq. apply (constant_value_ok s PS c) in Hc. rewrite Hc in H. apply value_at_requested in Hq. rewrite Hq in H. cbn in H. now apply Qcleb_le.
    - intros H. destruct (value_at ps k) as [p|] eqn:E; [|reflexivity]. cbn. destruct (constant_value s PS) as [c|] eqn:Ec; [|reflexivity]. cbn.
      apply value_at_requested in E. apply (constant_value_ok s PS c) in Ec. apply Qcleb_le. now apply H. }
  assert (met (at_most (constant_value s PD)) (value_at pd k) = true <->
    (forall c p, column_is (sm_pd s) c -> requested pd k p -> p <= c)) as A3.
  { split.
    - intros H c p Hc Hq. apply (constant_value_ok s PD c) in Hc. rewrite Hc in H. apply value_at_requested in Hq. rewrite Hq in H. cbn in H. now apply Qcleb_le.
    - intros H. destruct (value_at pd k) as [p|] eqn:E; [|reflexivity]. cbn. destruct (constant_value s PD) as [c|] eqn:Ec; [|reflexivity]. cbn.
      apply value_at_requested in E. apply (constant_value_ok s PD c) in Ec. apply Qcleb_le. now apply H. }
  rewrite A1, A2, A3. tauto.
Qed.

Lemma shifted_running : forall rate k x, running rate k -> shifted (value_at rate k) = Some x -> exists r, requested rate k r /\ x = r - tiny.
Proof.
  intros rate k x Hr H. destruct (value_at rate k) as [r|] eqn:E; [|discriminate]. cbn in H. injection H as <-.
  apply value_at_requested in E. exists r. split; [exact E|]. apply shift_on. now apply Hr.
Qed.
Lemma shifted_positive : forall rate k x, running rate k -> shifted (value_at rate k) = Some x -> 0 < x.
Proof.
  intros rate k x Hr H. destruct (value_at rate k) as [r|] eqn:E; [|discriminate]. cbn in H. injection H as <-.
  apply value_at_requested in E. apply shift_on. now apply Hr.
Qed.

(** ** Off and refused *)
Lemma off_uses_nothing : forall g s m rate ps pd res k, make_sampled g s = Ok m -> evaluate_sampled m rate ps pd = Ok res ->
  off rate k -> nth_error (sr_usage res) k = Some (Some 0).
Proof.
  intros g s m rate ps pd res k Hm He (r & Hq & Lr). apply evaluate_inv in He. destruct (period_usage m rate ps pd _ He) as (_ & HL & HP).
  destruct Hq as (l & -> & Hk). destruct (nth_error (sr_usage res) k) as [u|] eqn:Eu.
  - destruct (HP k u Eu) as (H0 & _). f_equal. apply (H0 (shift_rate r)); [cbn; now rewrite Hk|now apply shift_off].
  - apply nth_error_None in Eu. rewrite <- (HL (Some l) l) in Eu; [|now left|reflexivity]. apply nth_error_None in Eu. congruence.
Qed.

(** beyond the value of a constant column there is no answer *)
Lemma outside_constants : forall g s m rate ps pd res k u, make_sampled g s = Ok m -> evaluate_sampled m rate ps pd = Ok res ->
  nth_error (sr_usage res) k = Some u -> running rate k -> ~ within_constants s rate ps pd k -> u = None.
Proof.
  intros g s m rate ps pd res k u Hm He Hu Hr Hw. apply evaluate_inv in He. destruct (period_usage m rate ps pd _ He) as (_ & _ & HP).
  destruct (HP k u Hu) as (_ & _ & H). apply H.
  - destruct (conditions _ _ _ _) eqn:E; [|reflexivity]. elim Hw. now apply (conditions_within g s m rate ps pd k Hm Hr).
  - intros x Hx. exact (shifted_positive rate k x Hr Hx).
Qed.

(** ** One variable *)
Lemma varying_single : forall s v, acceptable s -> only_vary s [v] -> varying_variables s = [v].
Proof.
  intros s v A H. destruct (varying_list s A) as (r & p & d & -> & Hr & Hp & Hd).
  pose proof (H RATE) as R. pose proof (H PS) as P. pose proof (H PD) as D. cbn [sm_column] in R, P, D.
  rewrite <- Hr in R. rewrite <- Hp in P. rewrite <- Hd in D. clear Hr Hp Hd H.
  destruct v; cbn in R, P, D; destruct r, p, d; cbn; try reflexivity; exfalso;
    repeat match goal with H : _ <-> true = true |- _ => destruct (proj2 H eq_refl) as [?|[]]; clear H; try discriminate
                         | H : _ <-> false = true |- _ => first [assert (false = true) by (apply H; left; reflexivity); discriminate|clear H] end.
Qed.

Lemma make_1d_answer : forall v xs ys m, List.length xs = List.length ys -> xs <> [] -> make_1d v xs ys = Ok m ->
  NoDup xs /\ d1_variable m = v /\ (forall x, answer_1d v (combine xs ys) x (interpolate_1d (d1_function m) (Some x))) /\
  (v = RATE -> exists x, d1_max_rate m = Some x /\ is_largest xs x) /\ (v <> RATE -> d1_max_rate m = None).
Proof.
  intros v xs ys m EL Hne H. unfold make_1d in H. set (rows := combine xs ys) in *. set (srt := sort by_fst rows) in *.
  pose proof (sort_perm _ by_fst rows) as Perm. fold srt in Perm.
  assert (map fst rows = xs) as Efst.
  { unfold rows. clear - EL. revert ys EL. induction xs as [|x xs IH]; intros [|y ys] EL; cbn in *; try discriminate; auto. f_equal. apply IH. lia. }
  assert (Sorted (fun a b => Qcleb (fst a) (fst b) = true) srt) as Hsort.
  { apply sort_Sorted. intros x y Q. unfold by_fst in *. apply Qcleb_gt in Q. apply Qcleb_le. qc_lra. }
  destruct (extrapolation_values v srt) as [fill|] eqn:Efill; [|discriminate]. cbn [bind] in H.
  destruct srt as [|p0 rest] eqn:Es.
  { apply Permutation_sym, Permutation_nil in Perm. rewrite Perm in Efst. cbn in Efst. congruence. }
  cbn [last_of last_opt of_option bind] in H.
  destruct (Nat.eqb (List.length (p0 :: rest)) (number_of_values (map fst (p0 :: rest)))) eqn:En; [|discriminate]. apply Nat.eqb_eq in En.
  assert (NoDup (map fst (p0 :: rest))) as Hnd.
  { unfold number_of_values in En. rewrite <- (map_length fst) in En. clear - En. revert En. generalize (map fst (p0 :: rest)). intros l En.
    apply (NoDup_incl_NoDup (l := nodup Qc_eq_dec l)); [apply NoDup_nodup|rewrite <- En; apply le_n|]. intros x Hx. now apply nodup_In in Hx. }
  destruct (make_interpolator (map fst (p0 :: rest)) (map snd (p0 :: rest)) (fst fill) (snd fill)) as [f|] eqn:Ef; [|discriminate].
  cbn [bind] in H. injection H as <-. cbn [d1_variable d1_function d1_max_rate].
  assert (combine (map fst (p0 :: rest)) (map snd (p0 :: rest)) = p0 :: rest) as Ec.
  { clear. generalize (p0 :: rest). induction l as [|[a b] l IH]; cbn; [reflexivity|]. now rewrite IH. }
  assert (forall a e, In (a, e) rows <-> In (a, e) (p0 :: rest)) as HI.
  { intros a e. split; apply Permutation_in; [exact Perm|now apply Permutation_sym]. }
  destruct (interpolation_proof _ _ _ _ _ Hnd Ef) as (_ & IR & IB & IA & _). rewrite Ec in IR, IB, IA.
  assert (NoDup xs) as Hnd' by (rewrite <- Efst; eapply Permutation_NoDup; [apply Permutation_map, Permutation_sym; exact Perm|exact Hnd]).
  split; [exact Hnd'|]. split; [reflexivity|]. split; [|split].
  - intros x. split; [|split].
    + intros [(a & ea & Ia & La) (b & eb & Ib & Lb)]. destruct (IR x) as (e & He & Ee).
      { split; [exists a, ea|exists b, eb]; (split; [now apply HI|assumption]). }
      exists e. split; [|exact Ee]. destruct He as [He|(c & ec & d & ed & I1 & I2 & L1 & L2 & Hn & ->)]; [left; now apply HI|].
      right. exists c, ec, d, ed. rewrite !HI. repeat split; auto. intros z ez Hz. apply (Hn z ez). now apply HI.
    + intros Hx. rewrite IB by (intros a e Ha; apply (Hx a e); now apply HI).
      assert (at_lowest rows (Some (snd p0))) as Hlow.
      { exists (fst p0), (snd p0). split; [apply HI; left; now destruct p0|]. split; [|reflexivity]. intros b e' Hb. apply HI in Hb. exact (Sorted_first fst rest p0 (b, e') Hsort Hb). }
      destruct v; cbn [extrapolation_values first_of last_of nth_error last_opt of_option bind] in Efill; injection Efill as <-; cbn [fst]; auto.
    + intros Hx. rewrite IA by (intros a e Ha; apply (Hx a e); now apply HI).
      assert (at_highest rows (Some (snd (last rest p0)))) as Hhigh.
      { exists (fst (last rest p0)), (snd (last rest p0)). split; [apply HI; destruct (last rest p0) as [a e] eqn:El; cbn; rewrite <- El; apply last_in|]. split; [|reflexivity].
        intros b e' Hb. apply HI in Hb. exact (Sorted_last fst rest p0 (b, e') Hsort Hb). }
      destruct v; cbn [extrapolation_values first_of last_of nth_error last_opt of_option bind] in Efill; injection Efill as <-; cbn [snd]; auto.
  - intros ->. exists (fst (last rest p0)). split; [reflexivity|]. split.
    + rewrite <- Efst. apply in_map. apply (Permutation_in _ (Permutation_sym Perm)). apply last_in.
    + intros y Hy. rewrite <- Efst in Hy. apply in_map_iff in Hy as (q & <- & Hq). apply (Permutation_in _ Perm) in Hq. exact (Sorted_last fst rest p0 q Hsort Hq).
  - intros N. destruct v; [congruence|reflexivity|reflexivity].
Qed.

Lemma core_single : forall g s m v xs, make_sampled g s = Ok m -> only_vary s [v] -> column s v xs ->
  exists d, sa_core m = Core1D d /\ List.length xs = List.length (sm_usage s) /\ xs <> [] /\ make_1d v xs (sm_usage s) = Ok d.
Proof.
  intros g s m v xs Hm Hv Hc. destruct (make_sampled_inv g s m Hm) as (A & Ec & _).
  unfold make_core in Ec. rewrite (varying_single s v A Hv) in Ec. unfold column in Hc.
  assert (column_or_nil s v = xs) as E by (unfold column_or_nil; now rewrite Hc). 
  assert (List.length xs = List.length (sm_usage s)) as EL by (destruct A as (_ & HL & _); apply (HL (sm_column s v)); [destruct v; cbn; auto|exact Hc]).
  assert (make_core g s = (do m <- make_1d v xs (sm_usage s); Ok (Core1D m))) as Em.
  { unfold make_core. rewrite (varying_single s v A Hv). destruct v; rewrite E; reflexivity. }
  assert ((do d <- make_1d v xs (sm_usage s); Ok (Core1D d)) = Ok (sa_core m)) as Q.
  { rewrite <- Em. unfold make_core. rewrite (varying_single s v A Hv). exact Ec. }
  destruct (make_1d v xs (sm_usage s)) as [d|]; [|discriminate]. injection Q as Q. exists d. repeat split; auto. now apply (acceptable_nonempty s v).
Qed.

Theorem one_variable : forall g s m rate ps pd res k u v xs,
  make_sampled g s = Ok m -> evaluate_sampled m rate ps pd = Ok res -> nth_error (sr_usage res) k = Some u ->
  only_vary s [v] -> column s v xs -> running rate k -> within_constants s rate ps pd k ->
  exists x, requested (series v rate ps pd) k x /\ answer_1d v (combine xs (sm_usage s)) (looked_up v x) u.
Proof.
  intros g s m rate ps pd res k u v xs Hm He Hu Hv Hc Hr Hw. apply evaluate_inv in He. destruct (period_usage m rate ps pd _ He) as (_ & _ & HP).
  destruct (HP k u Hu) as (_ & H & _). specialize (H (proj2 (conditions_within g s m rate ps pd k Hm Hr) Hw)).
  destruct (core_single g s m v xs Hm Hv Hc) as (d & Ed & EL & Ne & E1). rewrite Ed in H. cbn [core_point] in H.
  destruct (make_1d_answer v xs (sm_usage s) d EL Ne E1) as (_ & Ev & HA & _). rewrite Ev in H. destruct H as (x & Hx & ->).
  destruct v; cbn [series looked_up].
  - destruct (shifted_running rate k x Hr Hx) as (r & Hq & ->). exists r. split; [exact Hq|apply HA].
  - exists x. split; [now apply value_at_requested|apply HA].
  - exists x. split; [now apply value_at_requested|apply HA].
Qed.

(** ** Acceptance *)
Theorem accepted_1d : forall g s v xs, acceptable s -> only_vary s [v] -> column s v xs ->
  (NoDup xs <-> exists m, make_sampled g s = Ok m) /\ (~ NoDup xs <-> make_sampled g s = Err TypeError).
Proof.
  intros g s v xs A Hv Hc.
  assert (List.length xs = List.length (sm_usage s)) as EL by (destruct A as (_ & HL & _); apply (HL (sm_column s v)); [destruct v; cbn; auto|exact Hc]).
  assert (xs <> []) as Ne by now apply (acceptable_nonempty s v).
  assert (make_core g s = (do m <- make_1d v xs (sm_usage s); Ok (Core1D m))) as Em.
  { unfold make_core. rewrite (varying_single s v A Hv). unfold column in Hc. unfold column_or_nil. destruct v; cbn [sm_column] in *; rewrite Hc; reflexivity. }
  assert ((NoDup xs -> exists d, make_1d v xs (sm_usage s) = Ok d) /\ (~ NoDup xs -> make_1d v xs (sm_usage s) = Err TypeError)) as [M1 M2].
  { unfold make_1d. set (rows := combine xs (sm_usage s)). pose proof (sort_perm _ by_fst rows) as Perm.
    assert (map fst rows = xs) as Efst.
    { unfold rows. clear - EL. revert EL. generalize (sm_usage s). induction xs as [|x xs IH]; intros [|y ys] EL; cbn in *; try discriminate; auto. f_equal. apply IH. lia. }
    destruct (sort by_fst rows) as [|p0 rest] eqn:Es.
    { apply Permutation_sym, Permutation_nil in Perm. rewrite Perm in Efst. cbn in Efst. congruence. }
    assert (exists fill, extrapolation_values v (p0 :: rest) = Ok fill) as (fill & ->) by (destruct v; cbn; eexists; reflexivity).
    cbn [bind last_of last_opt of_option].
    assert (NoDup xs <-> NoDup (map fst (p0 :: rest))) as HN.
    { rewrite <- Efst. split; apply Permutation_NoDup; [|apply Permutation_sym]; now apply Permutation_map. }
    destruct (Nat.eqb (List.length (p0 :: rest)) (number_of_values (map fst (p0 :: rest)))) eqn:En.
    - assert (NoDup xs) as Hnd.
      { apply HN. apply Nat.eqb_eq in En. unfold number_of_values in En. rewrite <- (map_length fst) in En. clear - En. revert En. generalize (map fst (p0 :: rest)). intros l En.
        apply (NoDup_incl_NoDup (l := nodup Qc_eq_dec l)); [apply NoDup_nodup|rewrite <- En; apply le_n|]. intros x Hx. now apply nodup_In in Hx. }
      split; [|contradiction]. intros _. unfold make_interpolator. rewrite !map_length, Nat.eqb_refl. cbn [negb map bind]. eexists. reflexivity.
    - apply Nat.eqb_neq in En. split; [|reflexivity]. intros Hnd. exfalso. apply En. unfold number_of_values. rewrite nodup_fixed_point by now apply HN. now rewrite map_length. }
  unfold make_sampled. assert (has_variable s && equal_lengths s && all_non_negative s = true) as B by now apply acceptable_ok.
  rewrite !andb_true_iff in B. destruct B as [[-> ->] ->]. cbn [negb]. rewrite Em.
  destruct (ListDec.NoDup_dec Qc_eq_dec xs) as [N|N].
  - destruct (M1 N) as (d & ->). cbn [bind]. split; split; auto; [eexists; reflexivity|contradiction|discriminate].
  - rewrite (M2 N). cbn [bind]. split; split; auto; [contradiction|intros (m & Q); discriminate].
Qed.

(** ** Two variables *)
Lemma varying_two : forall s vs, acceptable s -> only_vary s vs ->
  (vs = [RATE; PD] \/ vs = [RATE; PS] \/ vs = [PS; PD]) -> varying_variables s = vs.
Proof.
  intros s vs A H Hvs. destruct (varying_list s A) as (r & p & d & -> & Hr & Hp & Hd).
  pose proof (H RATE) as R. pose proof (H PS) as P. pose proof (H PD) as D. cbn [sm_column] in R, P, D.
  rewrite <- Hr in R. rewrite <- Hp in P. rewrite <- Hd in D. clear Hr Hp Hd H.
  assert (forall b : bool, (True <-> b = true) -> b = true) as T by tauto.
  destruct Hvs as [-> | [-> | ->]]; cbn in R, P, D.
  - assert (r = true) as -> by (apply R; auto). assert (d = true) as -> by (apply D; auto). assert (p = false) as -> by (destruct p; [destruct (proj2 P eq_refl) as [?|[?|[]]]; discriminate|reflexivity]). reflexivity.
  - assert (r = true) as -> by (apply R; auto). assert (p = true) as -> by (apply P; auto). assert (d = false) as -> by (destruct d; [destruct (proj2 D eq_refl) as [?|[?|[]]]; discriminate|reflexivity]). reflexivity.
  - assert (p = true) as -> by (apply P; auto). assert (d = true) as -> by (apply D; auto). assert (r = false) as -> by (destruct r; [destruct (proj2 R eq_refl) as [?|[?|[]]]; discriminate|reflexivity]). reflexivity.
Qed.

Theorem two_rate_pd : forall g s m rate ps pd res k u xs ys,
  sound_geometry g -> make_sampled g s = Ok m -> evaluate_sampled m rate ps pd = Ok res -> nth_error (sr_usage res) k = Some u ->
  only_vary s [RATE; PD] -> column s RATE xs -> column s PD ys -> centred (combine xs ys) ->
  running rate k -> within_constants s rate ps pd k ->
  exists r p f, requested rate k r /\ requested pd k p /\ g_surface g (combine xs ys) (sm_usage s) = Ok f /\
    answer_2d (in_hull (combine xs ys)) f (r - tiny) p u.
Proof.
  intros g s m rate ps pd res k u xs ys Hg Hm He Hu Hv Hx Hy C Hr Hw. apply evaluate_inv in He. destruct (period_usage m rate ps pd _ He) as (_ & _ & HP).
  destruct (HP k u Hu) as (_ & H & _). specialize (H (proj2 (conditions_within g s m rate ps pd k Hm Hr) Hw)).
  destruct (make_sampled_inv g s m Hm) as (A & Ec & _). unfold make_core in Ec. rewrite (varying_two s _ A Hv (or_introl eq_refl)) in Ec.
  unfold column in Hx, Hy. unfold column_or_nil in Ec. rewrite Hx, Hy in Ec.
  destruct (make_rate_pd g (combine xs ys) (sm_usage s)) as [c|] eqn:E; [|discriminate]. cbn [bind] in Ec. injection Ec as Ec. rewrite <- Ec in H.
  cbn [core_point] in H. destruct H as (x & y & E1 & E2 & ->). destruct (rate_pd_answer g _ _ c Hg C E) as (f & Ef & Ha).
  destruct (shifted_running rate k x Hr E1) as (r & Hq & ->). apply value_at_requested in E2. exists r, y, f. repeat split; auto; apply Ha.
Qed.
Theorem two_rate_ps : forall g s m rate ps pd res k u xs ys,
  sound_geometry g -> make_sampled g s = Ok m -> evaluate_sampled m rate ps pd = Ok res -> nth_error (sr_usage res) k = Some u ->
  only_vary s [RATE; PS] -> column s RATE xs -> column s PS ys -> centred (combine xs ys) ->
  running rate k -> within_constants s rate ps pd k ->
  exists r p f, requested rate k r /\ requested ps k p /\ g_surface g (combine xs ys) (sm_usage s) = Ok f /\
    answer_2d (fun r' q => in_hull (combine xs ys) r' (- q)) (fun r' q => f r' (- q)) (r - tiny) (- p) u.
Proof.
  intros g s m rate ps pd res k u xs ys Hg Hm He Hu Hv Hx Hy C Hr Hw. apply evaluate_inv in He. destruct (period_usage m rate ps pd _ He) as (_ & _ & HP).
  destruct (HP k u Hu) as (_ & H & _). specialize (H (proj2 (conditions_within g s m rate ps pd k Hm Hr) Hw)).
  destruct (make_sampled_inv g s m Hm) as (A & Ec & _). unfold make_core in Ec. rewrite (varying_two s _ A Hv (or_intror (or_introl eq_refl))) in Ec.
  unfold column in Hx, Hy. unfold column_or_nil in Ec. rewrite Hx, Hy in Ec.
  destruct (make_rate_ps g (combine xs ys) (sm_usage s)) as [c|] eqn:E; [|discriminate]. cbn [bind] in Ec. injection Ec as Ec. rewrite <- Ec in H.
  cbn [core_point] in H. destruct H as (x & y & E1 & E2 & ->). destruct (rate_ps_answer g _ _ c Hg C E) as (f & Ef & Ha).
  destruct (shifted_running rate k x Hr E1) as (r & Hq & ->). apply value_at_requested in E2. exists r, y, f. repeat split; auto; apply Ha.
Qed.
Theorem two_ps_pd : forall g s m rate ps pd res k u xs ys,
  sound_geometry g -> make_sampled g s = Ok m -> evaluate_sampled m rate ps pd = Ok res -> nth_error (sr_usage res) k = Some u ->
  only_vary s [PS; PD] -> column s PS xs -> column s PD ys -> centred (combine xs ys) ->
  running rate k -> within_constants s rate ps pd k ->
  exists p d f, requested ps k p /\ requested pd k d /\ g_surface g (combine xs ys) (sm_usage s) = Ok f /\
    answer_2d (fun d' q => in_hull (combine xs ys) (- q) d') (fun d' q => f (- q) d') d (- p) u.
Proof.
  intros g s m rate ps pd res k u xs ys Hg Hm He Hu Hv Hx Hy C Hr Hw. apply evaluate_inv in He. destruct (period_usage m rate ps pd _ He) as (_ & _ & HP).
  destruct (HP k u Hu) as (_ & H & _). specialize (H (proj2 (conditions_within g s m rate ps pd k Hm Hr) Hw)).
  destruct (make_sampled_inv g s m Hm) as (A & Ec & _). unfold make_core in Ec. rewrite (varying_two s _ A Hv (or_intror (or_intror eq_refl))) in Ec.
  unfold column in Hx, Hy. unfold column_or_nil in Ec. rewrite Hx, Hy in Ec.
  destruct (make_ps_pd g (combine xs ys) (sm_usage s)) as [c|] eqn:E; [|discriminate]. cbn [bind] in Ec. injection Ec as Ec. rewrite <- Ec in H.
  cbn [core_point] in H. destruct H as (x & y & E1 & E2 & ->). destruct (ps_pd_answer g _ _ c Hg C E) as (f & Ef & Ha).
  apply value_at_requested in E1, E2. exists x, y, f. repeat split; auto; apply Ha.
Qed.

(** A shaft for each section (C121). *)
From Coq Require Import List Bool ZArith Lia.
From Verif Require Import QcTac Base BaseLemmas Num Stream_Model Stream_Spec Stream_Proofs Process_Model Process_Proofs Search_Model Solver_Model Solver_Spec Solver_Proofs
  Solver_Proofs2 Solver_Proofs3 Solver_Proofs5 Solver_Proofs6 Solver_Proofs7 Several_Spec.
Import ListNotations.
Local Open Scope Qc_scope.

Lemma becomes_iff : forall e f, becomes e f <-> (e = DidNotConverge /\ f = ConvergenceFailure) \/ process_failure e = Some f.
Proof.
  intros e f. split.
  - intros H. destruct H; cbn [process_failure]; auto.
  - intros [[-> ->]|H]; [constructor|]. destruct e; cbn [process_failure] in H; try discriminate H; injection H as <-; constructor.
Qed.

(** What the except clauses leave. *)
Lemma caught_cases : forall confs m h o h', caught confs m h = (o, h') ->
  match o with
  | Return sol => m h = (Return sol, h') \/ exists e f, m h = (Raise e, h') /\ becomes e f /\ sol = mk_solution confs (Some f)
  | Raise e => m h = (Raise e, h') /\ forall f, ~ becomes e f
  end.
Proof.
  intros confs m h o h' H. unfold caught, catch in H. destruct (m h) as [[s|e] hs] eqn:E.
  - assert (o = Return s /\ hs = h') as [-> ->] by (split; congruence). now left.
  - destruct e; cbn [process_failure] in H; cbv [ret] in H;
      match type of H with
      | (Return (mk_solution _ (Some ?f)), _) = _ =>
          assert (o = Return (mk_solution confs (Some f)) /\ hs = h') as [-> ->] by (split; congruence);
          right; eexists; exists f; split; [reflexivity|split; [constructor|reflexivity]]
      | (Raise ?e, _) = _ => assert (o = Raise e /\ hs = h') as [-> ->] by (split; congruence);
          split; [reflexivity|intros f B; inversion B]
      end.
Qed.

Lemma find_solution_raises : forall ph sec targets inlet h e h' f,
  find_solution ph sec targets inlet h = (Raise e, h') -> ~ becomes e f.
Proof.
  intros ph sec targets inlet h e h' f H.
  destruct targets as [|t [|t2 ts]]; cbn [find_solution] in H;
    try (cbv [raise] in H; assert (e = AssertionErr) as -> by congruence; intros B; inversion B).
  apply caught_cases in H. apply H.
Qed.

Lemma success_None : forall s, success s = true <-> sol_failure s = None.
Proof. intros s. unfold success. destruct (sol_failure s); split; congruence. Qed.
Lemma success_Some : forall s, success s = false <-> sol_failure s <> None.
Proof. intros s. unfold success. destruct (sol_failure s); split; congruence. Qed.

Lemma run_with_form : forall ph sec cfg s A (k : stream -> M heap A) h,
  (apply_configurations (sec_runner sec) cfg ;;* (let* out := run ph (sec_runner sec) s in k out)) h =
  (let* out := run_with ph sec cfg s in k out) h.
Proof.
  intros. unfold run_with, bind. destruct (apply_configurations (sec_runner sec) cfg h) as [[[]|e] h1]; [|reflexivity].
  destruct (run ph (sec_runner sec) s h1) as [[o|e] h2]; reflexivity.
Qed.

(** The loop. *)
Inductive ended (ph : physics) (ps : list (section * float_constraint)) (s : stream) (h : heap) (o : outcome solution) (h' : heap)
    (acc : list configuration) : Prop :=
| ended_all : forall sols out, in_turn ph ps s h sols out h' ->
    o = Return (mk_solution (acc ++ concat (map sol_configuration sols)) None) -> ended ph ps s h o h' acc
| ended_failed : forall before sec target after sols s1 h1 bad, ps = before ++ (sec, target) :: after ->
    in_turn ph before s h sols s1 h1 -> find_solution ph sec [target] s1 h1 = (Return bad, h') -> success bad = false ->
    o = Return (mk_solution (acc ++ concat (map sol_configuration sols) ++ sol_configuration bad) (sol_failure bad)) ->
    ended ph ps s h o h' acc
| ended_raised : forall before sec target after sols s1 h1 e, ps = before ++ (sec, target) :: after ->
    in_turn ph before s h sols s1 h1 -> find_solution ph sec [target] s1 h1 = (Raise e, h') ->
    o = Raise e -> ended ph ps s h o h' acc
| ended_run : forall before sec target after sols s1 h1 good h2 e, ps = before ++ (sec, target) :: after ->
    in_turn ph before s h sols s1 h1 -> find_solution ph sec [target] s1 h1 = (Return good, h2) -> success good = true ->
    run_with ph sec (sol_configuration good) s1 h2 = (Raise e, h') ->
    o = Raise e -> ended ph ps s h o h' acc.

Lemma loop_ended : forall ph ps s acc h o h', multi_shaft_loop ph ps s acc h = (o, h') -> ended ph ps s h o h' acc.
Proof.
  intros ph ps. induction ps as [|[sec target] ps IH]; intros s acc h o h' H; cbn [multi_shaft_loop] in H.
  - cbv [ret] in H. assert (o = Return (mk_solution acc None) /\ h = h') as [-> <-] by (split; congruence).
    eapply ended_all; [constructor|]. cbn [map concat]. now rewrite app_nil_r.
  - unfold bind at 1 in H. destruct (find_solution ph sec [target] s h) as [[sol|e] h1] eqn:E.
    2: { assert (o = Raise e /\ h1 = h') as [-> ->] by (split; congruence).
         eapply (ended_raised _ _ _ _ _ _ _ [] sec target ps []); [reflexivity|constructor|exact E|reflexivity]. }
    cbv zeta in H. destruct (success sol) eqn:OK; cbn [negb] in H.
    2: { cbv [ret] in H.
         assert (o = Return (mk_solution (acc ++ sol_configuration sol) (sol_failure sol)) /\ h1 = h') as [-> ->] by (split; congruence).
         eapply (ended_failed _ _ _ _ _ _ _ [] sec target ps []); [reflexivity|constructor|exact E|exact OK|reflexivity]. }
    rewrite run_with_form in H. unfold bind in H.
    destruct (run_with ph sec (sol_configuration sol) s h1) as [[out|e] h2] eqn:R.
    2: { assert (o = Raise e /\ h2 = h') as [-> ->] by (split; congruence).
         eapply (ended_run _ _ _ _ _ _ _ [] sec target ps []); [reflexivity|constructor|exact E|exact OK|exact R|reflexivity]. }
    apply IH in H. destruct H as [sols out' T ->|before sec' target' after sols s1 h3 bad EP T F B ->|before sec' target' after sols s1 h3 e EP T F ->
      |before sec' target' after sols s1 h3 good h4 e EP T F B RU ->].
    + eapply ended_all; [eapply turn_next; [exact E|exact OK|exact R|exact T]|]. cbn [map concat]. now rewrite app_assoc.
    + eapply (ended_failed _ _ _ _ _ _ _ ((sec, target) :: before)); [cbn [app]; now rewrite EP|eapply turn_next; [exact E|exact OK|exact R|exact T]|exact F|exact B|].
      cbn [map concat]. now rewrite !app_assoc.
    + eapply (ended_raised _ _ _ _ _ _ _ ((sec, target) :: before)); [cbn [app]; now rewrite EP|eapply turn_next; [exact E|exact OK|exact R|exact T]|exact F|reflexivity].
    + eapply (ended_run _ _ _ _ _ _ _ ((sec, target) :: before)); [cbn [app]; now rewrite EP|eapply turn_next; [exact E|exact OK|exact R|exact T]|exact F|exact B|exact RU|reflexivity].
Qed.

Lemma loop_runs : forall ph ps s h sols out h', in_turn ph ps s h sols out h' -> forall acc,
  multi_shaft_loop ph ps s acc h = (Return (mk_solution (acc ++ concat (map sol_configuration sols)) None), h').
Proof.
  intros ph ps s h sols out h' T. induction T as [s h|sec target rest s h sol h1 s' h2 sols s'' h3 F OK R T IH]; intros acc.
  - cbn [multi_shaft_loop map concat]. now rewrite app_nil_r.
  - cbn [multi_shaft_loop map concat]. unfold bind at 1. rewrite F. cbv zeta. rewrite OK. cbn [negb].
    rewrite run_with_form. unfold bind. rewrite R. rewrite IH. now rewrite app_assoc.
Qed.

Theorem shaft_number_proof : forall ph secs targets inlet h, length targets <> length secs ->
  multi_shaft ph secs targets inlet h = (Raise AssertionErr, h).
Proof. intros ph secs targets inlet h N. unfold multi_shaft. apply Nat.eqb_neq in N. now rewrite N. Qed.

Theorem shaft_success_proof : forall ph secs targets inlet h sol h', length targets = length secs ->
  (multi_shaft ph secs targets inlet h = (Return sol, h') /\ success sol = true <->
   exists sols out, in_turn ph (combine secs targets) inlet h sols out h' /\
     sol = mk_solution (concat (map sol_configuration sols)) None).
Proof.
  intros ph secs targets inlet h sol h' L. unfold multi_shaft. apply Nat.eqb_eq in L. rewrite L. split.
  - intros [H OK]. apply caught_cases in H. destruct H as [H|(e & f & _ & _ & ->)]; [|discriminate OK].
    apply loop_ended in H. destruct H as [sols out T E|before sec target after sols s1 h1 bad _ _ _ B E|before sec target after sols s1 h1 e _ _ _ E|before sec target after sols s1 h1 good h2 e _ _ _ _ _ E];
      try discriminate E.
    + exists sols, out. split; [exact T|]. cbn [app] in E. congruence.
    + exfalso. assert (X : sol_failure sol = sol_failure bad).
      { match type of E with _ = Return ?q => assert (Y : sol = q) by congruence end. now rewrite Y. }
      apply success_None in OK. apply success_Some in B. congruence.
  - intros (sols & out & T & ->). split; [|reflexivity]. pose proof (loop_runs _ _ _ _ _ _ _ T []) as X. cbn [app] in X.
    unfold caught, catch. now rewrite X.
Qed.

Theorem shaft_failure_proof : forall ph secs targets inlet h sol h',
  multi_shaft ph secs targets inlet h = (Return sol, h') -> success sol = false ->
  exists before sec target after sols s h1,
    combine secs targets = before ++ (sec, target) :: after /\ in_turn ph before inlet h sols s h1 /\
    ((exists bad, find_solution ph sec [target] s h1 = (Return bad, h') /\ success bad = false /\
        sol = mk_solution (concat (map sol_configuration sols) ++ sol_configuration bad) (sol_failure bad)) \/
     (exists good h2 e f, find_solution ph sec [target] s h1 = (Return good, h2) /\ success good = true /\
        run_with ph sec (sol_configuration good) s h2 = (Raise e, h') /\ becomes e f /\ sol = mk_solution [] (Some f))).
Proof.
  intros ph secs targets inlet h sol h' H B. unfold multi_shaft in H.
  destruct (Nat.eqb (length targets) (length secs)); [|discriminate H].
  apply caught_cases in H. destruct H as [H|(e & f & H & BE & ->)].
  - apply loop_ended in H. destruct H as [sols out T E|before sec target after sols s1 h1 bad EP T F BB E|before sec target after sols s1 h1 e _ _ _ E|before sec target after sols s1 h1 good h2 e _ _ _ _ _ E];
      try discriminate E.
    + exfalso. match type of E with _ = Return ?q => assert (Y : sol = q) by congruence end. rewrite Y in B. discriminate B.
    + exists before, sec, target, after, sols, s1, h1. split; [exact EP|]. split; [exact T|]. left. exists bad.
      split; [exact F|]. split; [exact BB|]. cbn [app] in E. congruence.
  - apply loop_ended in H. destruct H as [sols out T E|before sec target after sols s1 h1 bad EP T F BB E|before sec target after sols s1 h1 e' EP T F E|before sec target after sols s1 h1 good h2 e' EP T F OK R E];
      try discriminate E.
    + exfalso. assert (e = e') as -> by congruence. exact (find_solution_raises _ _ _ _ _ _ _ _ F BE).
    + assert (e = e') as -> by congruence.
      exists before, sec, target, after, sols, s1, h1. split; [exact EP|]. split; [exact T|]. right.
      exists good, h2, e', f. auto.
Qed.

(** ** The state at the end *)

Lemma reads_same : forall ph sec h h' s, (forall c, section_reads sec c -> read h c = read h' c) ->
  fst (run ph (sec_runner sec) s h) = fst (run ph (sec_runner sec) s h').
Proof.
  intros ph sec h h' s H. unfold run. cbn [fst]. apply propagate_off. intros [i k] U. cbn [fst snd].
  assert (X : forall c, unit_reads (i, k) c -> read h c = read h' c) by (intros c C; apply H; exists (i, k); auto).
  unfold unit_reads in X. cbn [fst snd] in X.
  destruct k; try exact I; specialize (X _ eq_refl); cbn [read] in X; congruence.
Qed.

Lemma run_with_own : forall ph sec sol s h o h', wired sec -> (forall c, In c (sol_configuration sol) -> In (fst c) (section_handlers sec)) ->
  run_with ph sec (sol_configuration sol) s h = (Return o, h') ->
  same_except (own sec) h h' /\ fst (run ph (sec_runner sec) s h') = Return o.
Proof.
  intros ph sec sol s h o h' W K R. unfold run_with in R. apply bind_inv in R. destruct R as ([] & h1 & A & R).
  assert (h1 = h') as -> by (unfold run in R; congruence).
  split; [|now rewrite R]. apply same_sym. eapply same_weaken; [|eapply apply_all_frame; [|exact A]].
  - intros x (i & I & C). left. exists i. split; [|exact C]. apply in_map_iff in I. destruct I as (c & <- & I). now apply K.
  - intros c C. specialize (K c C). destruct K as [<-|K]; [now apply shaft_not_single|].
    apply settable_not_single. apply in_app_or in K. destruct K as [K|K]; [now apply anti_settable|now apply control_settable].
Qed.

(** Every pressure control of a well equipped section does its part. *)
Lemma equipped_control : forall ph sec target inlet h1 p h', well_equipped ph sec target ->
  control_apply ph sec target inlet (sec_control sec) h1 = (Return p, h') -> sol_failure p = None ->
  controlled ph sec inlet h1 (sol_configuration p) h' (fun o => forall out, o = Return out -> meets target out).
Proof.
  intros ph sec target inlet h1 p h' (W & SP & PD & TP & K) E F.
  assert (RET : forall pc, controlled ph sec inlet h1 pc h' (returns (within (fc_abs_tol target) target)) ->
    controlled ph sec inlet h1 pc h' (fun o => forall out, o = Return out -> meets target out)).
  { intros pc (KE & G & o & A & B & C & D & (x & EX & X)). split; [exact KE|]. exists G, o.
    split; [exact A|split; [exact B|split; [exact C|split; [exact D|]]]]. intros out EO. rewrite EX in EO.
    assert (x = out) as <- by congruence. exact X. }
  destruct (sec_control sec) as [k|k|l c|ls cs|ls cs] eqn:CTL.
  - destruct K as [AC SE]. apply RET. rewrite <- CTL in E. exact (control_upstream ph sec W SP PD k CTL target inlet h1 p h' AC SE TP E F).
  - destruct K as (CS & u & before & GU & UN & NU). rewrite <- CTL in E.
    destruct (control_downstream ph sec W SP target inlet h1 p h' k u before CTL TP CS GU UN NU E F) as (KE & G & o & A & B & C & D & GOOD).
    split; [exact KE|]. exists G, o. split; [exact A|split; [exact B|split; [exact C|split; [exact D|]]]].
    intros out EO. rewrite EO in GOOD. exact GOOD.
  - apply RET. rewrite <- CTL in E. exact (control_common ph sec W SP target inlet h1 p h' l c CTL K TP E F).
  - apply RET. rewrite <- CTL in E. exact (control_rate ph sec W SP target inlet h1 p h' ls cs CTL PD K TP E F).
  - contradiction.
Qed.

Lemma merge_keys_inv : forall a b i, In i (map fst (merge_configurations a b)) -> In i (map fst a) \/ In i (map fst b).
Proof.
  intros a b i H. apply in_map_iff in H. destruct H as (c & <- & C). apply In_merge in C.
  destruct C as [C|[C _]]; [right|left]; now apply in_map.
Qed.

Lemma equipped_solution : forall ph sec target inlet h sol h', well_equipped ph sec target ->
  find_solution ph sec [target] inlet h = (Return sol, h') -> success sol = true ->
  (forall c, In c (sol_configuration sol) -> In (fst c) (section_handlers sec)) /\
  forall out h2, run_with ph sec (sol_configuration sol) inlet h' = (Return out, h2) -> meets target out.
Proof.
  intros ph sec target inlet h sol h' Q H OK. pose proof Q as (W & SP & PD & TP & _).
  destruct (success_parts ph sec W SP _ _ _ _ _ H OK) as (confs & h1 & out & IF & KEYS & R & C). split.
  - intros c I. apply (in_map fst) in I. destruct C as [(_ & _ & CF)|(_ & p & EP & FP & CF)].
    + rewrite CF in I. now apply confs_In, KEYS.
    + pose proof (f_equal (map fst) CF) as X. refine (_ (eq_ind _ (fun l => In (fst c) l) I _ X)). intros I'.
      apply merge_keys_inv in I'. destruct I' as [I'|I']; [now apply confs_In, KEYS|].
      right. exact (proj1 (equipped_control _ _ _ _ _ _ _ Q EP FP) _ I').
  - intros out' h2 RW.
    destruct (success_controlled ph sec W SP target inlet h sol h' (fun o => forall out, o = Return out -> meets target out)) as (o & h3 & RW' & GOOD); auto.
    + intros o AT o' EO. assert (o = o') as <- by congruence. now apply at_target_within.
    + intros g p EP FP. exact (equipped_control _ _ _ _ _ _ _ Q EP FP).
    + apply GOOD. congruence.
Qed.

(** The sections one after the other. *)
Lemma turn_local : forall ph ps s h sols out h', in_turn ph ps s h sols out h' ->
  Forall (fun p => well_equipped ph (fst p) (snd p)) ps ->
  same_except (fun c => exists sec, In sec (map fst ps) /\ own sec c) h h'.
Proof.
  intros ph ps s h sols out h' T. induction T as [s h|sec target rest s h sol h1 s' h2 sols s'' h3 F OK R T IH]; intros Q.
  - apply same_refl.
  - inversion Q as [|p l Q1 Q2]; subst. cbn [fst snd] in Q1.
    destruct (equipped_solution _ _ _ _ _ _ _ Q1 F OK) as [KE _].
    destruct (run_with_own _ _ _ _ _ _ _ (proj1 Q1) KE R) as [F2 _].
    pose proof (local_proof ph sec [target] s h (proj1 Q1)) as F1. rewrite F in F1. cbn [snd] in F1.
    apply same_trans with h2.
    + apply same_trans with h1; eapply same_weaken; [|exact F1| |exact F2]; intros c C; exists sec; (split; [now left|exact C]).
    + eapply same_weaken; [|apply IH, Q2]. intros c (sec' & I & C). exists sec'. split; [now right|exact C].
Qed.

Lemma turn_flows : forall ph ps s h sols out h', in_turn ph ps s h sols out h' ->
  Forall (fun p => well_equipped ph (fst p) (snd p)) ps -> leave_alone own (map fst ps) ->
  exists streams, flows ph h' (map fst ps) s streams /\ Forall2 meets (map snd ps) streams.
Proof.
  intros ph ps s h sols out h' T. induction T as [s h|sec target rest s h sol h1 s' h2 sols s'' h3 F OK R T IH]; intros Q L.
  - exists []. split; constructor.
  - pose proof (turn_local _ _ _ _ _ _ _ T) as LOC.
    inversion Q as [|p l Q1 Q2]; subst. cbn [fst snd] in Q1. cbn [map fst leave_alone] in L. destruct L as [L1 L2].
    destruct (IH Q2 L2) as (streams & FL & M). specialize (LOC Q2).
    destruct (equipped_solution _ _ _ _ _ _ _ Q1 F OK) as [KE ME].
    destruct (run_with_own _ _ _ _ _ _ _ (proj1 Q1) KE R) as [_ RU].
    exists (s' :: streams). cbn [map fst snd]. split.
    + constructor; [|exact FL]. rewrite <- RU. symmetry. apply reads_same. intros c C. apply LOC.
      intros (later & I & O). exact (L1 later c I O C).
    + constructor; [exact (ME _ _ R)|exact M].
Qed.

Lemma Forall2_combine : forall A B (P : A -> B -> Prop) l m, Forall2 P l m -> Forall (fun p => P (fst p) (snd p)) (combine l m).
Proof. intros A B P l m H. induction H; cbn [combine]; constructor; auto. Qed.
Lemma map_combine : forall A B (l : list A) (m : list B), length l = length m -> map fst (combine l m) = l /\ map snd (combine l m) = m.
Proof.
  intros A B l. induction l as [|a l IH]; intros [|b m] E; try discriminate E; [split; reflexivity|].
  injection E as E. destruct (IH m E) as [X Y]. cbn [combine map fst snd]. now rewrite X, Y.
Qed.
Lemma Forall2_len : forall A B (P : A -> B -> Prop) l m, Forall2 P l m -> length l = length m.
Proof. intros A B P l m H. induction H; cbn [length]; congruence. Qed.

Theorem shaft_targets_proof : forall ph secs targets inlet h sol h',
  Forall2 (well_equipped ph) secs targets -> leave_alone own secs ->
  multi_shaft ph secs targets inlet h = (Return sol, h') -> success sol = true ->
  exists streams, flows ph h' secs inlet streams /\ Forall2 meets targets streams.
Proof.
  intros ph secs targets inlet h sol h' Q L H OK. pose proof (Forall2_len _ _ _ _ _ Q) as LEN.
  destruct (proj1 (shaft_success_proof ph secs targets inlet h sol h' (eq_sym LEN)) (conj H OK)) as (sols & out & T & _).
  destruct (map_combine _ _ secs targets LEN) as [E1 E2].
  destruct (turn_flows _ _ _ _ _ _ _ T (Forall2_combine _ _ _ _ _ Q)) as (streams & FL & M).
  - exact (eq_ind_r (fun l => leave_alone own l) L E1).
  - exists streams. split; [exact (eq_ind _ (fun l => flows ph h' l inlet streams) FL _ E1)|exact (eq_ind _ (fun l => Forall2 meets l streams) M _ E2)].
Qed.

(** Nothing outside the sections' own shafts, loops and chokes is changed on success. *)
Theorem shaft_local_proof : forall ph secs targets inlet h sol h',
  Forall2 (well_equipped ph) secs targets ->
  multi_shaft ph secs targets inlet h = (Return sol, h') -> success sol = true ->
  same_except (fun c => exists sec, In sec secs /\ own sec c) h h'.
Proof.
  intros ph secs targets inlet h sol h' Q H OK. pose proof (Forall2_len _ _ _ _ _ Q) as LEN.
  destruct (proj1 (shaft_success_proof ph secs targets inlet h sol h' (eq_sym LEN)) (conj H OK)) as (sols & out & T & _).
  destruct (map_combine _ _ secs targets LEN) as [E1 E2].
  pose proof (turn_local _ _ _ _ _ _ _ T (Forall2_combine _ _ _ _ _ Q)) as X.
  exact (eq_ind _ (fun l => same_except (fun c => exists sec, In sec l /\ own sec c) h h') X _ E1).
Qed.

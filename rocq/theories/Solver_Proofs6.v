(** A successful solution meets the target, for each pressure control (C39). *)
From Coq Require Import List Bool ZArith Lia.
From Verif Require Import QcTac Base BaseLemmas Num Stream_Model Stream_Spec Stream_Proofs Process_Model Process_Proofs Search_Model Solver_Model Solver_Spec Solver_Proofs
  Solver_Proofs2 Solver_Proofs3 Solver_Proofs5.
Import ListNotations.
Local Open Scope Qc_scope.

Section Control.
Variable ph : physics.
Variable sec : section.
Hypothesis wire : wired sec.
Hypothesis sep : separate sec.
Let r := sec_runner sec.

Lemma control_In : forall i, In i (control_handlers (sec_control sec)) -> In i (section_handlers sec).
Proof. intros i I. right. apply in_or_app. now right. Qed.
Lemma anti_In : forall i, In i (anti_surge_handlers (sec_anti sec)) -> In i (section_handlers sec).
Proof. intros i I. right. apply in_or_app. now left. Qed.
Lemma confs_In : forall i, i = sec_shaft sec \/ In i (anti_surge_handlers (sec_anti sec)) -> In i (section_handlers sec).
Proof. intros i [->|I]; [now left|now apply anti_In]. Qed.

(** What a pressure control that found a solution leaves: a state in which its configurations are in force, the places of the
    other handlers are as before and the run gives what is wanted. *)
Definition controlled (inlet : stream) (h1 : heap) (pc : list configuration) (h' : heap) (good : outcome stream -> Prop) : Prop :=
  (forall i, In i (map fst pc) -> In i (anti_surge_handlers (sec_anti sec) ++ control_handlers (sec_control sec))) /\
  exists G o,
    (forall d, In d pc -> in_force r G d) /\
    (forall i x, In i (section_handlers sec) -> ~ In i (map fst pc) -> cells_of r i x -> read h1 x = read G x) /\
    same_except (cells_of_all r (map fst pc)) h' G /\
    propagate_many ph G (r_units r) inlet = o /\ good o.

(** A section meets its target when its pressure control does. *)
Lemma success_controlled : forall target inlet h sol h' (good : outcome stream -> Prop),
  (forall out, at_target (s_pressure out) target = true -> good (Return out)) ->
  (forall h1 p, control_apply ph sec target inlet (sec_control sec) h1 = (Return p, h') -> sol_failure p = None ->
     controlled inlet h1 (sol_configuration p) h' good) ->
  find_solution ph sec [target] inlet h = (Return sol, h') -> success sol = true ->
  exists o h2, run_with ph sec (sol_configuration sol) inlet h' = (o, h2) /\ good o.
Proof.
  intros target inlet h sol h' good EARLY CONTROL H OK.
  destruct (success_parts ph sec wire sep _ _ _ _ _ H OK) as (confs & h1 & out & IF & KEYS & R & [(AT & -> & CF)|(AT & p & EP & FP & CF)]).
  { rewrite CF. destruct (early_reaches ph sec confs h1 inlet _ IF R) as (h2 & X). exists (Return out), h2. split; [exact X|].
    now apply EARLY. }
  rewrite CF. destruct (CONTROL h1 p EP FP) as (_ & G & o & IG & ST & SE & RUN & GOOD).
  destruct (merged_reaches ph sec confs (sol_configuration p) h1 h' G inlet o) as (h2 & X); auto.
  - intros i x I NI C. apply (ST i x); auto. apply confs_In. now apply KEYS.
  - exists o, h2. auto.
Qed.
Definition returns (Q : stream -> Prop) (o : outcome stream) : Prop := exists out, o = Return out /\ Q out.

(** ** One common recirculation loop *)

Theorem control_common : forall target inlet h1 p h' loop c,
  sec_control sec = PCCommon loop c -> accurate (fc_abs_tol target) (sec_finder sec) -> 0 <= fc_abs_tol target ->
  control_apply ph sec target inlet (sec_control sec) h1 = (Return p, h') -> sol_failure p = None ->
  controlled inlet h1 (sol_configuration p) h' (returns (within (fc_abs_tol target) target)).
Proof.
  intros target inlet h1 p h' loop c CTL AC TP EP FP.
  rewrite CTL in EP. cbn [control_apply] in EP.
  assert (LP : In loop (control_handlers (sec_control sec))) by (rewrite CTL; now left).
  assert (LS : settable r loop) by now apply (control_settable sec wire).
  set (S := cells_of r loop).
  assert (TR : tame S S (minus S S) (reset_configuration r loop)) by (apply tame_reset; [exact LS|apply subset_refl]).
  assert (UN : unread (minus S S)) by (intros x [X Y]; contradiction).
  assert (TF : forall x, tame S S S (with_rate ph sec inlet loop x)).
  { intros x. eapply tame_weaken; [apply tame_with_rate; [exact UN|exact LS|apply subset_refl]|apply minus_subset]. }
  unfold common_pressure in EP. apply bind_inv in EP. destruct EP as (u & ha & E1 & EP).
  assert (Na : near S h1 ha). { pose proof (near_tame S h1 _ (reset_configuration r loop) h1) as X. unfold r in X. rewrite E1 in X. apply X.
    - eapply tame_weaken; [exact TR|apply minus_subset].
    - apply same_refl. }
  apply bind_inv in EP. destruct EP as (b & hb & E2 & EP).
  assert (hb = ha) as ->.
  { unfold range_at in E2. apply bind_inv in E2. destruct E2 as (s & hx & X & Y). unfold run_to in X. congruence. }
  apply bind_inv in EP. destruct EP as (f & hc & E3 & EP). destruct f as [x fl]. cbn [fst snd] in EP.
  cbv [ret] in EP. assert (p = mk_solution [(loop, RecirculationSetting x)] fl /\ hc = h') as [-> ->] by (split; congruence).
  cbn [sol_failure] in FP. subst fl. cbn [sol_configuration] in *.
  destruct (find_rate_hits S _ TF h1 _ _ _ _ _ _ _ AC TP Na E3) as (N' & (o & O1 & O2) & _).
  unfold with_rate in O1. unfold bind in O1.
  destruct (set_rate sec loop x h1) as [[[]|e] G] eqn:EG; [|discriminate O1]. unfold run in O1. cbn [fst] in O1.
  unfold set_rate in EG. destruct (applied_in_force r (loop, RecirculationSetting x) h1 G (settable_not_single _ _ LS) EG) as [IG FG].
  split; [intros i [<-|[]]; apply in_or_app; now right|]. exists G, (Return o). split; [|split; [|split; [|split; [exact O1|exists o; auto]]]].
  - intros d [<-|[]]. exact IG.
  - intros i y I NI C. symmetry. apply FG. cbn [fst]. apply (section_disjoint sec sep i loop y); auto.
    + now apply control_In.
    + intros ->. apply NI. now left.
  - cbn [map fst]. apply same_trans with h1; [eapply same_weaken; [|exact N']|eapply same_weaken; [|apply same_sym; exact FG]];
    intros y Y; exists loop; (split; [now left|exact Y]).
Qed.

Theorem success_common : forall target inlet h sol h' loop c,
  sec_control sec = PCCommon loop c -> accurate (fc_abs_tol target) (sec_finder sec) -> 0 <= fc_abs_tol target ->
  find_solution ph sec [target] inlet h = (Return sol, h') -> success sol = true ->
  exists out h2, run_with ph sec (sol_configuration sol) inlet h' = (Return out, h2) /\ within (fc_abs_tol target) target out.
Proof.
  intros target inlet h sol h' loop c CTL AC TP H OK.
  destruct (success_controlled target inlet h sol h' (returns (within (fc_abs_tol target) target))) as (o & h2 & R & out & -> & X); auto.
  - intros out AT. exists out. split; [reflexivity|now apply at_target_within].
  - intros h1 p EP FP. exact (control_common target inlet h1 p h' loop c CTL AC TP EP FP).
  - exists out, h2. auto.
Qed.

(** ** A common fraction of the recirculation ranges *)

Lemma stages_frame : forall inlet choose ps, (forall p, In p ps -> settable r (fst p)) -> forall h confs h',
  stages ph sec inlet choose ps h = (Return confs, h') -> same_except (cells_of_all r (map fst ps)) h' h.
Proof.
  intros inlet choose ps. induction ps as [|[l c] ps IH]; intros SE h confs h' H; cbn [stages] in H.
  - cbv [ret] in H. assert (h = h') as <- by congruence. apply same_refl.
  - apply bind_inv in H. destruct H as (b & ha & E1 & H).
    assert (ha = h) as ->.
    { unfold range_at in E1. apply bind_inv in E1. destruct E1 as (s & hx & X & Y). unfold run_to in X. congruence. }
    apply bind_inv in H. destruct H as ([] & hb & E2 & H). apply bind_inv in H. destruct H as (cs & hc & E3 & H).
    cbv [ret] in H. assert (hc = h') as -> by congruence.
    specialize (IH (fun p I => SE p (or_intror I)) _ _ _ E3).
    destruct (applied_in_force r (l, RecirculationSetting (choose b)) _ hb (settable_not_single _ _ (SE (l, c) (or_introl eq_refl))) E2) as [_ F2].
    eapply same_trans; [eapply same_weaken; [|exact IH]|eapply same_weaken; [|exact F2]].
    + intros x (i & I & C). exists i. split; [now right|exact C].
    + intros x C. exists l. split; [now left|exact C].
Qed.

Lemma stages_in_force : forall inlet choose ps, (forall p, In p ps -> settable r (fst p)) -> NoDup (map fst ps) -> disjoint r (map fst ps) ->
  forall h confs h', stages ph sec inlet choose ps h = (Return confs, h') -> forall d, In d confs -> in_force r h' d.
Proof.
  intros inlet choose ps. induction ps as [|[l c] ps IH]; intros SE ND DJ h confs h' H d I; cbn [stages] in H.
  - cbv [ret] in H. assert (confs = []) as -> by congruence. destruct I.
  - apply bind_inv in H. destruct H as (b & ha & E1 & H).
    apply bind_inv in H. destruct H as ([] & hb & E2 & H). apply bind_inv in H. destruct H as (cs & hc & E3 & H).
    cbv [ret] in H. assert (hc = h') as -> by congruence.
    assert (confs = (l, RecirculationSetting (choose b)) :: cs) as -> by congruence.
    inversion ND as [|x y NI ND']; subst.
    destruct (applied_in_force r (l, RecirculationSetting (choose b)) _ hb (settable_not_single _ _ (SE (l, c) (or_introl eq_refl))) E2) as [I2 _].
    destruct I as [<-|I].
    + apply (in_force_stable r hb); [exact I2|]. intros x X. symmetry.
      apply (stages_frame inlet choose ps (fun p J => SE p (or_intror J)) _ _ _ E3). intros (i & J & C).
      refine (DJ l i x _ _ _ X C); [now left|now right|]. intros ->. contradiction.
    + eapply IH; eauto.
      * intros p J. apply SE. now right.
      * eapply disjoint_sub; [|exact DJ]. intros i J. now right.
Qed.

Lemma NoDup_combine : forall (loops : list nat) (cs : list compressor), NoDup loops -> NoDup (map fst (combine loops cs)).
Proof.
  induction loops as [|l loops IH]; intros cs N; [constructor|]. destruct cs as [|c cs]; [constructor|].
  inversion N; subst. cbn [combine map fst]. constructor; [|now apply IH]. intros I. apply H1. now apply map_fst_combine in I.
Qed.

Lemma map_fst_combine_all : forall (loops : list nat) (cs : list compressor), length loops = length cs -> map fst (combine loops cs) = loops.
Proof.
  induction loops as [|l loops IH]; intros [|c cs] H; try discriminate H; [reflexivity|]. cbn. f_equal. apply IH. now injection H.
Qed.

Section Loops.
Variable loops : list handler_id.
Variable cs : list compressor.
Hypothesis LC : forall i, In i loops -> In i (control_handlers (sec_control sec)).
Hypothesis LN : NoDup loops.
Let S := cells_of_all r loops.

Lemma loops_settable : forall i, In i loops -> settable r i.
Proof. intros i I. apply (control_settable sec wire). now apply LC. Qed.
Lemma loops_disjoint : disjoint r loops.
Proof. eapply disjoint_sub; [|apply (section_disjoint sec sep)]. intros i I. apply control_In. now apply LC. Qed.
Lemma nothing_unread : unread (minus S S). Proof. intros x [X Y]. contradiction. Qed.

Lemma from_fraction_exact : forall inlet x, tame S S (minus S S) (from_fraction ph sec inlet loops cs x).
Proof.
  intros. unfold from_fraction. eapply tame_bind; [apply minus_subset|apply tame_reset_all; [apply loops_settable|apply subset_refl]|].
  intros _. apply tame_stages; [apply nothing_unread|]. intros p P. apply in_combine_loops in P.
  split; [now apply loops_settable|]. intros c C. exists (fst p). auto.
Qed.
Lemma fraction_tame : forall inlet x, tame S S S (fraction_outlet ph sec inlet loops cs x).
Proof.
  intros. eapply tame_weaken with (T := minus S S); [|apply minus_subset]. unfold fraction_outlet.
  eapply tame_bind_known; [apply minus_subset|apply from_fraction_exact|]. intros confs h h' E.
  apply tame_bind1; [|intros; apply tame_run, nothing_unread].
  apply tame_apply_all. intros c C. pose proof (from_fraction_confs _ _ _ _ _ _ _ _ _ E _ C) as I.
  split; [apply settable_not_single; now apply loops_settable|]. intros y Y. exists (fst c). auto.
Qed.
Lemma minimum_near : forall inlet h1 h m h', near S h1 h -> minimum_achievable ph sec inlet loops cs h = (Return m, h') -> near S h1 h'.
Proof.
  intros inlet h1 h m h' N H. unfold minimum_achievable in H.
  apply bind_inv in H. destruct H as (confs & ha & E1 & H). apply bind_inv in H. destruct H as (s & hb & E2 & H).
  unfold run in E2. assert (ha = hb) as <- by congruence. apply bind_inv in H. destruct H as ([] & hc & E3 & H). cbv [ret] in H.
  assert (hc = h') as -> by congruence. clear E2 H.
  apply stages_frame in E1; [|intros p P; apply in_combine_loops in P; now apply loops_settable].
  pose proof (proj2 (tame_reset_all sec S loops S loops_settable (subset_refl S)) ha) as F. rewrite E3 in F. cbn [snd] in F.
  apply same_trans with ha; [apply same_sym; exact F|]. apply same_trans with h; [|exact N].
  eapply same_weaken; [|exact E1]. intros x (i & I & C). exists i. split; [|exact C]. now apply map_fst_combine in I.
Qed.
End Loops.

Theorem control_rate : forall target inlet h1 p h' loops cs,
  sec_control sec = PCRate loops cs -> paired sec -> accurate (fc_abs_tol target) (sec_finder sec) -> 0 <= fc_abs_tol target ->
  control_apply ph sec target inlet (sec_control sec) h1 = (Return p, h') -> sol_failure p = None ->
  controlled inlet h1 (sol_configuration p) h' (returns (within (fc_abs_tol target) target)).
Proof.
  intros target inlet h1 p h' loops cs CTL PD AC TP EP FP.
  assert (LEN : length loops = length cs) by (destruct PD as [_ PD]; rewrite CTL in PD; exact PD).
  rewrite CTL in EP. cbn [control_apply] in EP.
  assert (LC : forall i, In i loops -> In i (control_handlers (sec_control sec))) by (rewrite CTL; auto).
  assert (LN : NoDup loops) by (destruct sep as (_ & N & _); rewrite CTL in N; exact N).
  set (S := cells_of_all r loops).
  unfold individual_rate in EP. apply bind_inv in EP. destruct EP as ([] & ha & E1 & EP).
  assert (Na : near S h1 ha).
  { pose proof (proj2 (tame_reset_all sec S loops S (loops_settable loops LC) (subset_refl S)) h1) as F. rewrite E1 in F.
    apply same_sym. exact F. }
  apply bind_inv in EP. destruct EP as (m & hb & E2 & EP). pose proof (minimum_near loops cs LC _ _ _ _ _ Na E2) as Nb.
  destruct (Qcltb (fc_value target) (snd m)).
  { cbv [ret] in EP. assert (X : p = mk_solution (fst m) (Some (Unreachable (snd m) (fc_value target) MinAboveTarget None))) by congruence.
    rewrite X in FP. discriminate FP. }
  apply bind_inv in EP. destruct EP as (x & hc & E3 & EP). apply bind_inv in EP. destruct EP as (pc & hd & E4 & EP).
  cbv [ret] in EP. assert (p = mk_solution pc None /\ hd = h') as [-> ->] by (split; congruence). cbn [sol_configuration] in *. clear EP FP.
  destruct (root_hits S _ (fraction_tame loops cs LC inlet) h1 _ _ _ _ _ _ _ AC Nb E3) as (Nc & (o & O1 & O2) & _).
  (* the same fraction from the state in which the anti-surge configurations are in force *)
  destruct (proj1 (from_fraction_exact loops cs LC inlet x) hc h1 Nc) as (D1 & _ & D2). rewrite E4 in D1, D2. cbn [fst snd] in D1, D2.
  unfold fraction_outlet, bind in O1. destruct (from_fraction ph sec inlet loops cs x h1) as [[pc'|e] g1] eqn:EF; [|discriminate D1].
  assert (pc' = pc) as -> by (cbn [fst] in D1; congruence). cbn [snd] in D2. specialize (D2 pc eq_refl).
  assert (IG : forall d, In d pc -> in_force r h' d).
  { unfold from_fraction in E4. apply bind_inv in E4. destruct E4 as (u & hx & _ & E4).
    eapply stages_in_force; [| | |exact E4].
    - intros q Q. apply in_combine_loops in Q. now apply (loops_settable loops LC).
    - now apply NoDup_combine.
    - eapply disjoint_sub; [|apply (loops_disjoint loops LC)]. intros i I. now apply map_fst_combine in I. }
  assert (KPC : forall i, In i (map fst pc) -> In i loops).
  { intros i I. apply in_map_iff in I. destruct I as (d & <- & I). exact (from_fraction_confs _ _ _ _ _ _ _ _ _ E4 _ I). }
  (* the run in the last state *)
  assert (RUN : propagate_many ph h' (r_units r) inlet = Return o).
  { assert (D2' : same_except (minus S S) g1 h') by (apply same_sym; exact D2).
    destruct (reapply r h' pc IG _ _ D2') as (g2 & A1 & A2). unfold r in A1. rewrite A1 in O1. unfold run in O1. cbn [fst] in O1.
    rewrite <- O1. symmetry. eapply propagate_many_same; [|exact A2]. intros y [[Y1 Y2] _]. contradiction. }
  assert (N' : near S h1 h').
  { pose proof (proj2 (from_fraction_exact loops cs LC inlet x) hc) as F. rewrite E4 in F. cbn [snd] in F.
    eapply same_trans; [apply same_sym; exact F|exact Nc]. }
  assert (KALL : map fst pc = loops).
  { unfold from_fraction in E4. apply bind_inv in E4. destruct E4 as (u & hx & _ & E4). apply stages_handlers in E4. rewrite E4.
    now apply map_fst_combine_all. }
  split; [intros i I; apply in_or_app; right; apply LC, KPC, I|]. exists h', (Return o). split; [exact IG|split; [|split; [|split; [exact RUN|exists o; auto]]]].
  - intros i y I NI C. symmetry. apply N'. intros (j & J & C').
    apply (section_disjoint sec sep i j y); auto.
    + apply control_In. now apply LC.
    + intros ->. apply NI. now rewrite KALL.
  - apply same_refl.
Qed.

Theorem success_rate : forall target inlet h sol h' loops cs,
  sec_control sec = PCRate loops cs -> paired sec -> accurate (fc_abs_tol target) (sec_finder sec) -> 0 <= fc_abs_tol target ->
  find_solution ph sec [target] inlet h = (Return sol, h') -> success sol = true ->
  exists out h2, run_with ph sec (sol_configuration sol) inlet h' = (Return out, h2) /\ within (fc_abs_tol target) target out.
Proof.
  intros target inlet h sol h' loops cs CTL PD AC TP H OK.
  destruct (success_controlled target inlet h sol h' (returns (within (fc_abs_tol target) target))) as (o & h2 & R & out & -> & X); auto.
  - intros out AT. exists out. split; [reflexivity|now apply at_target_within].
  - intros h1 p EP FP. exact (control_rate target inlet h1 p h' loops cs CTL PD AC TP EP FP).
  - exists out, h2. auto.
Qed.

(** ** A choke after the compressors *)

Lemma propagate_off : forall h h' us s, (forall u, In u us -> match snd u with
    | Compressor _ => h_speed h (fst u) = h_speed h' (fst u) | DirectMixer => h_mix h (fst u) = h_mix h' (fst u)
    | DirectSplitter => h_split h (fst u) = h_split h' (fst u) | Choke => h_choke h (fst u) = h_choke h' (fst u) | _ => True end) ->
  propagate_many ph h us s = propagate_many ph h' us s.
Proof.
  intros h h' us. induction us as [|[i k] us IH]; intros s H; [reflexivity|]. cbn [propagate_many].
  assert (E : propagate ph h (i, k) s = propagate ph h' (i, k) s).
  { specialize (H (i, k) (or_introl eq_refl)). cbn [fst snd] in H. destruct k; cbn [propagate]; try reflexivity; try (now rewrite H).
    unfold compressor_propagate, compressor_speed. now rewrite H. }
  rewrite E. destruct (propagate ph h' (i, k) s); cbn [obind]; [|reflexivity]. apply IH. intros u U. apply H. now right.
Qed.

Lemma drop_pressure_exact : forall d s s', consistent_service (ph_service ph) -> 0 < d -> drop_pressure ph d s = Return s' ->
  s_pressure s' = s_pressure s - d.
Proof.
  intros d s s' C P H. unfold drop_pressure in H. destruct (Qcltb 0 d) eqn:E; [|apply Qcltb_ge in E; exfalso; qc_lra].
  cbv zeta in H. destruct (Qcltb (s_pressure s - d) 0); [discriminate|].
  unfold create_stream_from_standard_rate, create_fluid in H. destruct (flash_pt _ _ _ _) as [props|] eqn:F; [|discriminate]. cbn [obind] in H.
  rewrite new_stream_spec in H. destruct (Qcltb _ 0); [discriminate|]. apply (proj1 (proj2 C)) in F. destruct F as (F1 & _).
  assert (s' = mk_stream (mk_fluid (s_model s) props) (standard_rate_to_mass_rate (ph_service ph) (s_model s) (standard_rate s))) as -> by congruence.
  exact F1.
Qed.

Theorem control_downstream : forall target inlet h1 p h' k u before,
  sec_control sec = PCDownstream k -> 0 <= fc_abs_tol target -> consistent_service (ph_service ph) ->
  dict_get Nat.eqb k (r_handlers (sec_runner sec)) = Some (ChokeHandler u) ->
  r_units (sec_runner sec) = before ++ [(u, Choke)] -> ~ In u (map fst before) ->
  control_apply ph sec target inlet (sec_control sec) h1 = (Return p, h') -> sol_failure p = None ->
  controlled inlet h1 (sol_configuration p) h' (fun o => match o with
    | Return out => within (fc_abs_tol target) target out
    | Raise e => exists s, fc_value target < s_pressure s /\ drop_pressure ph (s_pressure s - fc_value target) s = Raise e
    end).
Proof.
  intros target inlet h1 p h' k u before CTL TP CS GU UN NU EP FP.
  rewrite CTL in EP. cbn [control_apply] in EP.
  assert (LP : In k (control_handlers (sec_control sec))) by (rewrite CTL; now left).
  assert (LS : settable r k) by now apply (control_settable sec wire).
  assert (CELL : forall x, cells_of r k x <-> x = CChoke u).
  { intros x. pose proof (cells_of_eq r k (ChokeHandler u) GU x) as X. cbn [handler_cells] in X. tauto. }
  (* what setting the choke does *)
  assert (SET : forall x hh, 0 <= x -> apply_configuration r (k, ChokeSetting x) hh = (Return tt, set_choke u x hh)).
  { intros x hh X. unfold apply_configuration, r. cbn [fst snd]. rewrite GU. cbn [handle].
    destruct (Qcltb x 0) eqn:E; [apply Qcltb_lt in E; exfalso; qc_lra|reflexivity]. }
  assert (REACH : forall x (good : outcome stream -> Prop), 0 <= x -> same_except (cells_of r k) h' h1 ->
    good (propagate_many ph (set_choke u x h1) (r_units r) inlet) -> controlled inlet h1 [(k, ChokeSetting x)] h' good).
  { intros x good X N Q. destruct (applied_in_force r (k, ChokeSetting x) h1 (set_choke u x h1) (settable_not_single _ _ LS) (SET x h1 X)) as [IG FG].
    split; [intros i [<-|[]]; apply in_or_app; now right|]. exists (set_choke u x h1), (propagate_many ph (set_choke u x h1) (r_units r) inlet). split; [|split; [|split; [|split; [reflexivity|exact Q]]]].
    - intros d [<-|[]]. exact IG.
    - intros i y I NI C. symmetry. apply FG. cbn [fst]. apply (section_disjoint sec sep i k y); auto.
      + now apply control_In.
      + intros ->. apply NI. now left.
    - cbn [map fst]. apply same_trans with h1; [eapply same_weaken; [|exact N]|eapply same_weaken; [|apply same_sym; exact FG]];
      intros y Y; exists k; (split; [now left|exact Y]). }
  assert (RUN : forall x hh, propagate_many ph (set_choke u x hh) (r_units r) inlet =
    let! s := propagate_many ph hh before inlet in drop_pressure ph x s).
  { intros x hh. unfold r. rewrite UN, propagate_many_app.
    rewrite (propagate_off (set_choke u x hh) hh before).
    - destruct (propagate_many ph hh before inlet); cbn [obind]; [|reflexivity]. cbn [propagate_many propagate set_choke h_choke].
      unfold upd. rewrite Nat.eqb_refl. now destruct (drop_pressure ph x a).
    - intros [j kd] J. cbn [fst snd]. destruct kd; try exact I; try reflexivity. cbn [set_choke h_choke]. unfold upd.
      destruct (Nat.eqb u j) eqn:E; [|reflexivity]. apply Nat.eqb_eq in E. subst j. exfalso. apply NU.
      apply (in_map fst) in J. exact J. }
  assert (ZERO : forall s, drop_pressure ph 0 s = Return s) by reflexivity.
  assert (BASE : forall hh s hx, with_choke ph sec inlet k 0 hh = (Return s, hx) ->
    hx = set_choke u 0 hh /\ propagate_many ph hh before inlet = Return s).
  { intros hh s hx E. unfold with_choke in E. apply bind_inv in E. destruct E as ([] & hy & E1 & E2).
    assert (hy = set_choke u 0 hh) as -> by (unfold r in SET; rewrite SET in E1 by (vm_compute; discriminate); congruence).
    unfold run in E2. split; [congruence|].
    assert (Y : propagate_many ph (set_choke u 0 hh) (r_units r) inlet = Return s) by (unfold r; congruence).
    rewrite RUN in Y. destruct (propagate_many ph hh before inlet) as [s'|e]; [|discriminate Y]. cbn [obind] in Y. rewrite ZERO in Y. exact Y. }
  assert (NEAR : forall x hh, same_except (cells_of r k) hh h1 -> same_except (cells_of r k) (set_choke u x hh) h1).
  { intros x hh N y Y. rewrite <- (N y Y). rewrite read_set_choke. destruct y; try reflexivity.
    destruct (Nat.eqb u i) eqn:E; [|reflexivity]. apply Nat.eqb_eq in E. subst i. exfalso. apply Y. now apply CELL. }
  unfold downstream_choke in EP. apply bind_inv in EP. destruct EP as (s0 & ha & E1 & EP).
  destruct (BASE _ _ _ E1) as (-> & B1).
  destruct (at_or_below_target (s_pressure s0) target) eqn:AB.
  - destruct (at_target (s_pressure s0) target) eqn:AT0.
    + cbv [ret] in EP. assert (p = mk_solution [(k, ChokeSetting 0)] None /\ set_choke u 0 h1 = h') as [-> <-] by (split; congruence).
      cbn [sol_configuration]. apply REACH; [vm_compute; discriminate|apply NEAR, same_refl|].
      rewrite RUN, B1. cbn [obind]. rewrite ZERO. now apply at_target_within.
    + cbv [ret] in EP. match type of EP with (Return ?q, _) = _ => assert (Y : p = q) by congruence end. rewrite Y in FP. discriminate FP.
  - apply bind_inv in EP. destruct EP as (f & hb & E2 & EP). unfold find_downstream in E2. apply bind_inv in E2.
    destruct E2 as (s1 & hc & E2 & E3). destruct (BASE _ _ _ E2) as (-> & B2).
    assert (s1 = s0) as ->.
    { rewrite (propagate_off (set_choke u 0 h1) h1 before) in B2; [congruence|].
      intros [j kd] J. cbn [fst snd]. destruct kd; try exact I; try reflexivity. cbn [set_choke h_choke]. unfold upd.
      destruct (Nat.eqb u j) eqn:E; [|reflexivity]. apply Nat.eqb_eq in E. subst j. exfalso. apply NU.
      apply (in_map fst) in J. exact J. }
    destruct (Qcltb (s_pressure s0) (fc_value target)) eqn:LT.
    { cbv [ret] in E3. assert (f = (0, Some (Unreachable (s_pressure s0) (fc_value target) MaxBelowTarget None))) as -> by congruence.
      cbv [ret] in EP. match type of EP with (Return ?q, _) = _ => assert (Y : p = q) by congruence end. rewrite Y in FP. discriminate FP. }
    apply Qcltb_ge in LT. cbv [ret] in E3.
    assert (f = (s_pressure s0 - fc_value target, None) /\ hb = set_choke u 0 (set_choke u 0 h1)) as [-> ->] by (split; congruence).
    cbv [ret] in EP. cbn [fst snd] in EP.
    assert (p = mk_solution [(k, ChokeSetting (s_pressure s0 - fc_value target))] None /\ set_choke u 0 (set_choke u 0 h1) = h') as [-> <-]
      by (split; congruence).
    cbn [sol_configuration].
    assert (GT : fc_value target < s_pressure s0).
    { unfold at_or_below_target, fc_ge, fc_gt, fc_is_close in AB. apply orb_false_iff in AB. destruct AB as [_ AB].
      apply orb_false_iff in AB. destruct AB as [AB _]. apply Qceqb_neq in AB.
      destruct (Qcle_lt_or_eq _ _ LT) as [Y|Y]; [exact Y|contradiction]. }
    apply REACH; [qc_lra|apply NEAR, NEAR, same_refl|]. rewrite RUN, B1. cbn [obind].
    destruct (drop_pressure ph (s_pressure s0 - fc_value target) s0) as [o|e] eqn:DP; [|exists s0; split; assumption].
      apply drop_pressure_exact in DP; [|exact CS|qc_lra]. unfold within. rewrite DP.
      assert (s_pressure s0 - (s_pressure s0 - fc_value target) - fc_value target = 0) as -> by ring. exact TP.
Qed.

Theorem success_downstream : forall target inlet h sol h' k u before,
  sec_control sec = PCDownstream k -> 0 <= fc_abs_tol target -> consistent_service (ph_service ph) ->
  dict_get Nat.eqb k (r_handlers (sec_runner sec)) = Some (ChokeHandler u) ->
  r_units (sec_runner sec) = before ++ [(u, Choke)] -> ~ In u (map fst before) ->
  find_solution ph sec [target] inlet h = (Return sol, h') -> success sol = true ->
  exists o h2, run_with ph sec (sol_configuration sol) inlet h' = (o, h2) /\
    match o with
    | Return out => within (fc_abs_tol target) target out
    | Raise e => exists s, fc_value target < s_pressure s /\ drop_pressure ph (s_pressure s - fc_value target) s = Raise e
    end.
Proof.
  intros target inlet h sol h' k u before CTL TP CS GU UN NU H OK.
  eapply success_controlled; [| |exact H|exact OK].
  - intros out AT. now apply at_target_within.
  - intros h1 p EP FP. exact (control_downstream target inlet h1 p h' k u before CTL TP CS GU UN NU EP FP).
Qed.
End Control.

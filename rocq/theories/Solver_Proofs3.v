(** A section's solution does not depend on what its own units were set to before (C40). *)
From Coq Require Import List Bool ZArith Lia.
From Verif Require Import QcTac Base BaseLemmas Num Stream_Model Process_Model Search_Model Solver_Model Solver_Spec Solver_Proofs2.
Import ListNotations.
Local Open Scope Qc_scope.

Lemma unread_nothing : unread nothing. Proof. intros c []. Qed.

Section Control.
Variable ph : physics.
Variable sec : section.
Let r := sec_runner sec.
Variable W : cell -> Prop.
Variable S : cell -> Prop.
Hypothesis U : unread S.

Lemma tame_rate_here : forall l x, settable r l -> subset (cells_of r l) W -> tame W S S (set_rate sec l x).
Proof. intros. eapply tame_weaken; [now apply tame_set_rate|apply minus_subset]. Qed.

Lemma tame_reset_here : forall l, (forall i, In i l -> settable r i) -> subset (cells_of_all r l) W -> tame W S S (reset_all sec l).
Proof. intros. eapply tame_weaken; [now apply tame_reset_all|apply minus_subset]. Qed.

Section Loops.
Variable loops : list handler_id.
Variable cs : list compressor.
Hypothesis L : forall i, In i loops -> settable r i.
Hypothesis HW : subset (cells_of_all r loops) W.

Lemma loop_cells : forall i, In i loops -> subset (cells_of r i) W.
Proof. intros i I c X. apply HW. exists i. auto. Qed.

Lemma tame_stages_here : forall inlet choose, tame W S S (stages ph sec inlet choose (combine loops cs)).
Proof.
  intros. apply tame_stages; [exact U|]. intros p P. apply in_combine_loops in P. split; [now apply L|now apply loop_cells].
Qed.

Lemma tame_minimum : forall inlet, tame W S S (minimum_achievable ph sec inlet loops cs).
Proof.
  intros. unfold minimum_achievable. apply tame_bind1; [apply tame_stages_here|intros].
  apply tame_bind1; [now apply tame_run|intros]. apply tame_bind1; [now apply tame_reset_here|intros; apply tame_ret].
Qed.

Lemma tame_stage_outlet : forall inlet l c x, In l loops -> tame W S S (stage_outlet ph sec inlet l c x).
Proof.
  intros. unfold stage_outlet. apply tame_bind1; [apply tame_rate_here; [now apply L|now apply loop_cells]|intros].
  apply tame_bind1; [now apply tame_run_to|intros]. now apply tame_compressor.
Qed.

Lemma tame_pressure_stages : forall inlet ratio ps i confs, (forall p, In p ps -> In (fst p) loops) ->
  tame W S S (pressure_stages ph sec inlet ratio i ps confs).
Proof.
  intros inlet ratio ps. induction ps as [|[l c] ps IH]; intros i confs H; cbn [pressure_stages]; [apply tame_ret|].
  cbv zeta. apply tame_bind1; [now apply tame_range_at|intros b]. apply tame_bind1.
  - apply tame_find_rate. intros x. apply tame_stage_outlet. apply (H (l, c)). now left.
  - intros f. destruct (snd f); [apply tame_ret|]. apply IH. intros p P. apply H. now right.
Qed.

Lemma tame_individual_pressure : forall target inlet, tame W S S (individual_pressure ph sec target inlet loops cs).
Proof.
  intros. unfold individual_pressure. apply tame_bind1; [now apply tame_reset_here|intros _].
  apply tame_bind1; [apply tame_minimum|intros m]. destruct (Qcltb _ _); [apply tame_ret|].
  apply tame_bind1; [apply tame_lift|intros ratio]. apply tame_pressure_stages. intros p P. now apply in_combine_loops in P.
Qed.

Lemma tame_from_fraction : forall inlet x, tame W S S (from_fraction ph sec inlet loops cs x).
Proof. intros. unfold from_fraction. apply tame_bind1; [now apply tame_reset_here|intros _; apply tame_stages_here]. Qed.

Lemma from_fraction_confs : forall inlet x h confs h', from_fraction ph sec inlet loops cs x h = (Return confs, h') ->
  forall c, In c confs -> In (fst c) loops.
Proof.
  intros inlet x h confs h' H c C. unfold from_fraction, bind in H.
  destruct (reset_all sec loops h) as [[u|e] h1]; [|discriminate].
  apply stages_handlers in H. apply (in_map fst) in C. rewrite H in C. now apply map_fst_combine in C.
Qed.

Lemma tame_fraction_outlet : forall inlet x, tame W S S (fraction_outlet ph sec inlet loops cs x).
Proof.
  intros. unfold fraction_outlet. eapply tame_bind_known; [apply subset_refl|apply tame_from_fraction|].
  intros confs h h' E. apply tame_bind1; [|intros; now apply tame_run].
  apply tame_apply_all. intros c C. pose proof (from_fraction_confs _ _ _ _ _ E _ C) as I.
  split; [apply settable_not_single; now apply L|now apply loop_cells].
Qed.

Lemma tame_individual_rate : forall target inlet, tame W S S (individual_rate ph sec target inlet loops cs).
Proof.
  intros. unfold individual_rate. apply tame_bind1; [now apply tame_reset_here|intros _].
  apply tame_bind1; [apply tame_minimum|intros m]. destruct (Qcltb _ _); [apply tame_ret|].
  apply tame_bind1.
  - apply tame_find_root. intros x. apply tame_bind1; [apply tame_fraction_outlet|intros; apply tame_ret].
  - intros x. apply tame_bind1; [apply tame_from_fraction|intros; apply tame_ret].
Qed.
End Loops.

Lemma tame_common_pressure : forall target inlet l c, settable r l -> subset (cells_of r l) W ->
  tame W S S (common_pressure ph sec target inlet l c).
Proof.
  intros. unfold common_pressure. apply tame_bind1.
  - eapply tame_weaken; [now apply tame_reset|apply minus_subset].
  - intros _. apply tame_bind1; [now apply tame_range_at|intros b]. apply tame_bind1; [|intros; apply tame_ret].
    apply tame_find_rate. intros x. eapply tame_weaken; [apply tame_with_rate|apply minus_subset]; auto.
    intros c' [X _]. now apply U.
Qed.

Lemma tame_with_choke : forall inlet k x, settable r k -> subset (cells_of r k) W -> tame W S S (with_choke ph sec inlet k x).
Proof.
  intros. unfold with_choke. apply tame_bind1; [|intros; now apply tame_run].
  apply tame_apply1; [now apply settable_not_single|assumption].
Qed.

Lemma tame_downstream : forall target inlet k, settable r k -> subset (cells_of r k) W ->
  tame W S S (downstream_choke ph sec target inlet k).
Proof.
  intros. unfold downstream_choke. apply tame_bind1; [now apply tame_with_choke|intros out].
  destruct (at_or_below_target _ _); [destruct (at_target _ _); apply tame_ret|].
  apply tame_bind1; [|intros; apply tame_ret]. apply tame_find_downstream. intros x. now apply tame_with_choke.
Qed.
End Control.

Section Upstream.
Variable ph : physics.
Variable sec : section.
Let r := sec_runner sec.
Variable W : cell -> Prop.
Hypothesis A : forall i, In i (anti_surge_handlers (sec_anti sec)) -> settable r i.
Hypothesis AW : subset (cells_of_all r (anti_surge_handlers (sec_anti sec))) W.

Lemma tame_anti_here : forall S inlet, unread S -> tame W S S (anti_surge_apply ph sec inlet (sec_anti sec)).
Proof.
  intros S inlet U. apply tame_anti_apply; auto; [|apply subset_refl]. apply minus_subset.
Qed.

Lemma anti_confs_ok : forall inlet h s h', anti_surge_apply ph sec inlet (sec_anti sec) h = (Return s, h') ->
  forall c, In c (sol_configuration s) -> not_single r (fst c) /\ subset (cells_of r (fst c)) W.
Proof.
  intros inlet h s h' E c C. pose proof (anti_surge_confs _ _ _ _ _ _ _ E _ C) as I.
  split; [apply settable_not_single; now apply A|]. intros x X. apply AW. exists (fst c). auto.
Qed.

Lemma tame_choke_func : forall S inlet k x, unread S -> settable r k -> subset (cells_of r k) W -> W (CLast k) ->
  tame W S (minus S (fun c => c = CLast k)) (choke_func ph sec inlet k x).
Proof.
  intros S inlet k x U K KW WL. unfold choke_func.
  eapply tame_bind; [apply subset_refl|apply tame_apply1; [now apply settable_not_single|assumption]|intros _].
  eapply tame_bind_known; [apply subset_refl|now apply tame_anti_here|]. intros a h h' E.
  eapply tame_bind; [apply subset_refl|apply tame_apply_all; eapply anti_confs_ok; exact E|intros _].
  eapply tame_bind; [apply minus_subset| |intros _].
  - eapply frame_weaken; [apply sets_tame, sets_last|]. intros c ->. exact WL.
  - apply tame_run. intros c [X _]. now apply U.
Qed.

Lemma tame_upstream : forall S target inlet k, unread S -> subset S (fun c => c = CLast k) ->
  settable r k -> subset (cells_of r k) W -> W (CLast k) ->
  tame W S S (upstream_choke ph sec target inlet k).
Proof.
  intros S target inlet k U SK K KW WL. unfold upstream_choke.
  assert (SN : subset nothing S) by (intros c []).
  eapply tame_weaken; [|exact SN].
  apply (tame_bind _ _ W S nothing nothing); [exact SN| |].
  - change (tame W S nothing (bind (outlet_pressure (choke_func ph sec inlet k) 0)
      (upstream_rest (choke_func ph sec inlet k) (sec_finder sec) (fc_value target)
         (mk_boundary pressure_tolerance (s_pressure inlet - pressure_tolerance))))).
    apply (tame_bind _ _ W S nothing nothing); [exact SN| |].
    + unfold outlet_pressure. apply (tame_bind _ _ W S nothing nothing); [exact SN| |intros; apply tame_ret].
      eapply tame_weaken; [now apply tame_choke_func|]. intros c [X Y]. apply Y. now apply SK.
    + intros p. apply tame_upstream_rest. intros x. eapply tame_weaken; [apply tame_choke_func; auto using unread_nothing|].
      apply minus_subset.
  - intros f. apply tame_bind1; [|intros; apply tame_ret].
    apply tame_query. intros h h' H. assert (X := H (CLast k) (fun x => x)). cbn in X.
    assert (Y : h_last h k = h_last h' k) by (injection X; auto). now rewrite Y.
Qed.
End Upstream.

Section Solve.
Variable ph : physics.
Variable sec : section.
Hypothesis wire : wired sec.
Let r := sec_runner sec.

Definition remembered (c : cell) : Prop := exists k, sec_control sec = PCUpstream k /\ c = CLast k.
Definition level1 : cell -> Prop := minus (own sec) (cells_of_all r (control_handlers (sec_control sec))).

Lemma remembered_unread : unread remembered. Proof. intros c (k & _ & ->). exact I. Qed.

Lemma cells_not_last : forall i k, ~ cells_of r i (CLast k).
Proof.
  intros i k (hd & _ & H). destruct hd; cbn in H; try (destruct H as [H|(u & _ & H)]; discriminate H);
  try (destruct H as [H|H]; discriminate H); discriminate H.
Qed.

Lemma remembered_own : subset remembered level1.
Proof.
  intros c (k & C & ->). split; [right; eauto|]. intros (i & _ & X). now apply cells_not_last in X.
Qed.

Lemma own_handler : forall i, In i (section_handlers sec) -> subset (cells_of r i) (own sec).
Proof. intros i I c X. left. exists i. auto. Qed.
Lemma own_shaft : subset (cells_of r (sec_shaft sec)) (own sec).
Proof. apply own_handler. now left. Qed.
Lemma own_anti : subset (cells_of_all r (anti_surge_handlers (sec_anti sec))) (own sec).
Proof. intros c (i & I & X). eapply own_handler; [|exact X]. right. apply in_or_app. now left. Qed.
Lemma own_control : subset (cells_of_all r (control_handlers (sec_control sec))) (own sec).
Proof. intros c (i & I & X). eapply own_handler; [|exact X]. right. apply in_or_app. now right. Qed.

Lemma anti_settable : forall i, In i (anti_surge_handlers (sec_anti sec)) -> settable r i.
Proof. intros i I. left. now apply (proj1 (proj2 wire)). Qed.
Lemma control_settable : forall i, In i (control_handlers (sec_control sec)) -> settable r i.
Proof.
  intros i I. pose proof (proj2 (proj2 wire) i I) as X. destruct (sec_control sec); first [now right|now left].
Qed.
Lemma shaft_not_single : not_single r (sec_shaft sec).
Proof. intros cs X. destruct wire as ((cs' & G) & _). unfold r in X. congruence. Qed.

Lemma all_minus : forall c, own sec c -> ~ cells_of_all r (control_handlers (sec_control sec)) c ->
  ~ cells_of_all r (anti_surge_handlers (sec_anti sec)) c -> ~ cells_of r (sec_shaft sec) c -> remembered c.
Proof.
  intros c [(i & I & X)|R] C A S; [exfalso|exact R]. destruct I as [<-|I]; [contradiction|].
  apply in_app_or in I. destruct I as [I|I]; [apply A|apply C]; exists i; auto.
Qed.

Lemma tame_speed_func : forall inlet x, tame (own sec) level1 level1 (speed_func ph sec inlet x).
Proof.
  intros inlet x. eapply tame_weaken; [|apply remembered_own]. unfold speed_func.
  apply (tame_bind _ _ _ level1 (minus level1 (cells_of_all r (anti_surge_handlers (sec_anti sec))))); [apply minus_subset| |intros _].
  { apply tame_anti_reset; [apply anti_settable|apply own_anti]. }
  apply (tame_bind _ _ _ _ remembered remembered); [| |intros _].
  - intros c C. split; [now apply remembered_own|]. destruct C as (k & _ & ->). intros (i & _ & X). now apply cells_not_last in X.
  - eapply tame_weaken; [apply tame_apply; [apply shaft_not_single|apply own_shaft]|].
    intros c [[[O C] A] X]. now apply all_minus.
  - apply tame_catch; [apply tame_run, remembered_unread|]. intros e k X.
    destruct (is_one_of [SurgeError] e); [injection X as <-|discriminate X].
    eapply tame_bind_known; [apply subset_refl|apply tame_anti_here; [apply anti_settable|apply own_anti|apply remembered_unread]|].
    intros a h h' E. apply tame_bind1; [apply tame_apply_all|intros; apply tame_run, remembered_unread].
    eapply anti_confs_ok; [apply anti_settable|apply own_anti|exact E].
Qed.

Lemma tame_control_reset : tame (own sec) (own sec) level1 (control_reset sec (sec_control sec)).
Proof.
  pose proof control_settable as CS. pose proof own_control as OC. unfold level1.
  destruct (sec_control sec) as [k|k|l c|ls cs|ls cs]; cbn [control_reset control_handlers] in *.
  1,2: (eapply tame_weaken; [apply tame_reset;
      [apply CS; now left|intros c' X; apply OC; exists k; split; [now left|exact X]]
     |intros c' [X Y]; split; [exact X|]; intros (j & [<-|[]] & Z); contradiction]).
  - (eapply tame_weaken; [apply tame_reset;
      [apply CS; now left|intros c' X; apply OC; exists l; split; [now left|exact X]]
     |intros c' [X Y]; split; [exact X|]; intros (j & [<-|[]] & Z); contradiction]).
  - now apply tame_reset_all.
  - now apply tame_reset_all.
Qed.

Lemma tame_control_apply : forall target inlet,
  tame (own sec) remembered remembered (control_apply ph sec target inlet (sec_control sec)).
Proof.
  intros target inlet. pose proof control_settable as CS. pose proof own_control as OC.
  pose proof remembered_unread as RU.
  assert (ONE : forall i, In i (control_handlers (sec_control sec)) -> subset (cells_of r i) (own sec)).
  { intros i I c X. apply OC. exists i. auto. }
  destruct (sec_control sec) as [k|k|l c|ls cs|ls cs] eqn:E; cbn [control_apply control_handlers] in *.
  - apply tame_upstream; auto using anti_settable, own_anti.
    + intros c (k' & X & ->). rewrite E in X. congruence.
    + apply CS; now left.
    + apply ONE; now left.
    + right. eauto.
  - apply tame_downstream; auto; [apply CS; now left|apply ONE; now left].
  - apply tame_common_pressure; auto; [apply CS; now left|apply ONE; now left].
  - now apply tame_individual_rate.
  - now apply tame_individual_pressure.
Qed.

Lemma tame_solve_section : forall target inlet, tame (own sec) (own sec) (own sec) (solve_section ph sec target inlet).
Proof.
  intros target inlet. eapply tame_weaken with (T := level1); [|apply minus_subset]. unfold solve_section.
  apply (tame_bind _ _ _ (own sec) level1 level1); [apply minus_subset| |intros sf].
  - unfold find_speed_solution. eapply tame_bind; [apply minus_subset|apply tame_control_reset|intros _].
    apply tame_find_speed. intros x. apply tame_speed_func.
  - cbv zeta.
    assert (K : forall k : solution -> M heap solution,
      (forall a h h', anti_surge_apply ph sec inlet (sec_anti sec) h = (Return a, h') -> tame (own sec) remembered remembered (k a)) ->
      tame (own sec) level1 level1
        (apply_configuration (sec_runner sec) (sec_shaft sec, SpeedSetting (fst sf)) ;;*
         (let* a := anti_surge_apply ph sec inlet (sec_anti sec) in k a))).
    { intros k Hk. eapply tame_weaken; [|apply remembered_own].
      apply (tame_bind _ _ _ level1 (minus level1 (cells_of r (sec_shaft sec)))); [apply minus_subset| |intros _].
      - apply tame_apply; [apply shaft_not_single|apply own_shaft].
      - eapply tame_bind_known; [| |exact Hk].
        + intros c C. split; [now apply remembered_own|]. destruct C as (j & _ & ->). apply cells_not_last.
        + apply tame_anti_apply; [apply remembered_unread|apply anti_settable|apply own_anti| |].
          * intros c [[[O C] X] A]. now apply all_minus.
          * intros c C. split; [now apply remembered_own|]. destruct C as (j & _ & ->). apply cells_not_last. }
    assert (LAST : forall a h h', anti_surge_apply ph sec inlet (sec_anti sec) h = (Return a, h') ->
      tame (own sec) remembered remembered
        (apply_configurations (sec_runner sec) ((sec_shaft sec, SpeedSetting (fst sf)) :: sol_configuration a) ;;*
         (let* out := run ph (sec_runner sec) inlet in
          if at_target (s_pressure out) target
          then ret (mk_solution ((sec_shaft sec, SpeedSetting (fst sf)) :: sol_configuration a) None)
          else
            let* p := control_apply ph sec target inlet (sec_control sec) in
            ret (mk_solution (merge_configurations ((sec_shaft sec, SpeedSetting (fst sf)) :: sol_configuration a) (sol_configuration p))
                   match sol_failure p with
                   | Some (Unreachable a t d None) => Some (Unreachable a t d (Some (sec_id sec)))
                   | f => f
                   end)))).
    { intros a h h' E. apply tame_bind1.
      - apply tame_apply_all. intros c [<-|C]; cbn [fst]; [split; [apply shaft_not_single|apply own_shaft]|].
        eapply anti_confs_ok; [apply anti_settable|apply own_anti|exact E|exact C].
      - intros _. apply tame_bind1; [apply tame_run, remembered_unread|intros out].
        destruct (at_target _ _); [apply tame_ret|]. apply tame_bind1; [apply tame_control_apply|intros; apply tame_ret]. }
    destruct (snd sf) as [[]|]; try apply tame_ret; apply K; intros a h h' E;
      (destruct (negb (success a)); [apply tame_ret|]); try (eapply LAST; exact E).
    destruct d; first [apply tame_ret|eapply LAST; exact E].
Qed.

Lemma tame_find_solution : forall targets inlet, tame (own sec) (own sec) (own sec) (find_solution ph sec targets inlet).
Proof.
  intros [|target [|t2 ts]] inlet; cbn [find_solution]; try apply tame_raise.
  unfold caught. apply tame_catch; [apply tame_solve_section|]. intros e k X.
  destruct e; cbn [process_failure] in X; try discriminate X; injection X as <-; apply tame_ret.
Qed.
End Solve.

Theorem independent_proof : forall ph sec targets inlet h h',
  wired sec -> same_except (own sec) h h' ->
  fst (find_solution ph sec targets inlet h) = fst (find_solution ph sec targets inlet h') /\
  same_except (own sec) (snd (find_solution ph sec targets inlet h)) (snd (find_solution ph sec targets inlet h')).
Proof.
  intros ph sec targets inlet h h' WI H. destruct (proj1 (tame_find_solution ph sec WI targets inlet) h h' H) as (A & B & _).
  split; [exact A|exact B].
Qed.

Theorem local_proof : forall ph sec targets inlet h,
  wired sec -> same_except (own sec) h (snd (find_solution ph sec targets inlet h)).
Proof. intros. now apply tame_find_solution. Qed.

Lemma happens_local : forall ph sec e h, wired sec -> own_event sec e -> same_except (own sec) h (happens ph sec h e).
Proof.
  intros ph sec [targets inlet|[i v]] h WI O; cbn [happens own_event fst] in *; [now apply local_proof|].
  assert (N : not_single (sec_runner sec) i).
  { destruct O as [<-|O]; [now apply shaft_not_single|]. apply in_app_or in O.
    destruct O as [O|O]; apply settable_not_single; [now apply anti_settable|now apply control_settable]. }
  apply (proj2 (tame_apply _ i v (own sec) nothing N (own_handler sec i O))).
Qed.

Theorem history_proof : forall ph sec history targets inlet h,
  wired sec -> Forall (own_event sec) history ->
  fst (find_solution ph sec targets inlet (fold_left (happens ph sec) history h)) = fst (find_solution ph sec targets inlet h).
Proof.
  intros ph sec history targets inlet h WI H. symmetry. apply independent_proof; [exact WI|].
  revert h. induction H as [|e l O _ IH]; intros h; cbn [fold_left]; [apply same_refl|].
  eapply same_trans; [apply happens_local; eauto|apply IH].
Qed.

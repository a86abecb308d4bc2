(** One shaft for all sections (C122). *)
From Coq Require Import List Bool ZArith Lia.
From Verif Require Import QcTac Base BaseLemmas Num Stream_Model Stream_Spec Stream_Proofs Process_Model Process_Proofs Search_Model Solver_Model Solver_Spec Solver_Proofs
  Solver_Proofs2 Solver_Proofs3 Solver_Proofs5 Solver_Proofs6 Solver_Proofs7 Several_Spec Several_Proofs.
Import ListNotations.
Local Open Scope Qc_scope.

(** ** Which sections are accepted *)

Lemma In_seq_combine : forall A (l : list A) n i a, In (i, a) (combine (seq n (length l)) l) <->
  exists before after, l = before ++ a :: after /\ i = (n + length before)%nat.
Proof.
  intros A l. induction l as [|b l IH]; intros n i a; cbn [length seq combine].
  - split; [intros []|]. intros (x & y & E & _). destruct x; discriminate E.
  - cbn [In]. rewrite IH. split.
    + intros [E|(x & y & -> & ->)].
      * injection E as -> ->. exists [], l. split; [reflexivity|]. cbn [length]. lia.
      * exists (b :: x), y. split; [reflexivity|]. cbn [length]. lia.
    + intros (x & y & E & ->). destruct x as [|c x]; cbn [app] in E.
      * injection E as -> ->. left. cbn [length]. now rewrite Nat.add_0_r.
      * injection E as -> ->. right. exists x, y. split; [reflexivity|]. cbn [length]. lia.
Qed.

Lemma placed_iff : forall secs,
  forallb (fun p => control_placed (length secs) (fst p) (sec_control (snd p))) (combine (seq 0 (length secs)) secs) = true <->
  chokes_placed secs.
Proof.
  intros secs. rewrite forallb_forall. split.
  - intros H. split; intros before sec after k E C.
    + assert (X : In (length before, sec) (combine (seq 0 (length secs)) secs)) by (apply In_seq_combine; exists before, after; auto).
      specialize (H _ X). cbn [fst snd] in H. rewrite C in H. cbn [control_placed] in H. apply Nat.eqb_eq in H.
      now destruct before.
    + assert (X : In (length before, sec) (combine (seq 0 (length secs)) secs)) by (apply In_seq_combine; exists before, after; auto).
      specialize (H _ X). cbn [fst snd] in H. rewrite C in H. cbn [control_placed] in H. apply Nat.eqb_eq in H.
      apply (f_equal (@length section)) in E. rewrite app_length in E. cbn [length] in E. destruct after; [reflexivity|].
      cbn [length] in E. lia.
  - intros [U D] [i sec] I. apply In_seq_combine in I. destruct I as (before & after & E & ->). cbn [fst snd].
    destruct (sec_control sec) as [k|k|l c|ls cs|ls cs] eqn:C; cbn [control_placed]; try reflexivity; apply Nat.eqb_eq.
    + rewrite (U _ _ _ _ E C). reflexivity.
    + pose proof (D _ _ _ _ E C) as ->. apply (f_equal (@length section)) in E. rewrite app_length in E. cbn [length] in E. lia.
Qed.

Theorem pressure_accepts_proof : forall secs shaft,
  multi_pressure_valid secs = Return shaft <->
  (2 <= length secs)%nat /\ (forall sec, In sec secs -> sec_shaft sec = shaft) /\ chokes_placed secs.
Proof.
  intros secs shaft. destruct secs as [|s [|s2 secs]].
  - split; [discriminate|]. intros (L & _). cbn [length] in L. lia.
  - split; [discriminate|]. intros (L & _). cbn [length] in L. lia.
  - set (all := s :: s2 :: secs). unfold multi_pressure_valid. fold all. unfold all at 1.
    pose proof (placed_iff all) as P. cbv beta in P.
    assert (SH : forallb (fun x => Nat.eqb (sec_shaft x) (sec_shaft s)) all = true <-> forall sec, In sec all -> sec_shaft sec = sec_shaft s).
    { rewrite forallb_forall. split; intros H sec I; [apply Nat.eqb_eq|apply Nat.eqb_eq]; now apply H. }
    destruct (forallb (fun x => Nat.eqb (sec_shaft x) (sec_shaft s)) all).
    + destruct (forallb _ (combine _ all)).
      * split.
        -- intros E. assert (sec_shaft s = shaft) as <- by congruence. split; [cbn [all length]; lia|]. split; [now apply SH|now apply P].
        -- intros (_ & A & _). now rewrite (A s (or_introl eq_refl)).
      * split; [discriminate|]. intros (_ & _ & C). apply P in C. discriminate C.
    + split; [discriminate|]. intros (_ & A & _). exfalso.
      assert (false = true) by (apply SH; intros sec I; rewrite (A sec I); symmetry; apply A; now left). discriminate.
Qed.

Theorem pressure_refuses_proof : forall secs, (forall shaft, multi_pressure_valid secs <> Return shaft) ->
  multi_pressure_valid secs = Raise ValidationErr.
Proof.
  intros secs H. unfold multi_pressure_valid in *. destruct secs as [|s [|s2 secs]]; try reflexivity.
  destruct (forallb _ _); [|reflexivity]. destruct (forallb _ _); [|reflexivity]. exfalso. exact (H _ eq_refl).
Qed.

Theorem pressure_number_proof : forall ph shaft secs targets inlet h, length targets <> length secs ->
  multi_pressure ph shaft secs targets inlet h = (Raise ValidationErr, h).
Proof. intros ph shaft secs targets inlet h N. unfold multi_pressure. apply Nat.eqb_neq in N. now rewrite N. Qed.

(** ** The first pass *)

Lemma get_configuration_In : forall s i v, get_configuration s i = Return v -> In (i, v) (sol_configuration s).
Proof.
  intros s i v H. unfold get_configuration in H. destruct (find _ _) as [[j w]|] eqn:E; [|discriminate H].
  apply find_some in E. destruct E as [I E]. cbn [fst snd] in *. apply Nat.eqb_eq in E. subst j. now assert (w = v) as <- by congruence.
Qed.

Lemma first_pass_cases : forall ph shaft ps s h r h', first_pass ph shaft ps s h = (Return r, h') ->
  match r with
  | inl xs => exists out, needs ph shaft ps s h xs out h'
  | inr bad => exists before sec target after xs s1 h1, ps = before ++ (sec, target) :: after /\
      needs ph shaft before s h xs s1 h1 /\ find_solution ph sec [target] s1 h1 = (Return bad, h') /\ success bad = false
  end.
Proof.
  intros ph shaft ps. induction ps as [|[sec target] ps IH]; intros s h r h' H; cbn [first_pass] in H.
  - cbv [ret] in H. assert (r = inl [] /\ h = h') as [-> <-] by (split; congruence). exists s. constructor.
  - unfold bind at 1 in H. destruct (find_solution ph sec [target] s h) as [[sol|e] h1] eqn:E; [|discriminate H].
    destruct (success sol) eqn:OK; cbn [negb] in H.
    2: { cbv [ret] in H. assert (r = inr sol /\ h1 = h') as [-> ->] by (split; congruence).
         exists [], sec, target, ps, [], s, h. split; [reflexivity|]. split; [constructor|auto]. }
    apply bind_inv in H. destruct H as (v & h1' & G & H). unfold lift in G.
    assert (h1' = h1) as -> by congruence. assert (GV : get_configuration sol shaft = Return v) by congruence.
    apply get_configuration_In in GV. destruct v as [x|x|x]; try discriminate H.
    rewrite run_with_form in H. apply bind_inv in H. destruct H as (out & h2 & R & H).
    apply bind_inv in H. destruct H as (q & h3 & F & H). apply IH in F. cbv [ret] in H.
    destruct q as [xs|bad].
    + destruct F as (out' & N). assert (r = inl (x :: xs) /\ h3 = h') as [-> ->] by (split; congruence). exists out'.
      eapply needs_next; eauto.
    + destruct F as (before & sec' & target' & after & xs & s1 & h4 & EP & N & FB & B).
      assert (r = inr bad /\ h3 = h') as [-> ->] by (split; congruence).
      exists ((sec, target) :: before), sec', target', after, (x :: xs), s1, h4. split; [cbn [app]; now rewrite EP|].
      split; [eapply needs_next; eauto|auto].
Qed.

Lemma largest_ok : forall xs x, largest xs = Return x -> In x xs /\ forall y, In y xs -> y <= x.
Proof.
  intros [|a xs] x H; [discriminate H|]. unfold largest in H.
  assert (E : x = fold_left (fun m y => if Qcltb m y then y else m) xs a) by congruence. clear H. rewrite E. clear E x.
  revert a. induction xs as [|b xs IH]; intros a; cbn [fold_left].
  - split; [now left|]. intros y [<-|[]]. apply Qcle_refl.
  - destruct (IH (if Qcltb a b then b else a)) as [I1 I2]. destruct (Qcltb a b) eqn:L.
    + apply Qcltb_lt in L. split; [destruct I1 as [I1|I1]; [right; now left|right; now right]|].
      intros y [<-|[<-|Y]]; [|apply I2; now left|apply I2; now right].
      apply Qclt_le_weak in L. eapply Qcle_trans; [exact L|apply I2; now left].
    + apply Qcltb_ge in L. split; [destruct I1 as [I1|I1]; [now left|right; now right]|].
      intros y [<-|[<-|Y]]; [apply I2; now left| |apply I2; now right].
      eapply Qcle_trans; [exact L|apply I2; now left].
Qed.

(** ** The second pass: one section *)

Section Second.
Variable ph : physics.
Variable shaft : handler_id.
Variable cs : list unit_id.
Variable x : Qc.
Definition at_speed (h : heap) : Prop := forall u, In u cs -> h_speed h u = Some x.

Lemma apply_speed_sets : forall l i h, (forall u, In u l -> h_speed (apply_speed i l x h) u = Some x).
Proof.
  intros l i h u I. unfold apply_speed.
  assert (X : forall l h, (In u l \/ h_speed h u = Some x) -> h_speed (fold_left (fun h c => set_speed c x h) l h) u = Some x).
  { clear. induction l as [|v l IH]; intros h [I|I]; cbn [fold_left]; try contradiction; auto.
    - destruct I as [->|I].
      + apply IH. right. cbn [set_speed h_speed]. unfold upd. now rewrite Nat.eqb_refl.
      + apply IH. now left.
    - apply IH. right. cbn [set_speed h_speed]. unfold upd. now destruct (Nat.eqb v u). }
  apply X. now left.
Qed.

Variable sec : section.
Variable target : float_constraint.
Hypothesis Q : well_equipped ph sec target.
Hypothesis SH : on_shaft shaft cs sec.
Let r := sec_runner sec.
Let loops := anti_surge_handlers (sec_anti sec) ++ control_handlers (sec_control sec).
Let mine (c : cell) : Prop := cells_of_all r loops c \/ exists k, sec_control sec = PCUpstream k /\ c = CLast k.

Lemma step_wired : wired sec. Proof. apply Q. Qed.
Lemma step_separate : separate sec. Proof. apply Q. Qed.
Lemma loops_settable2 : forall i, In i loops -> settable r i.
Proof. intros i I. apply in_app_or in I. destruct I as [I|I]; [now apply (anti_settable sec step_wired)|now apply (control_settable sec step_wired)]. Qed.
Lemma mine_own : subset mine (own sec).
Proof.
  intros c [(i & I & C)|R]; [left|right; exact R]. exists i. split; [now right|exact C].
Qed.
Lemma speed_not_mine : forall u, In u cs -> ~ mine (CSpeed u).
Proof.
  intros u U [(i & I & C)|(k & _ & X)]; [|discriminate X].
  destruct SH as [S1 S2]. destruct step_separate as (_ & _ & D).
  apply (D (sec_shaft sec) i (CSpeed u)); [now left|now right| | |exact C].
  - intros E. apply (shaft_not_loop sec step_wired i (loops_settable2 i I)). symmetry. exact E.
  - exists (VariableSpeedShaft cs). rewrite S1. split; [exact S2|]. cbn [handler_cells]. right. exists u. auto.
Qed.
Lemma frame_speed : forall h h', same_except mine h h' -> at_speed h -> at_speed h'.
Proof.
  intros h h' F A u U. pose proof (F _ (speed_not_mine u U)) as X. cbn [read] in X. specialize (A u U). congruence.
Qed.

Lemma control_frame : forall inlet h, same_except mine h (snd (control_apply ph sec target inlet (sec_control sec) h)).
Proof.
  intros inlet.
  assert (T : tame mine (remembered sec) (remembered sec) (control_apply ph sec target inlet (sec_control sec))); [|exact (proj2 T)].
  pose proof (control_settable sec step_wired) as CS. pose proof (remembered_unread sec) as RU.
  assert (ONE : forall i, In i loops -> subset (cells_of r i) mine).
  { intros i I c X. left. exists i. auto. }
  assert (ONE' : forall i, In i (control_handlers (sec_control sec)) -> subset (cells_of r i) mine).
  { intros i I. apply ONE. apply in_or_app. now right. }
  assert (ALL : subset (cells_of_all r (control_handlers (sec_control sec))) mine).
  { intros c (i & I & C). exact (ONE' i I c C). }
  assert (ANTI : subset (cells_of_all r (anti_surge_handlers (sec_anti sec))) mine).
  { intros c (i & I & C). refine (ONE i _ c C). apply in_or_app. now left. }
  assert (LK : forall k, sec_control sec = PCUpstream k -> mine (CLast k)) by (intros k E; right; eauto).
  assert (RK : forall k, sec_control sec = PCUpstream k -> subset (remembered sec) (fun c => c = CLast k)).
  { intros k E c (k' & X & ->). rewrite E in X. congruence. }
  clearbody mine. revert CS ONE' ALL LK RK.
  destruct (sec_control sec) as [k|k|l c|ls cs'|ls cs'] eqn:E; cbn [control_apply control_handlers]; intros CS ONE' ALL LK RK.
  - apply tame_upstream; auto.
    + exact (anti_settable sec step_wired).
    + apply CS; now left.
    + apply ONE'; now left.
  - apply tame_downstream; auto; [apply CS; now left|apply ONE'; now left].
  - apply tame_common_pressure; auto; [apply CS; now left|apply ONE'; now left].
  - now apply tame_individual_rate.
  - now apply tame_individual_pressure.
Qed.

Lemma apply_frame : forall cfg h h', (forall c, In c cfg -> In (fst c) loops) ->
  apply_configurations r cfg h = (Return tt, h') -> same_except mine h h'.
Proof.
  intros cfg h h' K A. apply same_sym. eapply same_weaken; [|eapply apply_all_frame; [|exact A]].
  - intros c (i & I & C). left. exists i. split; [|exact C]. apply in_map_iff in I. destruct I as (d & <- & I). now apply K.
  - intros c C. now apply settable_not_single, loops_settable2, K.
Qed.

(** The shaft, then the anti-surge configurations. *)
Lemma at_common_speed : forall inlet h u1 ha u2 hb a hc hd,
  control_reset sec (sec_control sec) h = (Return u1, ha) ->
  apply_configuration r (shaft, SpeedSetting x) ha = (Return u2, hb) ->
  anti_surge_apply ph sec inlet (sec_anti sec) hb = (Return a, hc) ->
  apply_configurations r (sol_configuration a) hc = (Return tt, hd) ->
  at_speed hd /\ same_except (own sec) h hd /\ (forall c, In c (sol_configuration a) -> In (fst c) loops).
Proof.
  intros inlet h u1 ha u2 hb a hc hd E1 E2 E3 E4.
  assert (KA : forall c, In c (sol_configuration a) -> In (fst c) loops).
  { intros c C. apply in_or_app. left. exact (anti_surge_confs _ _ _ _ _ _ _ E3 _ C). }
  assert (Fa : same_except (own sec) h ha).
  { pose proof (proj2 (tame_control_reset sec step_wired) h) as F. rewrite E1 in F. exact F. }
  assert (Sb : at_speed hb).
  { unfold apply_configuration in E2. cbn [fst snd] in E2. destruct SH as [_ S2]. unfold r in E2. rewrite S2 in E2. cbn [handle] in E2.
    assert (hb = apply_speed shaft cs x ha) as -> by congruence. intros u U. now apply apply_speed_sets. }
  assert (Fb : same_except (own sec) ha hb).
  { pose proof (applied_in_force r (shaft, SpeedSetting x) ha hb) as X. cbn [fst] in X. destruct SH as [S1 S2].
    destruct X as [_ F]; [rewrite <- S1; apply (shaft_not_single sec step_wired)|destruct u2; exact E2|].
    apply same_sym. eapply same_weaken; [|exact F]. rewrite <- S1. apply own_shaft. }
  assert (Fc : same_except mine hb hc).
  { pose proof (tame_anti_apply ph sec mine nothing unread_nothing nothing inlet (sec_anti sec) (anti_settable sec step_wired)) as X.
    destruct X as [_ F].
    - intros c (i & I & C). left. exists i. split; [|exact C]. apply in_or_app. now left.
    - intros c [[] _].
    - intros c [].
    - specialize (F hb). now rewrite E3 in F. }
  pose proof (apply_frame _ _ _ KA E4) as Fd.
  split; [|split; [|exact KA]].
  - apply (frame_speed hc); [exact Fd|]. apply (frame_speed hb); [exact Fc|exact Sb].
  - apply same_trans with ha; [exact Fa|]. apply same_trans with hb; [exact Fb|].
    apply same_trans with hc; eapply same_weaken; [exact mine_own|exact Fc|exact mine_own|exact Fd].
Qed.

(** Then the pressure control. *)
Lemma brought_down : forall inlet hd p he hf out hg,
  control_apply ph sec target inlet (sec_control sec) hd = (Return p, he) -> success p = true ->
  apply_configurations r (sol_configuration p) he = (Return tt, hf) -> run ph r inlet hf = (Return out, hg) ->
  at_speed hd ->
  hg = hf /\ at_speed hf /\ same_except (own sec) hd hf /\ meets target out /\ (forall c, In c (sol_configuration p) -> In (fst c) loops).
Proof.
  intros inlet hd p he hf out hg E1 OK E2 E3 A. apply success_None in OK.
  destruct (equipped_control _ _ _ _ _ _ _ Q E1 OK) as (KE & G & o & IG & _ & SE & RU & GOOD).
  assert (KP : forall c, In c (sol_configuration p) -> In (fst c) loops) by (intros c C; apply KE; now apply in_map).
  pose proof (control_frame inlet hd) as Fe. rewrite E1 in Fe. cbn [snd] in Fe. pose proof (apply_frame _ _ _ KP E2) as Ff.
  assert (HG : hg = hf) by (unfold run in E3; congruence).
  split; [exact HG|]. split; [|split; [|split; [|exact KP]]].
  - apply (frame_speed he); [exact Ff|]. now apply (frame_speed hd).
  - apply same_trans with he; eapply same_weaken; [exact mine_own|exact Fe|exact mine_own|exact Ff].
  - destruct (run_with_reaches ph sec (sol_configuration p) inlet he G o IG SE RU) as (h2 & X).
    unfold run_with, bind in X. unfold r in E2, E3. rewrite E2, E3 in X. apply GOOD. congruence.
Qed.

Lemma not_away : forall out, above_target (s_pressure out) target = false -> below_target (s_pressure out) target = false -> meets target out.
Proof.
  intros out A B. apply at_target_within; [apply Q|]. unfold above_target, below_target, at_target, fc_lt, fc_gt, fc_eq in *.
  destruct (fc_is_close target (s_pressure out)) eqn:C; [reflexivity|]. cbn [negb andb] in A, B. exfalso.
  apply Qcltb_ge in A. apply Qcltb_ge in B. unfold fc_is_close in C. apply orb_false_iff in C. destruct C as [C _].
  apply Qceqb_neq in C. apply C. now apply Qcle_antisym.
Qed.
End Second.

Lemma last_says_merge : forall a b i v, last_says a i v -> ~ In i (map fst b) -> last_says (merge_configurations a b) i v.
Proof.
  intros a b i v H N. pose proof (merge_proof a b) as (ND & IN & _).
  assert (I : In (i, v) (merge_configurations a b)) by (apply IN, last_says_app; right; auto).
  apply in_split in I. destruct I as (x & y & E). exists x, y. split; [exact E|]. intros J.
  pose proof (eq_ind _ (fun l => NoDup (map fst l)) ND _ E) as ND'. cbv beta in ND'. rewrite map_app in ND'. cbn [map fst] in ND'.
  apply NoDup_remove_2 in ND'. apply ND'. apply in_or_app. now right.
Qed.

Lemma combine_success : forall a b, success a = true -> success (combine_solutions a b) = success b /\
  sol_configuration (combine_solutions a b) = merge_configurations (sol_configuration a) (sol_configuration b).
Proof. intros a b H. unfold combine_solutions. rewrite H. split; reflexivity. Qed.

Section All.
Variable ph : physics.
Variable shaft : handler_id.
Variable cs : list unit_id.
Variable x : Qc.

Lemma second_pass_ok : forall ps inlet so_far h sol h',
  success so_far = true -> last_says (sol_configuration so_far) shaft (SpeedSetting x) ->
  Forall (fun p => well_equipped ph (fst p) (snd p)) ps -> Forall (fun p => on_shaft shaft cs (fst p)) ps ->
  leave_alone own_loops (map fst ps) ->
  second_pass ph (shaft, SpeedSetting x) ps inlet so_far h = (Return sol, h') -> success sol = true ->
  (exists streams, flows ph h' (map fst ps) inlet streams /\ Forall2 meets (map snd ps) streams) /\
  last_says (sol_configuration sol) shaft (SpeedSetting x) /\
  same_except (fun c => exists sec, In sec (map fst ps) /\ own sec c) h h' /\
  (ps <> [] \/ at_speed cs x h -> at_speed cs x h').
Proof.
  intros ps. induction ps as [|[sec target] ps IH]; intros inlet so_far h sol h' OK LS QS SH L H S; cbn [second_pass] in H.
  - cbv [ret] in H. assert (so_far = sol /\ h = h') as [<- <-] by (split; congruence).
    split; [exists []; split; constructor|]. split; [exact LS|]. split; [apply same_refl|]. intros [N|A]; [contradiction|exact A].
  - inversion QS as [|p0 l0 Q1 Q2]; subst. inversion SH as [|p0 l0 S1 S2]; subst. cbn [fst snd] in Q1, S1.
    cbn [map fst leave_alone] in L. destruct L as [L1 L2].
    (* what is left when this section is done *)
    assert (REST : forall out so_far' h1, at_speed cs x h1 -> same_except (own sec) h h1 ->
      fst (run ph (sec_runner sec) inlet h1) = Return out -> meets target out -> success so_far' = true ->
      last_says (sol_configuration so_far') shaft (SpeedSetting x) ->
      second_pass ph (shaft, SpeedSetting x) ps out so_far' h1 = (Return sol, h') ->
      (exists streams, flows ph h' (map fst ((sec, target) :: ps)) inlet streams /\ Forall2 meets (map snd ((sec, target) :: ps)) streams) /\
      last_says (sol_configuration sol) shaft (SpeedSetting x) /\
      same_except (fun c => exists sec', In sec' (map fst ((sec, target) :: ps)) /\ own sec' c) h h' /\
      (((sec, target) :: ps) <> [] \/ at_speed cs x h -> at_speed cs x h')).
    { intros out so_far' h1 A1 F1 R1 M1 OK' LS' H'.
      destruct (IH out so_far' h1 sol h' OK' LS' Q2 S2 L2 H' S) as ((streams & FL & M) & LSF & F2 & AT).
      assert (A2 : at_speed cs x h') by (apply AT; now right).
      split; [|split; [exact LSF|split; [|intros _; exact A2]]].
      - exists (out :: streams). cbn [map fst snd]. split; [|constructor; assumption]. constructor; [|exact FL].
        rewrite <- R1. apply reads_same. intros c C.
        assert (SP : forall u, In u cs -> read h' (CSpeed u) = read h1 (CSpeed u)).
        { intros u U. cbn [read]. now rewrite (A1 u U), (A2 u U). }
        destruct c as [u|u|u|u|u|u].
        1: { destruct (in_dec Nat.eq_dec u cs) as [U|U]; [now apply SP|]. symmetry. apply F2.
             intros (later & I & [(i & J & CC)|(k & _ & X)]); [|discriminate X]. destruct J as [<-|J].
             - rewrite Forall_forall in S2. apply in_map_iff in I. destruct I as (q & <- & I). destruct (S2 q I) as [E1 E2].
               destruct CC as (hd & G & HC). rewrite E1, E2 in G. assert (hd = VariableSpeedShaft cs) as -> by congruence.
               cbn [handler_cells] in HC. destruct HC as [HC|(v & V & HC)]; [discriminate HC|]. injection HC as ->. contradiction.
             - apply (L1 later (CSpeed u) I); [exists i; auto|exact C]. }
        1,2,3: (symmetry; apply F2; intros (later & I & [(i & J & CC)|(k & _ & X)]); [|discriminate X]; destruct J as [<-|J];
          [rewrite Forall_forall in S2; apply in_map_iff in I; destruct I as (q & <- & I); destruct (S2 q I) as [E1 E2];
           destruct CC as (hd & G & HC); rewrite E1, E2 in G; assert (hd = VariableSpeedShaft cs) as -> by congruence;
           cbn [handler_cells] in HC; destruct HC as [HC|(v & V & HC)]; discriminate HC
          |eapply (L1 later); [exact I|exists i; split; [exact J|exact CC]|exact C]]).
        1,2: (exfalso; destruct C as ([j kd] & _ & C); unfold unit_reads in C; cbn [fst snd] in C; destruct kd; try contradiction; discriminate C).
      - apply same_trans with h1.
        + eapply same_weaken; [|exact F1]. intros c C. exists sec. split; [now left|exact C].
        + eapply same_weaken; [|exact F2]. intros c (s' & I & C). exists s'. split; [now right|exact C]. }
    apply bind_inv in H. destruct H as (u1 & ha & E1 & H). apply bind_inv in H. destruct H as (u2 & hb & E2 & H).
    apply bind_inv in H. destruct H as (a & hc & E3 & H). apply bind_inv in H. destruct H as ([] & hd & E4 & H). cbv zeta in H.
    destruct (at_common_speed ph shaft cs x sec target Q1 S1 inlet h u1 ha u2 hb a hc hd E1 E2 E3 E4) as (A & F & KA).
    assert (NS : forall i, In i (anti_surge_handlers (sec_anti sec) ++ control_handlers (sec_control sec)) -> i <> shaft).
    { intros i I. destruct S1 as [<- _]. apply (shaft_not_loop sec (proj1 Q1)). now apply (loops_settable2 ph sec target Q1). }
    destruct (combine_success so_far a OK) as [CS1 CS2].
    destruct (success (combine_solutions so_far a)) eqn:SA; cbn [negb] in H.
    2: { cbv [ret] in H. exfalso. assert (sol = combine_solutions so_far a) as -> by congruence. congruence. }
    assert (LA : last_says (sol_configuration (combine_solutions so_far a)) shaft (SpeedSetting x)).
    { rewrite CS2. apply last_says_merge; [exact LS|]. intros I. apply in_map_iff in I. destruct I as (c & E & I).
      exact (NS _ (KA c I) E). }
    apply bind_inv in H. destruct H as (out & hd' & R & H). assert (hd' = hd) as -> by (unfold run in R; congruence).
    destruct (above_target (s_pressure out) target) eqn:AB.
    + apply bind_inv in H. destruct H as (p & he & EP & H).
      destruct (combine_success (combine_solutions so_far a) p SA) as [CP1 CP2].
      destruct (success (combine_solutions (combine_solutions so_far a) p)) eqn:SP; cbn [negb] in H.
      2: { cbv [ret] in H. exfalso. assert (sol = combine_solutions (combine_solutions so_far a) p) as -> by congruence. congruence. }
      apply bind_inv in H. destruct H as ([] & hf & E5 & H). apply bind_inv in H. destruct H as (out' & hg & R' & H).
      destruct (brought_down ph shaft cs x sec target Q1 S1 inlet hd p he hf out' hg EP (eq_sym CP1) E5 R' A) as (-> & A' & F' & M' & KP).
      apply (REST out' (combine_solutions (combine_solutions so_far a) p) hf); auto.
      * eapply same_trans; [exact F|exact F'].
      * now rewrite R'.
      * rewrite CP2. apply last_says_merge; [exact LA|]. intros I. apply in_map_iff in I. destruct I as (c & E & I).
        exact (NS _ (KP c I) E).
    + destruct (below_target (s_pressure out) target) eqn:BE.
      { cbv [ret] in H. exfalso. match type of H with (Return ?q, _) = _ => assert (Y : sol = q) by congruence end.
        rewrite Y in S. discriminate S. }
      apply (REST out (combine_solutions so_far a) hd); auto.
      * now rewrite R.
      * now apply (not_away ph sec target).
Qed.
End All.

Theorem pressure_success_proof : forall ph shaft cs secs targets inlet h sol h',
  Forall2 (well_equipped ph) secs targets -> Forall (on_shaft shaft cs) secs -> leave_alone own_loops secs ->
  multi_pressure ph shaft secs targets inlet h = (Return sol, h') -> success sol = true ->
  exists xs out h1 x streams,
    needs ph shaft (combine secs targets) inlet h xs out h1 /\ In x xs /\ (forall y, In y xs -> y <= x) /\
    last_says (sol_configuration sol) shaft (SpeedSetting x) /\ (forall u, In u cs -> h_speed h' u = Some x) /\
    flows ph h' secs inlet streams /\ Forall2 meets targets streams.
Proof.
  intros ph shaft cs secs targets inlet h sol h' Q SH L H OK. pose proof (Forall2_len _ _ _ _ _ Q) as LEN.
  unfold multi_pressure in H. assert (LE : Nat.eqb (length targets) (length secs) = true) by (apply Nat.eqb_eq; now rewrite LEN).
  rewrite LE in H. apply caught_cases in H. destruct H as [H|(e & f & _ & _ & ->)]; [|discriminate OK]. cbv zeta in H.
  apply bind_inv in H. destruct H as (r & h1 & E1 & H). apply first_pass_cases in E1. destruct r as [xs|bad].
  2: { cbv [ret] in H. destruct E1 as (b1 & b2 & b3 & b4 & b5 & b6 & b7 & _ & _ & _ & B). exfalso.
       assert (bad = sol) as -> by congruence. congruence. }
  destruct E1 as (out & N). apply bind_inv in H. destruct H as (x & h1' & E2 & H). unfold lift in E2.
  assert (h1' = h1) as -> by congruence. assert (EX : largest xs = Return x) by congruence. clear E2.
  destruct (largest_ok xs x EX) as [I1 I2].
  destruct (map_combine _ _ secs targets LEN) as [M1 M2].
  apply (second_pass_ok ph shaft cs x) in H; auto.
  - destruct H as ((streams & FL & ME) & LS & _ & AT).
    exists xs, out, h1, x, streams. split; [exact N|]. split; [exact I1|]. split; [exact I2|]. split; [exact LS|].
    split; [|split; [exact (eq_ind _ (fun l => flows ph h' l inlet streams) FL _ M1)|exact (eq_ind _ (fun l => Forall2 meets l streams) ME _ M2)]].
    apply AT. left. intros E. rewrite E in N. inversion N; subst. destruct I1.
  - exists [], []. split; [reflexivity|intros []].
  - now apply Forall2_combine.
  - rewrite Forall_forall in *. intros [sec t] I. cbn [fst]. apply SH. now apply in_combine_l in I.
  - exact (eq_ind_r (fun l => leave_alone own_loops l) L M1).
Qed.

Theorem pressure_failure_proof : forall ph shaft secs targets inlet h sol h',
  multi_pressure ph shaft secs targets inlet h = (Return sol, h') -> success sol = false ->
  (exists before sec target after xs s h1, combine secs targets = before ++ (sec, target) :: after /\
     needs ph shaft before inlet h xs s h1 /\ find_solution ph sec [target] s h1 = (Return sol, h')) \/
  (exists xs out h1, needs ph shaft (combine secs targets) inlet h xs out h1) \/
  (exists f, sol = mk_solution [] (Some f) /\ exists e, becomes e f).
Proof.
  intros ph shaft secs targets inlet h sol h' H B. unfold multi_pressure in H.
  destruct (Nat.eqb (length targets) (length secs)); [|discriminate H].
  apply caught_cases in H. destruct H as [H|(e & f & _ & BE & ->)]; [|right; right; eauto]. cbv zeta in H.
  apply bind_inv in H. destruct H as (r & h1 & E1 & H). apply first_pass_cases in E1. destruct r as [xs|bad].
  - destruct E1 as (out & N). right. left. eauto.
  - cbv [ret] in H. destruct E1 as (before & sec & target & after & xs & s & h2 & EP & N & F & _).
    assert (bad = sol /\ h1 = h') as [-> ->] by (split; congruence). left.
    exists before, sec, target, after, xs, s, h2. auto.
Qed.

(** The second pass ends at the first section that stays below its target. *)
Theorem pressure_below_proof : forall ph shaft sec target rest inlet so_far x h ha hb a hc hd out,
  success so_far = true -> control_reset sec (sec_control sec) h = (Return tt, ha) ->
  apply_configuration (sec_runner sec) (shaft, SpeedSetting x) ha = (Return tt, hb) ->
  anti_surge_apply ph sec inlet (sec_anti sec) hb = (Return a, hc) -> success a = true ->
  apply_configurations (sec_runner sec) (sol_configuration a) hc = (Return tt, hd) ->
  run ph (sec_runner sec) inlet hd = (Return out, hd) -> s_pressure out < fc_value target - fc_abs_tol target -> 0 <= fc_abs_tol target ->
  second_pass ph (shaft, SpeedSetting x) ((sec, target) :: rest) inlet so_far h =
    (Return (mk_solution (merge_configurations (sol_configuration so_far) (sol_configuration a))
       (Some (Unreachable (s_pressure out) (fc_value target) MaxBelowTarget (Some (sec_id sec))))), hd).
Proof.
  intros ph shaft sec target rest inlet so_far x h ha hb a hc hd out OK E1 E2 E3 SA E4 R LT TP.
  cbn [second_pass]. unfold bind at 1. rewrite E1. unfold bind at 1. rewrite E2. unfold bind at 1. rewrite E3.
  unfold bind at 1. rewrite E4. cbv zeta. destruct (combine_success so_far a OK) as [C1 C2]. rewrite C1, SA. cbn [negb].
  unfold bind at 1. rewrite R. unfold above_target, below_target, fc_lt, fc_gt.
  assert (NC : fc_is_close target (s_pressure out) = false).
  { unfold fc_is_close. apply orb_false_iff. split.
    - apply not_true_iff_false. intros E. apply Qceqb_eq in E. qc_lra.
    - apply not_true_iff_false. intros E. apply Qcleb_le in E. qc_cases; qc_lra. }
  rewrite NC. cbn [negb andb].
  assert (A : Qcltb (fc_value target) (s_pressure out) = false) by (apply not_true_iff_false; intros E; apply Qcltb_lt in E; qc_lra).
  assert (B : Qcltb (s_pressure out) (fc_value target) = true) by (apply Qcltb_lt; qc_lra).
  rewrite A, B, C2. reflexivity.
Qed.

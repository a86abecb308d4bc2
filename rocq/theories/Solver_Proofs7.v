(** A successful solution meets the target: a choke before the compressors, and a target for each stage (C39). *)
From Coq Require Import List Bool ZArith Lia.
From Verif Require Import QcTac Base BaseLemmas Num Stream_Model Stream_Spec Stream_Proofs Process_Model Process_Proofs Search_Model
  Solver_Model Solver_Spec Solver_Proofs Solver_Proofs2 Solver_Proofs3 Solver_Proofs5 Solver_Proofs6.
Import ListNotations.
Local Open Scope Qc_scope.

Lemma some_inj : forall A (a b : A), Some a = Some b -> a = b.
Proof. intros A a b H. now injection H. Qed.

Lemma find_root_ext : forall (f g : Qc -> M heap Qc), (forall x h, f x h = g x h) ->
  forall t h, find_root t f h = find_root t g h.
Proof.
  intros f g E t. induction t as [x|e|x k IH]; intros h; cbn [find_root]; try reflexivity.
  unfold bind. rewrite E. destruct (g x h) as [[y|e] h1]; [apply IH|reflexivity].
Qed.

Section Control.
Variable ph : physics.
Variable sec : section.
Hypothesis wire : wired sec.
Hypothesis sep : separate sec.
Hypothesis pair : paired sec.
Let r := sec_runner sec.

(** ** A choke before the compressors *)

Lemma anti_keys : forall inlet h a h', anti_surge_apply ph sec inlet (sec_anti sec) h = (Return a, h') ->
  map fst (sol_configuration a) = anti_surge_handlers (sec_anti sec).
Proof.
  intros inlet h a h' H. destruct pair as [P _]. destruct (sec_anti sec) as [|loops cs|l c]; cbn [anti_surge_apply anti_surge_handlers] in *.
  - cbv [ret] in H. assert (a = mk_solution [] (Some NoAntiSurgeFailure)) as -> by congruence. reflexivity.
  - apply bind_inv in H. destruct H as (u & h1 & _ & H). apply bind_inv in H. destruct H as (confs & h2 & E & H).
    cbv [ret] in H. assert (a = mk_solution confs None) as -> by congruence. cbn [sol_configuration].
    apply stages_handlers in E. rewrite E. now apply map_fst_combine_all.
  - apply bind_inv in H. destruct H as (u & h1 & _ & H). apply bind_inv in H. destruct H as (b & h2 & _ & H).
    apply bind_inv in H. destruct H as (f & h3 & _ & H). cbv [ret] in H.
    assert (a = mk_solution [(l, RecirculationSetting (fst f))] (snd f)) as -> by congruence. reflexivity.
Qed.

Section Choke.
Variable k : handler_id.
Hypothesis CTL : sec_control sec = PCUpstream k.
Let anti := anti_surge_handlers (sec_anti sec).
Let S : cell -> Prop := fun c => cells_of r k c \/ cells_of_all r anti c \/ c = CLast k.

Lemma choke_settable : settable r k.
Proof. apply (control_settable sec wire). rewrite CTL. now left. Qed.
Lemma choke_In : In k (section_handlers sec).
Proof. apply control_In. rewrite CTL. now left. Qed.
Lemma anti_ok : forall i, In i anti -> settable r i.
Proof. intros i I. now apply (anti_settable sec wire). Qed.
Lemma choke_not_anti : ~ In k anti.
Proof.
  intros I. destruct wire as (_ & A & B). assert (X := B k). rewrite CTL in X. specialize (X (or_introl eq_refl)).
  specialize (A k I). destruct X as (c & X), A as (m & s & A). congruence.
Qed.

Lemma choke_func_tame : forall inlet x, tame S S S (choke_func ph sec inlet k x).
Proof.
  intros inlet x. unfold choke_func.
  assert (SN : forall T, subset nothing T) by (intros T c []).
  assert (AS : subset (cells_of_all r anti) S) by (intros c X; right; now left).
  set (S1 := minus S (cells_of r k)). set (S2 := fun c : cell => S1 c /\ c = CLast k).
  apply tame_weaken with (T := minus S2 (fun c => c = CLast k)).
  2: { intros c [[[X _] _] _]. exact X. }
  eapply tame_bind; [apply minus_subset|apply tame_apply; [apply settable_not_single, choke_settable|]|intros _].
  { intros c X. now left. }
  eapply tame_bind_known with (T := S2).
  - intros c [X _]. exact X.
  - apply tame_anti_apply; [|apply anti_ok|exact AS| |].
    + intros c [_ ->]. exact I.
    + intros c [[X Y] Z]. split; [split; assumption|]. destruct X as [X|[X|X]]; [contradiction|contradiction|exact X].
    + intros c [X _]. exact X.
  - intros a h h' E.
    eapply tame_bind; [apply subset_refl| |intros _].
    { apply tame_apply_all. exact (anti_confs_ok ph sec S anti_ok AS inlet h a h' E). }
    eapply tame_bind; [apply minus_subset| |intros _].
    + eapply frame_weaken; [apply sets_tame, sets_last|]. intros c ->. right. now right.
    + apply tame_run. intros c [[_ ->] _]. exact I.
Qed.

Theorem control_upstream : forall target inlet h1 p h',
  accurate (fc_abs_tol target) (sec_finder sec) -> settled (sec_finder sec) -> 0 <= fc_abs_tol target ->
  control_apply ph sec target inlet (sec_control sec) h1 = (Return p, h') -> sol_failure p = None ->
  controlled ph sec inlet h1 (sol_configuration p) h' (returns (within (fc_abs_tol target) target)).
Proof.
  intros target inlet h1 p h' AC SET TP EP FP.
  rewrite CTL in EP. cbn [control_apply] in EP. unfold upstream_choke in EP.
  apply bind_inv in EP. destruct EP as (f & ha & E1 & EP). apply bind_inv in EP. destruct EP as (last & hb & E2 & EP).
  assert (last = h_last ha k /\ hb = ha) as [-> ->] by (split; congruence). cbv [ret] in EP.
  assert (p = mk_solution (h_last ha k ++ [(k, ChokeSetting (fst f))]) (snd f) /\ ha = h') as [-> ->] by (split; congruence).
  cbn [sol_failure sol_configuration] in *. clear EP E2.
  assert (TF := choke_func_tame inlet).
  (* the search *)
  assert (ROOT : near S h1 h' /\ (exists out, fst (choke_func ph sec inlet k (fst f) h1) = Return out /\ within (fc_abs_tol target) target out) /\
    exists h0, near S h1 h0 /\ h' = snd (choke_func ph sec inlet k (fst f) h0)).
  { unfold find_upstream in E1. apply bind_inv in E1. destruct E1 as (p0 & hc & F1 & E1).
    assert (N0 : near S h1 h1) by apply same_refl.
    assert (TO : forall x, tame S S S (outlet_pressure (choke_func ph sec inlet k) x)).
    { intros x. unfold outlet_pressure. apply tame_bind1; [apply TF|intros; apply tame_ret]. }
    assert (Nc : near S h1 hc) by (pose proof (near_tame S h1 _ _ h1 (TO 0) N0) as X; now rewrite F1 in X).
    destruct (Qcltb (fc_value target) p0); [|discriminate E1].
    apply bind_inv in E1. destruct E1 as (found & hd & F2 & E1).
    assert (Nd : near S h1 hd).
    { match type of F2 with ?m hc = _ => assert (TM : tame S S S m) end.
      { apply tame_catch; [apply tame_bind1; [apply TO|intros; apply tame_ret]|].
        intros e m X. destruct (is_one_of _ e); [|discriminate X]. apply some_inj in X. rewrite <- X.
        apply tame_bind1; [apply tame_capacity_loop, TF|intros; apply tame_ret]. }
      pose proof (near_tame S h1 _ _ hc TM Nc) as X. now rewrite F2 in X. }
    destruct found as [sm ce]. apply bind_inv in E1. destruct E1 as (mp & he & F3 & E1).
    assert (Ne : near S h1 he) by (pose proof (near_tame S h1 _ _ hd (TO sm) Nd) as X; now rewrite F3 in X).
    destruct (Qcltb (fc_value target) mp).
    - exfalso. destruct ce as [e|].
      + destruct e; try discriminate E1; cbv [ret] in E1;
          match type of E1 with (Return ?q, _) = _ => assert (Y : f = q) by congruence end; rewrite Y in FP; discriminate FP.
      + cbv [ret] in E1. match type of E1 with (Return ?q, _) = _ => assert (Y : f = q) by congruence end; rewrite Y in FP; discriminate FP.
    - apply bind_inv in E1. destruct E1 as (delta & hf & F4 & E1). cbv [ret] in E1.
      assert (f = (delta, None) /\ hf = h') as [-> ->] by (split; congruence). cbn [fst].
      rewrite (find_root_ext _ (fun x => let* out := choke_func ph sec inlet k x in ret (s_pressure out - fc_value target))) in F4.
      2: { intros x hh. unfold outlet_pressure, bind. now destruct (choke_func ph sec inlet k x hh) as [[o|e] hx]. }
      destruct (root_hits S _ TF h1 _ _ _ _ _ _ _ AC Ne F4) as (A & B & C). split; [exact A|]. split; [exact B|]. apply C, SET. }
  destruct ROOT as (N' & (o & O1 & O2) & h0 & N0 & L).
  destruct (near_pure S _ TF h1 (fst f) h0 N0) as [P1 _]. rewrite O1 in P1.
  (* the last probe, in pieces *)
  assert (Q : choke_func ph sec inlet k (fst f) h0 = (Return o, h')).
  { rewrite L. destruct (choke_func ph sec inlet k (fst f) h0) as [x y]. cbn [fst snd] in *. now rewrite P1. }
  unfold choke_func in Q. apply bind_inv in Q. destruct Q as ([] & g1 & Q1 & Q).
  apply bind_inv in Q. destruct Q as (a & g2 & Q2 & Q). apply bind_inv in Q. destruct Q as ([] & g3 & Q3 & Q).
  apply bind_inv in Q. destruct Q as ([] & g4 & Q4 & Q). unfold run in Q.
  assert (g4 = set_last k (sol_configuration a) g3) as -> by congruence.
  assert (h' = set_last k (sol_configuration a) g3) as HL by congruence.
  assert (RUN : propagate_many ph h' (r_units r) inlet = Return o) by (rewrite HL; unfold r; congruence).
  assert (LAST : h_last h' k = sol_configuration a).
  { rewrite HL. cbn [set_last h_last]. unfold upd. now rewrite Nat.eqb_refl. }
  rewrite LAST. pose proof (anti_keys _ _ _ _ Q2) as KA.
  set (pc := sol_configuration a ++ [(k, ChokeSetting (fst f))]).
  assert (KPC : map fst pc = anti ++ [k]) by (unfold pc; rewrite map_app; exact (f_equal (fun l => l ++ [k]) KA)).
  (* what the pieces leave *)
  destruct (applied_in_force r (k, ChokeSetting (fst f)) h0 g1 (settable_not_single _ _ choke_settable) Q1) as [I1 _]. cbn [fst] in *.
  assert (CO : forall c, In c (sol_configuration a) -> not_single r (fst c) /\ In (fst c) anti).
  { intros c C. assert (X : In (fst c) anti) by (refine (eq_ind _ (fun l => In (fst c) l) _ _ KA); now apply in_map). split; [|exact X].
    now apply settable_not_single, anti_ok. }
  assert (FRAME2 : same_except (cells_of_all r anti) g1 g2).
  { pose proof (tame_anti_apply ph sec (cells_of_all r anti) nothing unread_nothing nothing inlet (sec_anti sec) anti_ok (subset_refl _)) as X.
    destruct X as [_ F].
    - intros c [[] _].
    - intros c [].
    - specialize (F g1). now rewrite Q2 in F. }
  assert (FRAME3 : same_except (cells_of_all r anti) g3 g2).
  { pose proof (apply_all_frame r _ _ _ (fun c C => proj1 (CO c C)) Q3) as F. refine (eq_ind _ (fun l => same_except (cells_of_all r l) g3 g2) F _ KA). }
  assert (FRAME4 : forall i c, cells_of r i c -> read h' c = read g3 c).
  { intros i c C. rewrite HL, read_set_last. destruct c as [| | | | |j]; try reflexivity. exfalso. now apply (cells_not_last sec) in C. }
  assert (DJ : forall i j c, In i (section_handlers sec) -> In j (section_handlers sec) -> i <> j -> cells_of r i c -> ~ cells_of r j c).
  { intros i j c. apply (section_disjoint sec sep i j c). }
  assert (IG : forall d, In d pc -> in_force r h' d).
  { intros d D. unfold pc in D. apply in_app_or in D. destruct D as [D|[<-|[]]].
    - apply (in_force_stable r g3).
      + eapply applied_all_in_force; [| | |exact Q3|exact D].
        * intros c C. now apply CO.
        * now apply (anti_keys_NoDup ph sec sep _ _ _ _ Q2).
        * refine (eq_ind_r (fun l => disjoint r l) _ KA). eapply disjoint_sub; [|apply (section_disjoint sec sep)]. intros i J. now apply anti_In.
      + intros c C. symmetry. eapply FRAME4. exact C.
    - apply (in_force_stable r g1); [exact I1|]. cbn [fst]. intros c C. rewrite (FRAME4 k c C).
      assert (NA : ~ cells_of_all r anti c).
      { intros (j & J & X). apply (DJ k j c); auto; [apply choke_In|now apply anti_In|]. intros EQ. apply choke_not_anti. rewrite EQ. exact J. }
      rewrite (FRAME3 c NA). apply FRAME2. exact NA. }
  split.
  { intros i I. refine (_ (eq_ind _ (fun l => In i l) I _ KPC)). intros J. apply in_app_or in J.
    apply in_or_app. destruct J as [J|[<-|[]]]; [now left|]. right. rewrite CTL. now left. }
  exists h', (Return o). split; [exact IG|split; [|split; [|split; [exact RUN|exists o; auto]]]].
  - intros i y J NJ C. symmetry. apply N'. intros [Y|[(j & Y & Z)|Y]].
    + apply (DJ i k y); auto; [apply choke_In|].
      intros ->. apply NJ. rewrite KPC. apply in_or_app. right. now left.
    + apply (DJ i j y); auto; [now apply anti_In|].
      intros ->. apply NJ. rewrite KPC. apply in_or_app. now left.
    + subst y. now apply (cells_not_last sec) in C.
  - apply same_refl.
Qed.

Theorem success_upstream : forall target inlet h sol h',
  accurate (fc_abs_tol target) (sec_finder sec) -> settled (sec_finder sec) -> 0 <= fc_abs_tol target ->
  find_solution ph sec [target] inlet h = (Return sol, h') -> success sol = true ->
  exists out h2, run_with ph sec (sol_configuration sol) inlet h' = (Return out, h2) /\ within (fc_abs_tol target) target out.
Proof.
  intros target inlet h sol h' AC SET TP H OK.
  destruct (success_controlled ph sec wire sep target inlet h sol h' (returns (within (fc_abs_tol target) target))) as (o & h2 & R & out & -> & X); auto.
  - intros out AT. exists out. split; [reflexivity|now apply at_target_within].
  - intros h1 p EP FP. exact (control_upstream target inlet h1 p h' AC SET TP EP FP).
  - exists out, h2. auto.
Qed.
End Choke.

(** ** A target for each stage *)

Lemma stage_outlet_tame : forall inlet l c x, settable r l -> tame (cells_of r l) (cells_of r l) (cells_of r l) (stage_outlet ph sec inlet l c x).
Proof.
  intros inlet l c x SL. apply tame_weaken with (T := minus (cells_of r l) (cells_of r l)); [|apply minus_subset].
  assert (UN : unread (minus (cells_of r l) (cells_of r l))) by (intros y [X Y]; contradiction).
  unfold stage_outlet. eapply tame_bind; [apply minus_subset|apply tame_set_rate; [exact SL|apply subset_refl]|intros _].
  apply tame_bind1; [now apply tame_run_to|intros; now apply tame_compressor].
Qed.

Lemma pressure_stages_hit : forall inlet ratio, accurate default_abs_tol (sec_finder sec) -> settled (sec_finder sec) ->
  forall ps, (forall p, In p ps -> settable r (fst p)) -> NoDup (map fst ps) -> disjoint r (map fst ps) ->
  forall i before h sol h', pressure_stages ph sec inlet ratio i ps before h = (Return sol, h') -> sol_failure sol = None ->
  exists pc, sol_configuration sol = before ++ pc /\ map fst pc = map fst ps /\ (forall d, In d pc -> in_force r h' d) /\
    same_except (cells_of_all r (map fst ps)) h' h /\
    forall ps0 l c, ps = ps0 ++ [(l, c)] -> exists s out,
      propagate_to ph h' (r_units r) (fst c) inlet = Return s /\ compressor_propagate ph h' (fst c) (snd c) s = Return out /\
      Qcabs (s_pressure out - s_pressure inlet * power ratio (i + length ps)) <= default_abs_tol.
Proof.
  intros inlet ratio AC SET ps. induction ps as [|[l c] ps IH]; intros SE ND DJ i before h sol h' H OK; cbn [pressure_stages] in H.
  - cbv [ret] in H. assert (sol = mk_solution before None /\ h = h') as [-> <-] by (split; congruence).
    exists []. cbn [sol_configuration]. rewrite app_nil_r. split; [reflexivity|]. split; [reflexivity|]. split; [|split].
    + intros d [].
    + apply same_refl.
    + intros ps0 l c E. destruct ps0; discriminate E.
  - cbv zeta in H. apply bind_inv in H. destruct H as (b & ha & E1 & H).
    assert (ha = h) as ->.
    { unfold range_at in E1. apply bind_inv in E1. destruct E1 as (s & hx & X & Y). unfold run_to in X. congruence. }
    apply bind_inv in H. destruct H as (f & hb & E2 & H). destruct f as [x fl]. cbn [fst snd] in H.
    destruct fl as [fl|].
    { cbv [ret] in H. assert (Y : sol = mk_solution before (Some fl)) by congruence. rewrite Y in OK. discriminate OK. }
    assert (SL : settable r l) by (apply (SE (l, c)); now left).
    set (W := cells_of r l) in *.
    destruct (find_rate_hits W _ (fun x => stage_outlet_tame inlet l c x SL) h (sec_finder sec) asv_tolerance
                (mk_constraint (s_pressure inlet * power ratio (S i)) default_abs_tol) b h x hb) as (Nb & (out & O1 & O2) & L).
    { exact AC. } { cbn [fc_abs_tol]. vm_compute. discriminate. } { apply same_refl. } { exact E2. }
    destruct (L SET) as (h0 & N0 & HB). clear L.
    destruct (near_pure W _ (fun x => stage_outlet_tame inlet l c x SL) h x h0 N0) as [P1 _]. rewrite O1 in P1.
    assert (Q : stage_outlet ph sec inlet l c x h0 = (Return out, hb)).
    { rewrite HB. destruct (stage_outlet ph sec inlet l c x h0) as [y z]. cbn [fst snd] in *. now rewrite P1. }
    unfold stage_outlet in Q. apply bind_inv in Q. destruct Q as ([] & g1 & Q1 & Q). apply bind_inv in Q. destruct Q as (s & g2 & Q2 & Q).
    unfold run_to in Q2. assert (g2 = g1) as -> by congruence. assert (g1 = hb) as -> by congruence.
    unfold set_rate in Q1.
    destruct (applied_in_force r (l, RecirculationSetting x) h0 hb (settable_not_single _ _ SL) Q1) as [I1 _].
    cbn [map fst] in ND, DJ. inversion ND as [|y z NI ND']; subst.
    assert (DJ' : disjoint r (map fst ps)) by (eapply disjoint_sub; [|exact DJ]; intros j J; now right).
    assert (SE' : forall p, In p ps -> settable r (fst p)) by (intros p P; apply SE; now right).
    destruct (IH SE' ND' DJ' (S i) _ _ _ _ H OK) as (pc & C1 & C2 & C3 & C4 & C5).
    exists ((l, RecirculationSetting x) :: pc). split; [rewrite C1, <- app_assoc; reflexivity|].
    split; [cbn [map fst]; now rewrite C2|]. split; [|split].
    + intros d [<-|D]; [|now apply C3]. apply (in_force_stable r _ h' _ I1). cbn [fst]. intros y Y. symmetry. apply C4.
      intros (j & J & X). refine (DJ l j y _ _ _ Y X); [now left|now right|]. intros ->. contradiction.
    + cbn [map fst]. eapply same_trans; [eapply same_weaken; [|exact C4]|eapply same_weaken; [|exact Nb]].
      * intros y (j & J & X). exists j. split; [now right|exact X].
      * intros y Y. exists l. split; [now left|exact Y].
    + intros ps0 l' c' E. destruct ps as [|q ps].
      * destruct ps0 as [|q0 ps0]; [|destruct ps0; discriminate E]. injection E as <- <-.
        cbn [pressure_stages] in H. cbv [ret] in H. assert (snd (stage_outlet ph sec inlet l c x h0) = h') as <- by congruence.
        exists s, out. split; [unfold r; congruence|]. split; [congruence|]. cbn [length]. rewrite Nat.add_1_r. exact O2.
      * destruct ps0 as [|q0 ps0]; [discriminate E|]. injection E as <- E.
        destruct (C5 ps0 l' c' E) as (s' & out' & X1 & X2 & X3). exists s', out'. split; [exact X1|]. split; [exact X2|].
        cbn [length] in *. rewrite <- plus_n_Sm. exact X3.
Qed.

Lemma propagate_to_last : forall h before u s, ~ In (fst u) (map fst before) -> forall after,
  propagate_to ph h (before ++ u :: after) (fst u) s = propagate_many ph h before s.
Proof.
  intros h before u s N after. revert s. induction before as [|v before IH]; intros s; cbn [app propagate_to propagate_many].
  - now rewrite Nat.eqb_refl.
  - destruct (Nat.eqb (fst v) (fst u)) eqn:E; [apply Nat.eqb_eq in E; exfalso; apply N; now left|].
    destruct (propagate ph h v s); cbn [obind]; [|reflexivity]. apply IH. intros I. apply N. now right.
Qed.

Theorem control_pressure : forall target inlet h1 p h' loops cs0 cid ch before after,
  sec_control sec = PCPressure loops (cs0 ++ [(cid, ch)]) -> accurate default_abs_tol (sec_finder sec) -> settled (sec_finder sec) ->
  0 <= fc_abs_tol target ->
  power (sec_root sec (fc_value target / s_pressure inlet) (length loops)) (length loops) = fc_value target / s_pressure inlet ->
  r_units (sec_runner sec) = before ++ (cid, Compressor ch) :: after -> ~ In cid (map fst before) ->
  same_pressure ph after ->
  control_apply ph sec target inlet (sec_control sec) h1 = (Return p, h') -> sol_failure p = None ->
  controlled ph sec inlet h1 (sol_configuration p) h' (fun o => match o with
    | Return out => within (Qcmax (fc_abs_tol target) default_abs_tol) target out
    | Raise e => exists h3 s, propagate_many ph h3 after s = Raise e
    end).
Proof.
  intros target inlet h1 p h' loops cs0 cid ch before after CTL AC SET TP ROOT UN NU KP EP FP.
  set (cs := cs0 ++ [(cid, ch)]) in *.
  assert (WEAK : forall s, within (fc_abs_tol target) target s -> within (Qcmax (fc_abs_tol target) default_abs_tol) target s).
  { intros s X. unfold within in *. eapply Qcle_trans; [exact X|]. unfold Qcmax. qc_cases; qc_lra. }
  assert (WEAK' : forall s, Qcabs (s_pressure s - fc_value target) <= default_abs_tol -> within (Qcmax (fc_abs_tol target) default_abs_tol) target s).
  { intros s X. unfold within in *. eapply Qcle_trans; [exact X|]. unfold Qcmax. qc_cases; qc_lra. }
  rewrite CTL in EP. cbn [control_apply] in EP.
  assert (LEN : length loops = length cs) by (destruct pair as [_ PD]; rewrite CTL in PD; exact PD).
  assert (LC : forall i, In i loops -> In i (control_handlers (sec_control sec))) by (rewrite CTL; auto).
  assert (LN : NoDup loops) by (destruct sep as (_ & N & _); rewrite CTL in N; exact N).
  set (W := cells_of_all r loops).
  unfold individual_pressure in EP. apply bind_inv in EP. destruct EP as ([] & ha & E1 & EP).
  assert (Na : near W h1 ha).
  { pose proof (proj2 (tame_reset_all sec W loops W (loops_settable sec wire loops LC) (subset_refl W)) h1) as F. rewrite E1 in F.
    apply same_sym. exact F. }
  apply bind_inv in EP. destruct EP as (m & hb & E2 & EP). pose proof (minimum_near ph sec wire loops cs LC _ _ _ _ _ Na E2) as Nb.
  destruct (Qcltb (fc_value target) (snd m)).
  { cbv [ret] in EP. match type of EP with (Return ?q, _) = _ => assert (X : p = q) by congruence end.
    rewrite X in FP. discriminate FP. }
  apply bind_inv in EP. destruct EP as (ratio & hc & E3 & EP). unfold lift in E3. assert (hc = hb) as -> by congruence.
  assert (E4 : equal_ratio sec (fc_value target) (s_pressure inlet) (length loops) = Return ratio) by congruence. clear E3.
  unfold equal_ratio in E4. destruct (Qceqb (s_pressure inlet) 0) eqn:PZ; [discriminate E4|]. apply Qceqb_neq in PZ.
  assert (HR : ratio = sec_root sec (fc_value target / s_pressure inlet) (length loops)).
  { destruct (length loops); [discriminate E4|]. symmetry. congruence. }
  set (ps := combine loops cs) in *.
  assert (KPS : map fst ps = loops) by now apply map_fst_combine_all.
  destruct (pressure_stages_hit inlet ratio AC SET ps) with (i := 0%nat) (before := @nil configuration) (h := hb) (sol := p) (h' := h')
    as (pc & C1 & C2 & C3 & C4 & C5); auto.
  { intros q Q. apply in_combine_loops in Q. now apply (loops_settable sec wire loops LC). }
  { exact (eq_ind_r (fun l : list nat => NoDup l) LN KPS). }
  { exact (eq_ind_r (fun l : list nat => disjoint r l) (loops_disjoint sec sep loops LC) KPS). }
  cbn [app] in C1. rewrite C1.
  assert (C2' : map fst pc = loops) by (etransitivity; [exact C2|exact KPS]).
  assert (C4' : same_except W h' hb) by exact (eq_ind _ (fun l => same_except (cells_of_all r l) h' hb) C4 _ KPS).
  clear C2 C4. rename C2' into C2. rename C4' into C4.
  assert (N' : near W h1 h') by (eapply same_trans; [exact C4|exact Nb]).
  (* the last stage *)
  assert (LS : exists ps0 l, ps = ps0 ++ [(l, (cid, ch))]).
  { unfold ps. clear -LEN. subst cs. revert loops LEN. induction cs0 as [|c cs0 IH]; intros loops LEN.
    - destruct loops as [|l [|l' loops]]; try discriminate LEN. exists [], l. reflexivity.
    - destruct loops as [|l loops]; [discriminate LEN|]. destruct (IH loops) as (ps0 & l0 & E); [now injection LEN|].
      exists ((l, c) :: ps0), l0. cbn [app combine]. exact (f_equal (cons (l, c)) E). }
  destruct LS as (ps0 & l & EPS). destruct (C5 ps0 l (cid, ch) EPS) as (s & o & O1 & O2 & O3). cbn [fst snd] in *.
  assert (LPS : length ps = length loops) by (etransitivity; [symmetry; apply (map_length fst)|exact (f_equal (@length nat) KPS)]).
  assert (TG : s_pressure inlet * power ratio (length loops) = fc_value target).
  { rewrite HR, ROOT. now field. }
  assert (O4 : Qcabs (s_pressure o - fc_value target) <= default_abs_tol).
  { rewrite <- TG. rewrite Nat.add_0_l in O3. exact (eq_ind _ (fun n => Qcabs (s_pressure o - s_pressure inlet * power ratio n) <= default_abs_tol) O3 _ LPS). }
  assert (RUN : propagate_many ph h' (r_units r) inlet = propagate_many ph h' after o).
  { unfold r in *. rewrite UN in *. rewrite propagate_many_app.
    pose proof (propagate_to_last h' before (cid, Compressor ch) inlet NU after) as PT. cbn [fst] in PT. rewrite PT in O1. rewrite O1. cbn [obind propagate_many propagate].
    rewrite O2. reflexivity. }
  split; [intros i I; apply in_or_app; right; apply LC; exact (eq_ind _ (fun l => In i l) I _ C2)|]. exists h', (propagate_many ph h' after o). split; [exact C3|split; [|split; [|split; [exact RUN|]]]].
  - intros i y I NI C. symmetry. apply N'. intros (j & J & C').
    apply (section_disjoint sec sep i j y); auto.
    + apply control_In. now apply LC.
    + intros ->. apply NI. now rewrite C2.
  - apply same_refl.
  - destruct (propagate_many ph h' after o) as [o'|e] eqn:PA; [|eauto].
    apply KP in PA. apply WEAK'. rewrite PA. exact O4.
Qed.

Theorem success_pressure : forall target inlet h sol h' loops cs0 cid ch before after,
  sec_control sec = PCPressure loops (cs0 ++ [(cid, ch)]) -> accurate default_abs_tol (sec_finder sec) -> settled (sec_finder sec) ->
  0 <= fc_abs_tol target ->
  power (sec_root sec (fc_value target / s_pressure inlet) (length loops)) (length loops) = fc_value target / s_pressure inlet ->
  r_units (sec_runner sec) = before ++ (cid, Compressor ch) :: after -> ~ In cid (map fst before) ->
  same_pressure ph after ->
  find_solution ph sec [target] inlet h = (Return sol, h') -> success sol = true ->
  exists o h2, run_with ph sec (sol_configuration sol) inlet h' = (o, h2) /\
    match o with
    | Return out => within (Qcmax (fc_abs_tol target) default_abs_tol) target out
    | Raise e => exists h3 s, propagate_many ph h3 after s = Raise e
    end.
Proof.
  intros target inlet h sol h' loops cs0 cid ch before after CTL AC SET TP ROOT UN NU KP H OK.
  eapply (success_controlled ph sec wire sep); [| |exact H|exact OK].
  - intros out AT. apply at_target_within in AT; [|exact TP]. unfold within in *. eapply Qcle_trans; [exact AT|]. unfold Qcmax. qc_cases; qc_lra.
  - intros h1 p EP FP. exact (control_pressure target inlet h1 p h' loops cs0 cid ch before after CTL AC SET TP ROOT UN NU KP EP FP).
Qed.
End Control.

(** ** As statements *)

Lemma created_pressure : forall sv m p t rate s, consistent_service sv -> create_stream_from_standard_rate sv m p t rate = Return s ->
  s_pressure s = p.
Proof.
  intros sv m p t rate s C H. unfold create_stream_from_standard_rate, create_fluid in H.
  destruct (flash_pt _ _ _ _) as [props|] eqn:F; [|discriminate]. cbn [obind] in H.
  rewrite new_stream_spec in H. destruct (Qcltb _ 0); [discriminate|]. apply (proj1 (proj2 C)) in F. destruct F as (F1 & _).
  assert (s = mk_stream (mk_fluid m props) (standard_rate_to_mass_rate sv m rate)) as -> by congruence. exact F1.
Qed.

Lemma keeps_pressure_ok : forall ph, consistent_service (ph_service ph) -> forall us, (forall u, In u us -> keeps_pressure (snd u)) ->
  same_pressure ph us.
Proof.
  intros ph C us. induction us as [|[i k] us IH]; intros K h s s' H; cbn [propagate_many] in H; [congruence|].
  destruct (propagate ph h (i, k) s) as [s1|e] eqn:E; [|discriminate H]. cbn [obind] in H.
  rewrite (IH (fun u U => K u (or_intror U)) h s1 s' H). specialize (K (i, k) (or_introl eq_refl)). cbn [snd] in K.
  destruct k; cbn [keeps_pressure] in K; try contradiction; cbn [propagate] in E.
  - apply add_rate_ok in E. now subst s1.
  - apply subtract_rate_ok in E. now subst s1.
  - unfold temperature_propagate in E. destruct (Qceqb (s_temperature s) temperature); cbn [negb] in E; [congruence|].
    unfold create_fluid in E. destruct (flash_pt _ _ _ _) as [props|] eqn:F; [|discriminate]. cbn [obind] in E.
    apply with_new_fluid_ok in E. destruct E as [-> _]. apply (proj1 (proj2 C)) in F. apply F.
  - unfold splitter_propagate in E. cbv zeta in E. destruct (Qcltb _ 0); [discriminate|]. now apply created_pressure in E.
  - congruence.
  - congruence.
Qed.

Lemma success_common_proof : forall ph sec loop c, wired sec -> separate sec ->
  sec_control sec = PCCommon loop c ->
  forall target inlet h sol h', accurate (fc_abs_tol target) (sec_finder sec) -> 0 <= fc_abs_tol target ->
  find_solution ph sec [target] inlet h = (Return sol, h') -> success sol = true ->
  exists out h2, run_with ph sec (sol_configuration sol) inlet h' = (Return out, h2) /\ within (fc_abs_tol target) target out.
Proof. intros ph sec loop c W S C target inlet h sol h'. now apply success_common with (loop := loop) (c := c). Qed.

Lemma success_rate_proof : forall ph sec loops cs, wired sec -> separate sec -> paired sec ->
  sec_control sec = PCRate loops cs ->
  forall target inlet h sol h', accurate (fc_abs_tol target) (sec_finder sec) -> 0 <= fc_abs_tol target ->
  find_solution ph sec [target] inlet h = (Return sol, h') -> success sol = true ->
  exists out h2, run_with ph sec (sol_configuration sol) inlet h' = (Return out, h2) /\ within (fc_abs_tol target) target out.
Proof. intros ph sec loops cs W S P C target inlet h sol h'. now apply success_rate with (loops := loops) (cs := cs). Qed.

Lemma success_downstream_proof : forall ph sec k u before, wired sec -> separate sec -> consistent_service (ph_service ph) ->
  sec_control sec = PCDownstream k ->
  dict_get Nat.eqb k (r_handlers (sec_runner sec)) = Some (ChokeHandler u) ->
  r_units (sec_runner sec) = before ++ [(u, Choke)] -> ~ In u (map fst before) ->
  forall target inlet h sol h', 0 <= fc_abs_tol target ->
  find_solution ph sec [target] inlet h = (Return sol, h') -> success sol = true ->
  exists o h2, run_with ph sec (sol_configuration sol) inlet h' = (o, h2) /\
    match o with
    | Return out => within (fc_abs_tol target) target out
    | Raise e => exists s, fc_value target < s_pressure s /\ drop_pressure ph (s_pressure s - fc_value target) s = Raise e
    end.
Proof. intros ph sec k u before W S CS C GU UN NU target inlet h sol h' TP. now apply success_downstream with (k := k) (u := u) (before := before). Qed.

Lemma success_upstream_proof : forall ph sec k, wired sec -> separate sec -> paired sec ->
  sec_control sec = PCUpstream k ->
  forall target inlet h sol h', accurate (fc_abs_tol target) (sec_finder sec) -> settled (sec_finder sec) -> 0 <= fc_abs_tol target ->
  find_solution ph sec [target] inlet h = (Return sol, h') -> success sol = true ->
  exists out h2, run_with ph sec (sol_configuration sol) inlet h' = (Return out, h2) /\ within (fc_abs_tol target) target out.
Proof. intros ph sec k W S P C target inlet h sol h'. now apply success_upstream with (k := k). Qed.

Lemma success_pressure_proof : forall ph sec loops cs0 cid ch before after, wired sec -> separate sec -> paired sec ->
  consistent_service (ph_service ph) ->
  sec_control sec = PCPressure loops (cs0 ++ [(cid, ch)]) ->
  r_units (sec_runner sec) = before ++ (cid, Compressor ch) :: after -> ~ In cid (map fst before) ->
  (forall u, In u after -> keeps_pressure (snd u)) ->
  forall target inlet h sol h', accurate (qc 1 1000) (sec_finder sec) -> settled (sec_finder sec) -> 0 <= fc_abs_tol target ->
  power (sec_root sec (fc_value target / s_pressure inlet) (length loops)) (length loops) = fc_value target / s_pressure inlet ->
  find_solution ph sec [target] inlet h = (Return sol, h') -> success sol = true ->
  exists o h2, run_with ph sec (sol_configuration sol) inlet h' = (o, h2) /\
    match o with
    | Return out => within (Qcmax (fc_abs_tol target) (qc 1 1000)) target out
    | Raise e => exists h3 s, propagate_many ph h3 after s = Raise e
    end.
Proof.
  intros ph sec loops cs0 cid ch before after W S P CS C UN NU KP target inlet h sol h' AC SE TP RT.
  apply (success_pressure ph sec W S P target inlet h sol h' loops cs0 cid ch before after C AC SE TP RT UN NU).
  now apply keeps_pressure_ok.
Qed.

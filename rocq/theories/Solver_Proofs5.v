(** Configurations in force, and what a successful section solution consists of (C39). *)
From Coq Require Import List Bool ZArith Lia.
From Verif Require Import QcTac Base BaseLemmas Num Stream_Model Process_Model Search_Model Solver_Model Solver_Spec Solver_Proofs
  Solver_Proofs2 Solver_Proofs3.
Import ListNotations.
Local Open Scope Qc_scope.

Lemma bind_inv : forall A B (m : M heap A) (k : A -> M heap B) h b h', bind m k h = (Return b, h') ->
  exists a h1, m h = (Return a, h1) /\ k a h1 = (Return b, h').
Proof. intros A B m k h b h' H. unfold bind in H. destruct (m h) as [[a|e] h1]; [eauto|discriminate]. Qed.

Section InForce.
Variable r : runner.

Lemma apply_form : forall i v, not_single r i ->
  (exists f, sets (cells_of r i) f /\ forall h, apply_configuration r (i, v) h = (Return tt, f h)) \/
  (exists e, forall h, apply_configuration r (i, v) h = (Raise e, h)).
Proof.
  intros i v N. unfold apply_configuration. cbn [fst snd].
  destruct (dict_get Nat.eqb i (r_handlers r)) as [hd|] eqn:G; [|right; exists KeyErr; reflexivity].
  assert (E : forall f, sets (handler_cells i hd) f -> sets (cells_of r i) f).
  { intros f Hf. eapply sets_ext; [exact Hf|now apply cells_of_eq|reflexivity]. }
  destruct hd as [cs|cs|m s|k]; [destruct (N cs G)| | |]; destruct v as [x|x|x]; cbn [handle];
    try (right; exists AssertionErr; reflexivity).
  - left. exists (apply_speed i cs x). split; [apply E, sets_apply_speed|reflexivity].
  - left. exists (set_recirculation m s x). split; [apply E, sets_recirculation|reflexivity].
  - destruct (Qcltb x 0) eqn:X; [right; exists ValueErr; reflexivity|].
    left. exists (set_choke k x). split; [apply E, sets_choke|reflexivity].
Qed.

(** The handler of [c] is set to what [c] says. *)
Definition in_force (h : heap) (c : configuration) : Prop :=
  exists f, sets (cells_of r (fst c)) f /\ (forall h', apply_configuration r c h' = (Return tt, f h')) /\
    forall x, cells_of r (fst c) x -> read h x = read (f h) x.

Lemma applied_in_force : forall c h h', not_single r (fst c) -> apply_configuration r c h = (Return tt, h') ->
  in_force h' c /\ same_except (cells_of r (fst c)) h' h.
Proof.
  intros [i v] h h' N H. cbn [fst] in *. destruct (apply_form i v N) as [(f & S & F)|(e & F)]; rewrite F in H; [|discriminate].
  assert (h' = f h) as -> by congruence. destruct S as (w & A & B & D). split.
  - exists f. split; [exists w; auto|]. split; [exact F|]. intros x X. cbn [fst] in X. now rewrite !A.
  - intros x X. now apply B.
Qed.

Lemma in_force_stable : forall h h' c, in_force h c -> (forall x, cells_of r (fst c) x -> read h x = read h' x) -> in_force h' c.
Proof.
  intros h h' c (f & S & F & E) X. exists f. split; [exact S|]. split; [exact F|]. intros x C.
  rewrite <- X, E by assumption. destruct S as (w & A & _). now rewrite !A.
Qed.

Lemma reapply : forall G M, (forall c, In c M -> in_force G c) -> forall S h, same_except S h G ->
  exists h2, apply_configurations r M h = (Return tt, h2) /\ same_except (minus S (cells_of_all r (map fst M))) h2 G.
Proof.
  intros G M. induction M as [|c M IH]; intros IF S h H; cbn [apply_configurations].
  - exists h. split; [reflexivity|]. intros x N. apply H. intros X. apply N. split; [exact X|]. intros (i & [] & _).
  - destruct (IF c (or_introl eq_refl)) as (f & (w & A & B & D) & F & E).
    destruct (IH (fun c' I => IF c' (or_intror I)) (minus S (cells_of r (fst c))) (f h)) as (h2 & E2 & S2).
    { intros x N. destruct (D x) as [d|d].
      - rewrite E by assumption. now rewrite !A.
      - rewrite B by assumption. apply H. intros X. apply N. split; assumption. }
    exists h2. split.
    + unfold bind. now rewrite F.
    + eapply same_weaken; [|exact S2]. intros x [[X Y] Z]. split; [exact X|].
      intros (i & [<-|I] & C); [contradiction|]. apply Z. exists i. auto.
Qed.

Lemma apply_all_frame : forall M h h', (forall c, In c M -> not_single r (fst c)) -> apply_configurations r M h = (Return tt, h') ->
  same_except (cells_of_all r (map fst M)) h' h.
Proof.
  induction M as [|c M IH]; intros h h' N H; cbn [apply_configurations] in H.
  - cbv [ret] in H. assert (h = h') as <- by congruence. apply same_refl.
  - apply bind_inv in H. destruct H as ([] & h1 & E1 & E2).
    destruct (applied_in_force c h h1 (N c (or_introl eq_refl)) E1) as [_ F1].
    specialize (IH h1 h' (fun x I => N x (or_intror I)) E2).
    eapply same_trans; [eapply same_weaken; [|exact IH]|eapply same_weaken; [|exact F1]].
    + intros x (i & I & C). exists i. split; [now right|exact C].
    + intros x C. exists (fst c). split; [now left|exact C].
Qed.

Definition disjoint (l : list nat) : Prop := forall i j c, In i l -> In j l -> i <> j -> cells_of r i c -> ~ cells_of r j c.

Lemma disjoint_sub : forall l l', (forall i, In i l' -> In i l) -> disjoint l -> disjoint l'.
Proof. intros l l' H D i j c I J. apply D; auto. Qed.

Lemma applied_all_in_force : forall M h h', (forall c, In c M -> not_single r (fst c)) -> NoDup (map fst M) -> disjoint (map fst M) ->
  apply_configurations r M h = (Return tt, h') -> forall c, In c M -> in_force h' c.
Proof.
  induction M as [|c M IH]; intros h h' N ND D H d I; [destruct I|]. cbn [apply_configurations] in H.
  apply bind_inv in H. destruct H as ([] & h1 & E1 & E2). cbn [map] in ND. inversion ND as [|a b NI ND']; subst.
  destruct (applied_in_force c h h1 (N c (or_introl eq_refl)) E1) as [F1 _].
  destruct I as [<-|I].
  - apply (in_force_stable h1); [exact F1|]. intros x X. symmetry.
    apply (apply_all_frame M h1 h' (fun y J => N y (or_intror J)) E2). intros (i & J & C).
    refine (D (fst c) i x _ _ _ X C); [now left|now right|]. intros EQ. subst i. contradiction.
  - eapply IH; eauto.
    + intros y J. apply N. now right.
    + eapply disjoint_sub; [|exact D]. intros i J. now right.
Qed.
End InForce.

(** ** A state in which a configuration is in force and the run is right *)

Lemma run_with_reaches : forall ph sec cfg inlet h' G o,
  (forall c, In c cfg -> in_force (sec_runner sec) G c) ->
  same_except (cells_of_all (sec_runner sec) (map fst cfg)) h' G ->
  propagate_many ph G (r_units (sec_runner sec)) inlet = o ->
  exists h2, run_with ph sec cfg inlet h' = (o, h2).
Proof.
  intros ph sec cfg inlet h' G o IF S R. destruct (reapply _ G cfg IF _ _ S) as (h2 & A & B).
  exists h2. unfold run_with, bind. rewrite A. unfold run. f_equal.
  rewrite <- R. eapply propagate_many_same; [|exact B]. intros c [X Y]. contradiction.
Qed.

(** What remains of two merged lists. *)
Lemma In_merge : forall a b c, In c (merge_configurations a b) ->
  In c b \/ (In c a /\ ~ In (fst c) (map fst b)).
Proof.
  intros a b [i v] H. apply merge_proof in H. apply last_says_app in H. destruct H as [(x & y & -> & _)|(N & x & y & -> & _)].
  - left. apply in_or_app. right. now left.
  - right. split; [apply in_or_app; right; now left|exact N].
Qed.
Lemma merge_keys : forall a b i, In i (map fst b) -> In i (map fst (merge_configurations a b)).
Proof.
  intros a b i H. pose proof (merge_proof a b) as (_ & _ & K).
  assert (X : In i (first_mentions (map fst (a ++ b)))).
  { apply first_mentions_In. rewrite map_app. apply in_or_app. now right. }
  rewrite <- K in X. exact X.
Qed.

(** ** The root finder against a function of the state that gives the same in all states that differ at most in S *)

Lemma find_root_follow : forall (P : heap -> Prop) (g : Qc -> M heap Qc) (f : Qc -> outcome Qc),
  (forall x h, P h -> fst (g x h) = f x /\ P (snd (g x h))) ->
  forall t last h x h', P h -> (forall y, last = Some y -> exists h0, P h0 /\ h = snd (g y h0)) ->
  find_root t g h = (Return x, h') ->
  exists l, follow t f last = Return (x, l) /\ P h' /\ (forall y, l = Some y -> exists h0, P h0 /\ h' = snd (g y h0)).
Proof.
  intros P g f H t. induction t as [x0|e|x0 k IH]; intros last h x h' Ph L E; cbn [find_root] in E.
  - cbv [ret] in E. assert (x0 = x /\ h = h') as [<- <-] by (split; congruence). exists last. split; [reflexivity|auto].
  - discriminate E.
  - apply bind_inv in E. destruct E as (y & h1 & E1 & E2). destruct (H x0 h Ph) as [F1 P1]. rewrite E1 in F1, P1.
    cbn [fst snd] in F1, P1. destruct (IH y (Some x0) h1 x h' P1) as (l & L1 & L2 & L3).
    + intros z [= <-]. exists h. split; [exact Ph|]. now rewrite E1.
    + exact E2.
    + exists l. cbn [follow]. rewrite <- F1. auto.
Qed.

Section Pure.
Variable S : cell -> Prop.
Variable func : Qc -> M heap stream.
Hypothesis T : forall x, tame S S S (func x).
Variable h1 : heap.

Definition near (h : heap) : Prop := same_except S h h1.

Lemma near_pure : forall x h, near h -> fst (func x h) = fst (func x h1) /\ near (snd (func x h)).
Proof.
  intros x h N. destruct (T x) as [D F]. split; [now apply D|].
  eapply same_trans; [apply same_sym; apply F|exact N].
Qed.
Lemma near_tame : forall A (m : M heap A) h, tame S S S m -> near h -> near (snd (m h)).
Proof. intros A m h [_ F] N. eapply same_trans; [apply same_sym; apply F|exact N]. Qed.

(** The value of a pressure error at a point does not depend on the state. *)
Definition error_at (target x : Qc) : outcome Qc :=
  match fst (func x h1) with Return out => Return (s_pressure out - target) | Raise e => Raise e end.

Lemma error_pure : forall target x h, near h ->
  fst ((let* out := func x in ret (s_pressure out - target)) h) = error_at target x /\
  near (snd ((let* out := func x in ret (s_pressure out - target)) h)).
Proof.
  intros target x h N. destruct (near_pure x h N) as [E P]. unfold error_at. rewrite <- E. unfold bind.
  destruct (func x h) as [[out|e] h2]; cbn [fst snd] in *; auto.
Qed.
Lemma error_state : forall (target : Qc) x h, snd ((let* out := func x in ret (s_pressure out - target)) h) = snd (func x h).
Proof. intros. unfold bind. now destruct (func x h) as [[out|e] h2]. Qed.

Lemma root_hits : forall eps root target b h x h', accurate eps root -> near h ->
  find_root (root b) (fun x => let* out := func x in ret (s_pressure out - target)) h = (Return x, h') ->
  near h' /\ (exists out, fst (func x h1) = Return out /\ Qcabs (s_pressure out - target) <= eps) /\
  (settled root -> exists h0, near h0 /\ h' = snd (func x h0)).
Proof.
  intros eps root target b h x h' AC N E.
  destruct (find_root_follow near _ (error_at target) (error_pure target) (root b) None h x h' N) as (l & L1 & L2 & L3).
  - discriminate.
  - exact E.
  - split; [exact L2|]. split.
    + destruct (AC b (error_at target) x l L1) as (y & Y1 & Y2). unfold error_at in Y1.
      destruct (fst (func x h1)) as [out|e]; [|discriminate]. exists out. split; [reflexivity|].
      assert (s_pressure out - target = y) as -> by congruence. exact Y2.
    + intros SE. pose proof (SE b _ x l L1) as ->. destruct (L3 x eq_refl) as (h0 & P0 & X). exists h0. split; [exact P0|].
      now rewrite error_state in X.
Qed.

Lemma at_target_within : forall c s, 0 <= fc_abs_tol c -> at_target (s_pressure s) c = true -> within (fc_abs_tol c) c s.
Proof.
  intros c s P H. unfold at_target, fc_eq, fc_is_close in H. unfold within.
  apply orb_true_iff in H. destruct H as [H|H].
  - apply Qceqb_eq in H. rewrite <- H. assert (fc_value c - fc_value c = 0) as -> by ring.
    exact P.
  - apply Qcleb_le in H. qc_cases; qc_lra.
Qed.

Lemma find_rate_hits : forall root tol c b h x h', accurate (fc_abs_tol c) root -> 0 <= fc_abs_tol c -> near h ->
  find_rate func root tol (Some c) b h = (Return (x, None), h') ->
  near h' /\ (exists out, fst (func x h1) = Return out /\ within (fc_abs_tol c) c out) /\
  (settled root -> exists h0, near h0 /\ h' = snd (func x h0)).
Proof.
  intros root tol c b h x h' AC TP N E. unfold find_rate in E.
  apply bind_inv in E. destruct E as (first & ha & E1 & E).
  assert (Na : near ha).
  { match type of E1 with ?m h = _ => assert (TM : tame S S S m) end.
    { apply tame_catch; [apply tame_bind1; [now apply tame_min_rate|intros; apply tame_ret]|].
      intros e k X. destruct e; try discriminate X; injection X as <-; apply tame_ret. }
    pose proof (near_tame _ _ h TM N) as X. now rewrite E1 in X. }
  destruct first as [lo|f]; [|cbv [ret] in E; discriminate E].
  apply bind_inv in E. destruct E as (hi & hb & E2 & E).
  assert (Nb : near hb). { pose proof (near_tame _ _ ha (tame_max_rate S S func T tol b) Na) as X. now rewrite E2 in X. }
  apply bind_inv in E. destruct E as (s0 & hc & E3 & E).
  destruct (near_pure lo hb Nb) as [P3 Nc]. rewrite E3 in P3, Nc. cbn [fst snd] in P3, Nc.
  destruct (below_target (s_pressure s0) c); [cbv [ret] in E; discriminate E|].
  destruct (at_target (s_pressure s0) c) eqn:AT.
  { cbv [ret] in E. assert (lo = x /\ hc = h') as [<- <-] by (split; congruence).
    split; [exact Nc|]. split; [exists s0; split; [now rewrite P3|now apply at_target_within]|].
    intros _. exists hb. split; [exact Nb|now rewrite E3]. }
  apply bind_inv in E. destruct E as (s1 & hd & E4 & E).
  destruct (near_pure hi hc Nc) as [P4 Nd]. rewrite E4 in P4, Nd. cbn [fst snd] in P4, Nd.
  destruct (at_target (s_pressure s1) c) eqn:AT1.
  { cbv [ret] in E. assert (hi = x /\ hd = h') as [<- <-] by (split; congruence).
    split; [exact Nd|]. split; [exists s1; split; [now rewrite P4|now apply at_target_within]|].
    intros _. exists hc. split; [exact Nc|now rewrite E4]. }
  destruct (above_target (s_pressure s1) c); [cbv [ret] in E; discriminate E|].
  apply bind_inv in E. destruct E as (y & he & E5 & E). cbv [ret] in E.
  assert (y = x /\ he = h') as [<- <-] by (split; congruence).
  exact (root_hits (fc_abs_tol c) root (fc_value c) _ hd y he AC Nd E5).
Qed.
End Pure.

(** ** What a successful solution consists of *)

Section Success.
Variable ph : physics.
Variable sec : section.
Hypothesis wire : wired sec.
Hypothesis sep : separate sec.
Let r := sec_runner sec.

Lemma anti_keys_NoDup : forall inlet h a h', anti_surge_apply ph sec inlet (sec_anti sec) h = (Return a, h') ->
  NoDup (map fst (sol_configuration a)).
Proof.
  intros inlet h a h' H. destruct sep as (N & _ & _). destruct (sec_anti sec) as [|loops cs|l c]; cbn [anti_surge_apply anti_surge_handlers] in *.
  - cbv [ret] in H. assert (a = mk_solution [] (Some NoAntiSurgeFailure)) as -> by congruence. constructor.
  - apply bind_inv in H. destruct H as (u & h1 & _ & H). apply bind_inv in H. destruct H as (confs & h2 & E & H).
    cbv [ret] in H. assert (a = mk_solution confs None) as -> by congruence. cbn [sol_configuration].
    apply stages_handlers in E. rewrite E. clear -N. revert cs. induction loops as [|l loops IH]; intros cs; [constructor|].
    destruct cs as [|c cs]; [constructor|]. inversion N as [|x y NI ND]; subst. cbn [combine map fst].
    constructor; [|now apply IH]. intros I. apply NI. now apply map_fst_combine in I.
  - apply bind_inv in H. destruct H as (u & h1 & _ & H). apply bind_inv in H. destruct H as (b & h2 & _ & H).
    apply bind_inv in H. destruct H as (f & h3 & _ & H). cbv [ret] in H.
    assert (a = mk_solution [(l, RecirculationSetting (fst f))] (snd f)) as -> by congruence.
    constructor; [intros []|constructor].
Qed.

Lemma shaft_not_loop : forall i, settable r i -> i <> sec_shaft sec.
Proof. intros i [(m & s & G)|(k & G)] ->; destruct wire as ((cs & X) & _); unfold r in G; congruence. Qed.

Lemma section_disjoint : disjoint r (section_handlers sec).
Proof. destruct sep as (_ & _ & D). exact D. Qed.

Theorem success_parts : forall target inlet h sol h',
  find_solution ph sec [target] inlet h = (Return sol, h') -> success sol = true ->
  exists confs h1 out,
    (forall c, In c confs -> in_force r h1 c) /\
    (forall i, In i (map fst confs) -> i = sec_shaft sec \/ In i (anti_surge_handlers (sec_anti sec))) /\
    propagate_many ph h1 (r_units r) inlet = Return out /\
    ((at_target (s_pressure out) target = true /\ h' = h1 /\ sol_configuration sol = confs) \/
     (at_target (s_pressure out) target = false /\
      exists p, control_apply ph sec target inlet (sec_control sec) h1 = (Return p, h') /\ sol_failure p = None /\
        sol_configuration sol = merge_configurations confs (sol_configuration p))).
Proof.
  intros target inlet h sol h' H OK. cbn [find_solution] in H. unfold caught, catch in H.
  destruct (solve_section ph sec target inlet h) as [[s|e] hs] eqn:E.
  2: { destruct e; cbn [process_failure] in H; try discriminate H;
       match type of H with ret (mk_solution ?cs ?f) _ = _ =>
         assert (X : sol = mk_solution cs f) by (cbv [ret] in H; congruence); rewrite X in OK; discriminate OK end. }
  assert (s = sol /\ hs = h') as [-> ->] by (split; congruence). clear H.
  unfold solve_section in E. apply bind_inv in E. destruct E as (sf & ha & _ & E). cbv zeta in E.
  set (shaft_config := (sec_shaft sec, SpeedSetting (fst sf))) in *.
  assert (K : exists hb a hc, anti_surge_apply ph sec inlet (sec_anti sec) hb = (Return a, hc) /\
    (apply_configurations (sec_runner sec) (shaft_config :: sol_configuration a) ;;*
         (let* out := run ph (sec_runner sec) inlet in
          if at_target (s_pressure out) target
          then ret (mk_solution (shaft_config :: sol_configuration a) None)
          else
            let* p := control_apply ph sec target inlet (sec_control sec) in
            ret (mk_solution (merge_configurations (shaft_config :: sol_configuration a) (sol_configuration p))
                   match sol_failure p with
                   | Some (Unreachable a t d None) => Some (Unreachable a t d (Some (sec_id sec)))
                   | f => f
                   end))) hc = (Return sol, h')).
  { assert (BAD : forall cs f hx, ret (mk_solution cs (Some f)) hx = (Return sol, h') -> False).
    { intros cs f hx X. cbv [ret] in X. assert (Y : sol = mk_solution cs (Some f)) by congruence. rewrite Y in OK. discriminate OK. }
    destruct (snd sf) as [[]|]; try (exfalso; eapply BAD; exact E);
      apply bind_inv in E; destruct E as (u & hb & _ & E); apply bind_inv in E; destruct E as (a & hc & EA & E);
      exists hb, a, hc; (split; [exact EA|]);
      (destruct (success a) eqn:SA; cbn [negb] in E;
        [|exfalso; unfold success in SA; destruct (sol_failure a) as [fa|]; [eapply BAD; exact E|discriminate SA]]);
      try exact E.
    destruct d; [exfalso; eapply BAD; exact E|exact E]. }
  destruct K as (hb & a & hc & EA & K).
  apply bind_inv in K. destruct K as ([] & h1 & EC & K). apply bind_inv in K. destruct K as (out & h1' & ER & K).
  unfold run in ER. assert (h1 = h1') as <- by congruence.
  assert (R : propagate_many ph h1 (r_units r) inlet = Return out) by (unfold r; congruence). clear ER.
  assert (KEYS : forall i, In i (map fst (shaft_config :: sol_configuration a)) ->
                           i = sec_shaft sec \/ In i (anti_surge_handlers (sec_anti sec))).
  { intros i [<-|I]; [now left|right]. apply in_map_iff in I. destruct I as (c & <- & C).
    exact (anti_surge_confs _ _ _ _ _ _ _ EA _ C). }
  exists (shaft_config :: sol_configuration a), h1, out. split; [|split; [exact KEYS|split; [exact R|]]].
  - eapply applied_all_in_force; [| | |exact EC].
    + intros c [<-|C]; [apply (shaft_not_single sec wire)|].
      apply settable_not_single. apply (anti_settable sec wire). exact (anti_surge_confs _ _ _ _ _ _ _ EA _ C).
    + cbn [map]. constructor; [|exact (anti_keys_NoDup _ _ _ _ EA)]. intros I. apply in_map_iff in I.
      destruct I as (c & Y & C). apply (shaft_not_loop (fst c)); [|exact Y].
      apply (anti_settable sec wire). exact (anti_surge_confs _ _ _ _ _ _ _ EA _ C).
    + eapply disjoint_sub; [|apply section_disjoint]. intros i I. destruct (KEYS i I) as [->|J]; [now left|].
      right. apply in_or_app. now left.
  - destruct (at_target (s_pressure out) target) eqn:AT.
    + left. cbv [ret] in K. split; [reflexivity|]. split; [congruence|].
      assert (sol = mk_solution (shaft_config :: sol_configuration a) None) as -> by congruence. reflexivity.
    + right. split; [reflexivity|]. apply bind_inv in K. destruct K as (p & hp & EP & K). exists p.
      cbv [ret] in K. assert (hp = h') as -> by congruence. split; [exact EP|].
      match type of K with (Return ?m, _) = _ => assert (X : sol = m) by congruence end. rewrite X in OK |- *.
      split; [|reflexivity]. unfold success in OK. cbn [sol_failure] in OK.
      destruct (sol_failure p) as [[]|]; try discriminate OK; try reflexivity. destruct source; discriminate OK.
Qed.

(** The state after pressure control, when its configurations are in force in [G] and only the places of handlers listed in [D]
    were touched since the anti-surge configurations were in force. *)
Lemma merged_reaches : forall confs pc h1 h' G inlet o,
  (forall c, In c confs -> in_force r h1 c) ->
  (forall i, In i (map fst confs) -> i = sec_shaft sec \/ In i (anti_surge_handlers (sec_anti sec))) ->
  (forall c, In c pc -> in_force r G c) ->
  (forall i x, In i (map fst confs) -> ~ In i (map fst pc) -> cells_of r i x -> read h1 x = read G x) ->
  same_except (cells_of_all r (map fst pc)) h' G ->
  propagate_many ph G (r_units r) inlet = o ->
  exists h2, run_with ph sec (merge_configurations confs pc) inlet h' = (o, h2).
Proof.
  intros confs pc h1 h' G inlet o IF KEYS IFP ST SE R. eapply run_with_reaches; [| |exact R].
  - intros c C. apply In_merge in C. destruct C as [C|[C N]]; [now apply IFP|].
    apply (in_force_stable r h1); [now apply IF|]. intros x X. apply (ST (fst c)); auto. now apply in_map.
  - eapply same_weaken; [|exact SE]. intros x (i & I & C). exists i. split; [now apply merge_keys|exact C].
Qed.

(** The early return. *)
Lemma early_reaches : forall confs h1 inlet o,
  (forall c, In c confs -> in_force r h1 c) -> propagate_many ph h1 (r_units r) inlet = o ->
  exists h2, run_with ph sec confs inlet h1 = (o, h2).
Proof. intros. eapply run_with_reaches; [exact H| |exact H0]. apply same_refl. Qed.
End Success.

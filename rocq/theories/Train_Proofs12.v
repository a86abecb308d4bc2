(** Recirculation for each pressure control, in an evaluation (C87), and the maximum rates of several periods (C84). *)
From Coq Require Import List Bool ZArith Lia.
From Verif Require Import QcTac Base Num Search_Model Stream_Model Stream_Spec Flash_Model Process_Model Process_Spec Process_Proofs Train_Model Train_Spec Train_Proofs Train_Proofs2 Train_Proofs3 Train_Proofs4 Train_Proofs5 Train_Proofs6 Train_Proofs7 Train_Proofs8 Train_Proofs9 Train_Proofs10 Train_Proofs11.
Import ListNotations.
Local Open Scope Qc_scope.

Notation anywhere := (fun _ : tstate => True).

Lemma set_all_to : forall (g : modifier -> modifier) md, (forall m, mode (g m) = md) -> forall l s,
  set_to l (fun _ => md) (fold_left (fun s st => update_modifier (st_id st) g s) l s).
Proof.
  intros g md G l s st I.
  assert (K : forall l s, (In st l \/ mode (t_mod s (st_id st)) = md) ->
     mode (t_mod (fold_left (fun s st => update_modifier (st_id st) g s) l s) (st_id st)) = md).
  { clear - G. intros l. induction l as [|x l IH]; intros s H; cbn [fold_left]; [destruct H as [[]|H]; exact H|]. apply IH.
    destruct H as [[->|H]|H]; [right; unfold update_modifier; cbn [t_mod]; unfold upd; rewrite Nat.eqb_refl; apply G|now left|].
    right. unfold update_modifier. cbn [t_mod]. unfold upd. destruct (Nat.eqb (st_id x) (st_id st)) eqn:E; [|exact H]. apply G. }
  apply K. now left.
Qed.

Lemma inv_anywhere : forall A (P : tstate -> Prop) (g : tstate -> tstate) (m : M tstate A) Q, (forall s, P (g s)) -> inv P m Q -> inv anywhere (modify g ;;* m) Q.
Proof. intros A P g m Q G H s _. unfold bind, modify. destruct (H (g s) (G s)) as [_ H2]. split; auto. Qed.

Lemma inv_at_fraction : forall e t c f, inv anywhere (set_all (fun i => set_fraction i f) t ;;* calculate_train e t c) (all_handled (fun _ => (None, Some f)) t).
Proof.
  intros e t c f. unfold set_all. apply inv_anywhere with (P := set_to (tn_stages t) (fun _ => (None, Some f))).
  - intros s. apply (set_all_to (fun m => mk_modifier (m_additional m) None (Some f))). reflexivity.
  - apply inv_set_to_calculate; [apply incl_refl|]. intros i. now left.
Qed.
Lemma inv_at_added : forall e t c m, inv anywhere (with_added_mass e t c m) (all_handled (fun _ => (Some m, None)) t).
Proof.
  intros e t c f. unfold with_added_mass, set_all. apply inv_anywhere with (P := set_to (tn_stages t) (fun _ => (Some f, None))).
  - intros s. apply (set_all_to (fun m => mk_modifier (m_additional m) (Some f) None)). reflexivity.
  - apply inv_set_to_calculate; [apply incl_refl|]. intros i. now right.
Qed.
Lemma inv_at_inlet : forall e t c model m, inv anywhere (at_inlet_mass e t c model m) (all_handled (fun _ => (None, None)) t).
Proof.
  intros e t c model f. unfold at_inlet_mass, reset_modifiers. apply inv_anywhere with (P := set_to (tn_stages t) (fun _ => (None, None))).
  - intros s. apply (set_all_to (fun m => mk_modifier (m_additional m) None None)). reflexivity.
  - eapply inv_bind with (R := fun _ => True); [now apply inv_lift|]. intros c' _. apply inv_set_to_calculate; [apply incl_refl|]. intros i. now left.
Qed.

Lemma inv_root_inside : forall e lo hi (f : Qc -> M tstate Qc) tol n, bracketing e -> lo <= hi -> inv anywhere (find_root e lo hi f tol n) (fun x => lo <= x /\ x <= hi).
Proof.
  intros e lo hi f tol n B L s _. split; [exact I|]. intros x E. destruct (find_root e lo hi f tol n s) as [o s'] eqn:H. cbn [fst] in E. subst o.
  eapply find_root_inside; eauto.
Qed.

Definition some_fraction (t : train) (r : train_result) : Prop := exists f, 0 <= f /\ f <= 1 /\ all_handled (fun _ => (None, Some f)) t r.
Lemma inv_fraction : forall e t c, bracketing e -> inv anywhere (with_individual_rate e t c) (some_fraction t).
Proof.
  intros e t c B. unfold with_individual_rate. cbv zeta.
  assert (Z : forall f, 0 <= f -> f <= 1 -> inv anywhere (set_all (fun i => set_fraction i f) t ;;* calculate_train e t c) (some_fraction t)).
  { intros f F0 F1. eapply inv_weaken; [apply inv_at_fraction|]. intros r H. exists f. auto. }
  eapply inv_bind; [apply (Z 0); discriminate|]. intros least H0.
  eapply inv_bind with (R := fun _ => True); [now apply inv_lift|]. intros flag _.
  destruct (match flag with Compressor_Model.AboveMaximumFlowRate => true | _ => _ end); [now apply inv_ret|].
  eapply inv_bind; [apply (Z 1); discriminate|]. intros most H1.
  destruct (c_discharge c) as [target|]; [|apply inv_raise]. destruct (Qcltb target _); [now apply inv_ret|].
  eapply inv_bind; [apply inv_root_inside; [exact B|discriminate]|]. intros f [F0 F1]. now apply Z.
Qed.

Lemma inv_range_any : forall e (at_mass : Qc -> M tstate train_result) lo hi (Q : train_result -> Prop), (forall m, inv anywhere (at_mass m) Q) ->
  inv anywhere (common_range e at_mass lo hi) (fun o => match o with Some (_, _, a, b) => Q a /\ Q b | None => True end).
Proof.
  intros e at_mass lo hi Q H. unfold common_range. cbv zeta.
  assert (Con : forall x, inv anywhere (let* r := at_mass x in ret (tr_constant_mass e r)) (fun _ => True)).
  { intros x. eapply inv_bind; [apply H|]. intros r _. now apply inv_ret. }
  eapply inv_bind; [apply H|]. intros r_lo H1. eapply inv_bind; [apply H|]. intros r_hi H2.
  destruct (tr_constant_mass e r_lo), (tr_constant_mass e r_hi).
  - apply inv_ret. auto.
  - eapply inv_bind; [apply inv_maximize, Con|]. intros h _. eapply inv_bind; [apply H|]. intros r H3. apply inv_ret. auto.
  - eapply inv_bind; [apply inv_maximize; intros x; apply Con|]. intros h _. eapply inv_bind; [apply H|]. intros r H3. apply inv_ret. auto.
  - assert (Scan : forall n inc, inv anywhere (common_scan e at_mass lo hi n inc) (fun _ => True)).
    { intros n. induction n as [|n IH]; intros inc; cbn [common_scan]; (eapply inv_bind; [apply H|]); intros r _; (destruct (tr_constant_mass e r); [now apply inv_ret|]);
        [now apply inv_ret|apply IH]. }
    eapply inv_bind; [apply Scan|]. intros [inc|] _; [|now apply inv_ret].
    eapply inv_bind; [apply inv_maximize; intros x; apply Con|]. intros h _. eapply inv_bind; [apply inv_maximize, Con|]. intros h' _.
    eapply inv_bind; [apply H|]. intros a Ha. eapply inv_bind; [apply H|]. intros b Hb. apply inv_ret. auto.
Qed.

Definition some_mass (t : train) (r : train_result) : Prop :=
  all_handled (fun _ => (None, None)) t r \/ exists m, all_handled (fun _ => (Some m, None)) t r.
Lemma inv_common_mass : forall e t c, inv anywhere (with_common_recirculation e t c) (some_mass t).
Proof.
  intros e t c. unfold with_common_recirculation.
  eapply inv_bind with (R := fun _ => True); [now apply inv_lift|]. intros rate _.
  eapply inv_bind with (R := fun _ => True); [now apply inv_lift|]. intros model _.
  eapply inv_bind with (R := fun _ => True); [now apply inv_lift|]. intros first _. cbv zeta.
  eapply inv_bind with (R := fun _ => True); [now apply inv_lift|]. intros f _.
  assert (Search : forall required lo hi, inv anywhere (common_search e (at_inlet_mass e t c model) (with_added_mass e t c) (c_discharge c) required lo hi) (some_mass t)).
  { intros required lo hi. unfold common_search.
    assert (At : forall m, inv anywhere (at_inlet_mass e t c model m) (some_mass t)).
    { intros m. eapply inv_weaken; [apply inv_at_inlet|]. intros r H. now left. }
    destruct (Qcltb hi required); [apply At|]. eapply inv_bind; [apply inv_range_any, At|].
    intros [[[[lo' hi'] r_lo] r_hi]|] H; [|apply At]. destruct H as [H1 H2]. destruct (c_discharge c) as [target|]; [|apply inv_raise].
    destruct (Qcltb _ target); [now apply inv_ret|]. destruct (Qcltb target _); [now apply inv_ret|].
    eapply inv_bind; [apply inv_find_root; intros x; eapply inv_bind; [eapply inv_true, At|]; intros r _; now apply inv_ret|].
    intros m _. eapply inv_weaken; [apply inv_at_added|]. intros r H. right. eauto. }
  intros s _. destruct (t_speed s) as [v|]; [|split; [exact I|discriminate]].
  apply (Search (standard_rate_to_mass_rate (e_service e) model rate) (Qcmax (standard_rate_to_mass_rate (e_service e) model rate)
     (tc_min_rate (st_chart first) v * p_density (f_properties f))) (tc_max_rate (st_chart first) v * p_density (f_properties f) * (1 - EPSILON)) s I).
Qed.

(** ** The evaluation *)

Lemma handled_none : forall t r, all_handled (fun _ => (None, None)) t r -> protected t r.
Proof. intros t r (v & V & H). exists v. auto. Qed.
Lemma handled_fraction : forall t r f, all_handled (fun _ => (None, Some f)) t r -> same_fraction_of_room t f r.
Proof. intros t r f (v & V & H). exists v. auto. Qed.
Lemma handled_mass : forall t r m, all_handled (fun _ => (Some m, None)) t r -> same_mass_around t m r.
Proof. intros t r m (v & V & H). exists v. auto. Qed.
Lemma protected_zero : forall t r, protected t r -> same_fraction_of_room t 0 r.
Proof.
  intros t r (v & V & H). exists v. split; [exact V|]. induction H as [|st x l l' K H IH]; constructor; [|exact IH].
  replace (0 * room v st x) with 0 by ring. exact K.
Qed.

(** The result is the one without control, or the one of the control. *)
Lemma evaluate_single : forall e t c (Q : train_result -> Prop), c_interstage c = None ->
  (forall r, protected t r -> Q r) ->
  (tn_control t <> None -> inv (set_to (tn_stages t) (fun _ => (None, None))) (with_pressure_control e t c) Q) ->
  forall s r s', evaluate_constraints e t c s = (Return (Running r), s') -> Q r.
Proof.
  intros e t c Q N H0 H1 s r s' E. unfold evaluate_constraints in E. unfold bind at 1 in E. unfold reset_modifiers, modify in E.
  set (s0 := fold_left _ _ _) in E.
  assert (J : set_to (tn_stages t) (fun _ => (None, None)) s0) by (apply (set_all_to (fun m => mk_modifier (m_additional m) None None)); reflexivity).
  clearbody s0. unfold bind at 1 in E. unfold lift at 1 in E. destruct (validate_rates t (c_rates c)); [|discriminate].
  destruct (any_ingoing t (c_rates c)); [|discriminate]. rewrite N in E.
  assert (G : inv (set_to (tn_stages t) (fun _ => (None, None))) (find_speed e t c None None ;;*
     (let* r := calculate_train e t c in
      match tr_status r with
      | PressuresMet | BelowDischarge => ret r
      | _ => match tn_control t with None => ret r | Some _ => with_pressure_control e t c end
      end)) Q).
  { eapply inv_bind; [apply inv_set_to_find; [apply incl_refl|intros i; now left]|]. intros v _.
    eapply inv_bind; [apply inv_set_to_calculate; [apply incl_refl|intros i; now left]|]. intros x Hx.
    apply handled_none in Hx. pose proof (inv_ret _ (set_to (tn_stages t) (fun _ => (None, None))) x Q (H0 x Hx)) as K.
    destruct (tr_status x); try exact K; (destruct (tn_control t); [apply H1; discriminate|exact K]). }
  specialize (G s0 J). unfold bind at 1 in E.
  match type of E with (let (_, _) := ?m in _) = _ => change m with ((find_speed e t c None None ;;*
     (let* r := calculate_train e t c in
      match tr_status r with
      | PressuresMet | BelowDischarge => ret r
      | _ => match tn_control t with None => ret r | Some _ => with_pressure_control e t c end
      end)) s0) in E end.
  destruct ((find_speed e t c None None ;;* _) s0) as [[x|] s1]; [|discriminate]. unfold ret in E. assert (x = r) by congruence. subst x.
  apply G. reflexivity.
Qed.

Lemma inv_from_anywhere : forall A (I : tstate -> Prop) (m : M tstate A) (Q : A -> Prop), inv anywhere m Q -> forall s a, I s -> fst (m s) = Return a -> Q a.
Proof. intros A I m Q H s a _ E. now apply (H s Logic.I). Qed.

Lemma evaluate_choke : forall e t c, c_interstage c = None ->
  tn_control t = None \/ tn_control t = Some UpstreamChoking \/ tn_control t = Some DownstreamChoking ->
  forall s r s', evaluate_constraints e t c s = (Return (Running r), s') -> protected t r.
Proof.
  intros e t c N K. apply evaluate_single; [exact N|auto|]. intros NN s J. unfold with_pressure_control.
  destruct (t_speed s) as [v|] eqn:V; [|split; [exact J|discriminate]].
  destruct K as [K|[K|K]]; [contradiction| |]; rewrite K.
  - destruct (inv_set_to_upstream (tn_stages t) (fun _ => (None, None)) e t c (incl_refl _) (fun _ => or_introl eq_refl) s J) as [A B].
    split; [exact A|]. intros r E. apply handled_none, B, E.
  - destruct (inv_set_to_downstream (tn_stages t) (fun _ => (None, None)) e t c (incl_refl _) (fun _ => or_introl eq_refl) s J) as [A B].
    split; [exact A|]. intros r E. apply handled_none, B, E.
Qed.

(** For controls that change the modifiers only the value matters: the state afterwards is not used. *)
Lemma evaluate_single_value : forall e t c (Q : train_result -> Prop), c_interstage c = None ->
  (forall r, protected t r -> Q r) -> inv anywhere (with_pressure_control e t c) Q ->
  forall s r s', evaluate_constraints e t c s = (Return (Running r), s') -> Q r.
Proof.
  intros e t c Q N H0 H1 s r s' E. unfold evaluate_constraints in E. unfold bind at 1 in E. unfold reset_modifiers, modify in E.
  set (s0 := fold_left _ _ _) in E.
  assert (J : set_to (tn_stages t) (fun _ => (None, None)) s0) by (apply (set_all_to (fun m => mk_modifier (m_additional m) None None)); reflexivity).
  clearbody s0. unfold bind at 1 in E. unfold lift at 1 in E. destruct (validate_rates t (c_rates c)); [|discriminate].
  destruct (any_ingoing t (c_rates c)); [|discriminate]. rewrite N in E. unfold bind at 1 in E. unfold bind at 1 in E.
  pose proof (inv_set_to_find (tn_stages t) (fun _ => (None, None)) e t c None None (incl_refl _) (fun _ => or_introl eq_refl) s0 J) as [J1 _].
  destruct (find_speed e t c None None s0) as [[v|] s1]; [|discriminate]. cbn [snd] in J1. unfold bind at 1 in E.
  pose proof (inv_set_to_calculate (tn_stages t) (fun _ => (None, None)) e t c (incl_refl _) (fun _ => or_introl eq_refl) s1 J1) as [_ H2].
  destruct (calculate_train e t c s1) as [[x|] s2]; [|discriminate]. cbn [fst] in H2. specialize (H2 x eq_refl). apply handled_none in H2.
  assert (K : forall s3 r', (let (o, s') := (match tn_control t with None => ret x | Some _ => with_pressure_control e t c end) s3 in
     match o with Return a => ret (Running a) s' | Raise ex => (Raise ex, s') end) = (Return (Running r'), s') -> Q r').
  { intros s3 r' E'. destruct (tn_control t).
    - destruct (H1 s3 I) as [_ H3]. destruct (with_pressure_control e t c s3) as [[y|] s4]; [|discriminate]. unfold ret in E'. apply H3. cbn [fst]. congruence.
    - unfold ret in E'. assert (x = r') by congruence. subst. auto. }
  destruct (tr_status x); try (now apply (K s2)); unfold ret in E; assert (x = r) by congruence; subst; auto.
Qed.

Lemma evaluate_fraction : forall e t c, bracketing e -> c_interstage c = None -> tn_control t = Some IndividualRate ->
  forall s r s', evaluate_constraints e t c s = (Return (Running r), s') -> exists f, 0 <= f /\ f <= 1 /\ same_fraction_of_room t f r.
Proof.
  intros e t c B N K. apply evaluate_single_value; [exact N| |].
  - intros r H. exists 0. split; [discriminate|]. split; [discriminate|]. now apply protected_zero.
  - intros s _. split; [exact I|]. intros r E. unfold with_pressure_control in E. rewrite K in E. destruct (t_speed s); [|discriminate].
    destruct (proj2 (inv_fraction e t c B s I) r E) as (f & F0 & F1 & H). exists f. split; [exact F0|]. split; [exact F1|]. now apply handled_fraction.
Qed.
Lemma evaluate_common_mass : forall e t c, c_interstage c = None -> tn_control t = Some CommonRecirculation ->
  forall s r s', evaluate_constraints e t c s = (Return (Running r), s') -> protected t r \/ exists m, same_mass_around t m r.
Proof.
  intros e t c N K. apply evaluate_single_value; [exact N|auto|].
  intros s _. split; [exact I|]. intros r E. unfold with_pressure_control in E. rewrite K in E. destruct (t_speed s); [|discriminate].
  destruct (proj2 (inv_common_mass e t c s I) r E) as [H|[m H]]; [left; now apply handled_none|right; exists m; now apply handled_mass].
Qed.

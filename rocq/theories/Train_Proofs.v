(** Proofs about stages (C76, C77), and the rules for invariants of computations on a train. *)
From Coq Require Import List Bool ZArith Lia.
From Verif Require Import QcTac Base Num Search_Model Stream_Model Stream_Spec Flash_Model Process_Model Process_Spec Process_Proofs Train_Model Train_Spec.
Import ListNotations.
Local Open Scope Qc_scope.

(** ** Invariants *)

(** [m] keeps [I] whether it returns or raises, and what it returns satisfies [Q]. *)
Definition inv {A} (I : tstate -> Prop) (m : M tstate A) (Q : A -> Prop) : Prop :=
  forall s, I s -> I (snd (m s)) /\ (forall a, fst (m s) = Return a -> Q a).

Lemma inv_ret : forall A I (a : A) (Q : A -> Prop), Q a -> inv I (ret a) Q.
Proof. intros A I a Q H s J. split; [exact J|]. intros b E. cbn in E. congruence. Qed.
Lemma inv_raise : forall A I e (Q : A -> Prop), inv I (raise e) Q.
Proof. intros A I e Q s J. split; [exact J|]. intros b E. discriminate. Qed.
Lemma inv_bind : forall A B I (m : M tstate A) (k : A -> M tstate B) (R : A -> Prop) (Q : B -> Prop),
  inv I m R -> (forall a, R a -> inv I (k a) Q) -> inv I (bind m k) Q.
Proof.
  intros A B I m k R Q Hm Hk s J. unfold bind. specialize (Hm s J). destruct (m s) as [[a|e] s']; cbn [fst snd] in Hm.
  - destruct Hm as [J' Ha]. apply Hk; auto.
  - destruct Hm as [J' _]. split; [exact J'|]. intros b E. discriminate.
Qed.
Lemma inv_catch : forall A I (m : M tstate A) h (Q : A -> Prop), inv I m Q ->
  (forall e k, h e = Some k -> inv I k Q) -> inv I (catch m h) Q.
Proof.
  intros A I m h Q Hm Hk s J. unfold catch. specialize (Hm s J). destruct (m s) as [[a|e] s']; cbn [fst snd] in *.
  - destruct Hm as [J' Ha]. auto.
  - destruct Hm as [J' _]. destruct (h e) as [k|] eqn:E; [apply (Hk e); auto|]. split; [exact J'|]. intros b X. discriminate.
Qed.
Lemma inv_lift : forall A I (o : outcome A) (Q : A -> Prop), (forall a, o = Return a -> Q a) -> inv I (lift o) Q.
Proof. intros A I o Q H s J. split; auto. Qed.
Lemma inv_modify : forall (I : tstate -> Prop) f, (forall s, I s -> I (f s)) -> inv I (modify f) (fun _ => True).
Proof. intros I f H s J. split; [apply H, J|auto]. Qed.
Lemma inv_weaken : forall A I (m : M tstate A) (Q R : A -> Prop), inv I m Q -> (forall a, Q a -> R a) -> inv I m R.
Proof. intros A I m Q R H W s J. destruct (H s J) as [H1 H2]. split; auto. Qed.
Lemma inv_and : forall A I (m : M tstate A) (Q R : A -> Prop), inv I m Q -> inv I m R -> inv I m (fun a => Q a /\ R a).
Proof. intros A I m Q R H W s J. destruct (H s J) as [H1 H2]. destruct (W s J) as [_ W2]. split; auto. Qed.

(** ** Root finding *)

Lemma inv_tree : forall I t (f : Qc -> M tstate Qc), (forall x, inv I (f x) (fun _ => True)) ->
  inv I (Solver_Model.find_root t f) (fun _ => True).
Proof.
  intros I t f H. induction t as [x|e|x k IH]; cbn [Solver_Model.find_root].
  - now apply inv_ret.
  - apply inv_raise.
  - eapply inv_bind; [apply H|]. intros a _. apply IH.
Qed.
Lemma inv_secant_loop : forall I (f : Qc -> M tstate Qc) tol lo hi n x0 x1, (forall x, inv I (f x) (fun _ => True)) ->
  inv I (secant_loop f tol lo hi n x0 x1) (fun _ => True).
Proof.
  intros I f tol lo hi n. induction n as [|n IH]; intros x0 x1 H; cbn [secant_loop].
  - eapply inv_bind; [apply H|]. intros f0 _. eapply inv_bind; [apply H|]. intros f1 _.
    destruct (Qceqb (f1 - f0) 0); [apply inv_raise|]. now apply inv_ret.
  - eapply inv_bind; [apply H|]. intros f0 _. eapply inv_bind; [apply H|]. intros f1 _.
    destruct (Qceqb (f1 - f0) 0); [apply inv_raise|]. cbv zeta. destruct (Qcltb tol _); [apply IH, H|now apply inv_ret].
Qed.
Lemma inv_find_root : forall I e lo hi (f : Qc -> M tstate Qc) tol n, (forall x, inv I (f x) (fun _ => True)) ->
  inv I (find_root e lo hi f tol n) (fun _ => True).
Proof.
  intros I e lo hi f tol n H. unfold find_root. apply inv_catch; [now apply inv_tree|]. intros x k E.
  assert (k = secant lo hi f tol n) by congruence. subst k. now apply inv_secant_loop.
Qed.

Lemma inv_maximize_loop : forall I (f : Qc -> M tstate bool) tol n rel x0 x1, (forall x, inv I (f x) (fun _ => True)) ->
  inv I (maximize_loop f tol n rel x0 x1) (fun _ => True).
Proof.
  intros I f tol n. induction n as [|n IH]; intros rel x0 x1 H; cbn [maximize_loop]; [now apply inv_ret|].
  destruct (Qcltb tol (Qcabs rel)); [|now apply inv_ret]. cbv zeta. eapply inv_bind; [apply H|]. intros b _. apply IH, H.
Qed.
Lemma inv_maximize : forall I (f : Qc -> M tstate bool) lo hi tol n, (forall x, inv I (f x) (fun _ => True)) ->
  inv I (maximize_x lo hi f tol n) (fun _ => True).
Proof.
  intros I f lo hi tol n H. unfold maximize_x. now apply inv_maximize_loop.
Qed.

(** ** A stage *)

Lemma new_stream_ok : forall f m y, new_stream f m = Return y -> y = mk_stream f m /\ 0 <= m.
Proof.
  intros f m y H. unfold new_stream in H. destruct (Qcltb m 0) eqn:E; [discriminate|]. apply Qcltb_ge in E.
  split; [congruence|exact E].
Qed.

Lemma larger_max : forall a b, larger a b = Qcmax a b.
Proof.
  intros a b. unfold larger, Qcmax. destruct (Qcltb a b) eqn:E, (Qcleb a b) eqn:E'; auto.
  - apply Qcltb_lt in E. apply Qcleb_gt in E'. qc_lra.
  - apply Qcltb_ge in E. apply Qcleb_le in E'. qc_lra.
Qed.
Lemma larger_le : forall a b, a <= larger a b /\ b <= larger a b.
Proof. intros a b. unfold larger. destruct (Qcltb a b) eqn:E; [apply Qcltb_lt in E|apply Qcltb_ge in E]; split; qc_lra. Qed.

Lemma compress_ok : forall e p x y, compress e p x = Return y ->
  pt_eff p <> 0 /\ s_mass_rate y = s_mass_rate x /\ s_model y = s_model x /\
  (pt_valid p = true -> Qcabs (s_enthalpy y - (s_enthalpy x + pt_head p / pt_eff p)) <=
     larger (qz 10) (Qcabs (s_enthalpy x + pt_head p / pt_eff p) * qc 1 10000)).
Proof.
  intros e p x y H. unfold compress in H. destruct (Qceqb (pt_eff p) 0) eqn:E0; [discriminate|]. apply Qceqb_neq in E0.
  split; [exact E0|].
  destruct (compressor_outlet _ _ _ _) as [z|ex] eqn:E.
  - assert (z = y) by congruence. subst z. apply compressor_outlet_flashed in E. destruct E as [_ E].
    destruct E as (p0 & props & P & Fl & W & E & Mm). subst y. split; [reflexivity|]. split; [reflexivity|]. intros _.
    unfold validate_ph in W.
    destruct (Qcleb (p_pressure props) 0); [discriminate|]. destruct (Qcleb (p_temperature props) 0); [discriminate|].
    destruct (Qcleb (p_density props) 0); [discriminate|]. destruct (Qcleb (p_z props) 0); [discriminate|].
    destruct (Qcleb (p_kappa props) 0); [discriminate|]. destruct (Qcleb (p_standard_density props) 0); [discriminate|].
    destruct (negb _); [discriminate|]. destruct (Qcltb _ (Qcabs _)) eqn:W4; [discriminate|].
    apply Qcltb_ge in W4. unfold s_enthalpy at 1. cbn [s_fluid f_properties]. unfold ph_tolerance in W4.
    rewrite larger_max. exact W4.
  - destruct ex; try discriminate. destruct (pt_valid p) eqn:V; [discriminate|]. assert (x = y) by congruence. subst y.
    split; [reflexivity|]. split; [reflexivity|]. discriminate.
Qed.

(** The rate with recirculation. *)
Lemma added_rate_ok : forall m lo hi rate density, settled m ->
  rate + added_rate m lo hi rate density = larger lo (asked_rate m rate density hi).
Proof.
  intros m lo hi rate density S. unfold added_rate, asked_rate.
  destruct (m_mass m) as [mass|] eqn:E1; destruct (m_fraction m) as [f|] eqn:E2; cbv zeta.
  - destruct S as [S|S]; congruence.
  - generalize (mass / density). intros q. unfold larger. qc_cases; try qc_lra.
  - assert (H : Qcmax 0 (hi - rate) = if Qcltb rate hi then hi - rate else 0) by (qc_cases; qc_lra).
    rewrite H. generalize (f * (if Qcltb rate hi then hi - rate else 0)). intros q. clear H. unfold larger. qc_cases; qc_lra.
  - unfold larger. qc_cases; qc_lra.
Qed.

Lemma modifier_add_ok : forall st x s y s', modifier_add st x s = (Return y, s') ->
  exists v, t_speed s = Some v /\ t_speed s' = Some v /\ s_fluid y = s_fluid x /\
    s_mass_rate y = s_mass_rate x + m_additional (t_mod s' (st_id st)) /\
    m_additional (t_mod s' (st_id st)) =
      added_rate (t_mod s (st_id st)) (tc_min_rate (st_chart st) v) (tc_max_rate (st_chart st) v) (actual_rate x) (s_density x) * s_density x.
Proof.
  intros st x s y s' H. unfold modifier_add in H. destruct (t_speed s) as [v|] eqn:V; [|discriminate]. exists v.
  cbv zeta in H. injection H as H1 H2. subst s'. unfold with_mass_rate in H1. apply new_stream_ok in H1. destruct H1 as [H1 _]. subst y.
  unfold update_modifier. cbn [t_speed t_mod s_fluid s_mass_rate]. unfold upd. rewrite Nat.eqb_refl. cbn [m_additional]. auto.
Qed.

Lemma recirculated : forall st x s y s', modifier_add st x s = (Return y, s') -> 0 < s_density x ->
  settled (t_mod s (st_id st)) -> exists v, t_speed s = Some v /\
  actual_rate y = larger (tc_min_rate (st_chart st) v) (asked_rate (t_mod s (st_id st)) (actual_rate x) (s_density x) (tc_max_rate (st_chart st) v)).
Proof.
  intros st x s y s' H D S. apply modifier_add_ok in H. destruct H as (v & V & _ & F & Mm & A). exists v. split; [exact V|].
  rewrite <- added_rate_ok by exact S. unfold actual_rate at 1. unfold s_density at 1. rewrite F. fold (s_density x).
  rewrite Mm, A. unfold actual_rate at 2. field. intro Z. rewrite Z in D. discriminate.
Qed.

Lemma stage_evaluate_steps : forall e st rates streams x s r s', stage_evaluate e st rates streams x s = (Return r, s') ->
  exists s1 p, stage_inlet e st rates streams x = Return (sr_inlet r) /\
    modifier_add st (sr_inlet r) s = (Return (sr_inlet_asv r), s1) /\ s' = s1 /\
    (exists v, t_speed s = Some v /\ tc_min_speed (st_chart st) <= v /\ v <= tc_max_speed (st_chart st) /\
      tc_point (st_chart st) v (actual_rate (sr_inlet_asv r)) (actual_rate (sr_inlet r)) = Return p) /\
    compress e p (sr_inlet_asv r) = Return (sr_outlet_asv r) /\
    sr_outlet r = mk_stream (s_fluid (sr_outlet_asv r)) (s_mass_rate (sr_outlet_asv r) - m_additional (t_mod s1 (st_id st))) /\
    p = mk_point (sr_head r) (sr_eff r) (sr_flag r) (sr_point_valid r) /\
    sr_enthalpy_change r = sr_head r / sr_eff r /\
    sr_power r = power_in_megawatt (sr_head r / sr_eff r) (s_mass_rate (sr_inlet_asv r)).
Proof.
  intros e st rates streams x s r s' H. unfold stage_evaluate in H. unfold bind at 1 in H. unfold lift at 1 in H.
  destruct (stage_inlet e st rates streams x) as [inlet|] eqn:E1; [|discriminate].
  unfold bind at 1 in H. destruct (modifier_add st inlet s) as [[asv|] s1] eqn:E2; [|discriminate].
  pose proof (modifier_add_ok _ _ _ _ _ E2) as (v & V & V1 & _).
  unfold bind at 1 in H. unfold validate_speed in H. rewrite V1 in H.
  destruct (Qcleb (tc_min_speed (st_chart st)) v && Qcleb v (tc_max_speed (st_chart st))) eqn:E3; [|discriminate].
  apply andb_true_iff in E3. destruct E3 as [E3 E4]. apply Qcleb_le in E3. apply Qcleb_le in E4.
  unfold bind at 1 in H. unfold lift at 1 in H. change (volumetric_rate asv) with (actual_rate asv) in H.
  change (volumetric_rate inlet) with (actual_rate inlet) in H.
  destruct (tc_point _ _ _ _) as [p|] eqn:E5; [|discriminate].
  unfold bind at 1 in H. unfold lift at 1 in H. destruct (compress e p asv) as [out_asv|] eqn:E6; [|discriminate].
  unfold bind at 1 in H. unfold modifier_remove in H. unfold with_mass_rate in H.
  destruct (new_stream (s_fluid out_asv) _) as [out|] eqn:E7; [|discriminate]. cbv zeta in H. unfold ret in H.
  injection H as H H'. subst r s'. apply new_stream_ok in E7. destruct E7 as [E7 _]. subst out.
  exists s1, p. cbn [sr_inlet sr_outlet sr_inlet_asv sr_outlet_asv sr_head sr_eff sr_flag sr_point_valid sr_enthalpy_change sr_power].
  repeat split; auto.
  - exists v. auto.
  - destruct p; reflexivity.
Qed.

Lemma modifier_add_settled : forall st x s i, settled (t_mod s i) -> settled (t_mod (snd (modifier_add st x s)) i).
Proof.
  intros st x s i S. unfold modifier_add. destruct (t_speed s); [|exact S]. cbv zeta. cbn [snd update_modifier t_mod].
  unfold upd. destruct (Nat.eqb (st_id st) i) eqn:E; [|exact S]. apply Nat.eqb_eq in E. subst i. exact S.
Qed.
Lemma modifier_add_speed : forall st x s, t_speed (snd (modifier_add st x s)) = t_speed s.
Proof. intros st x s. unfold modifier_add. destruct (t_speed s) eqn:E; exact E. Qed.

Lemma stage_evaluate_state : forall e st rates streams x s,
  snd (stage_evaluate e st rates streams x s) = s \/
  exists y, snd (stage_evaluate e st rates streams x s) = snd (modifier_add st y s).
Proof.
  intros e st rates streams x s. unfold stage_evaluate. unfold bind, lift, validate_speed, modifier_remove, ret.
  destruct (stage_inlet e st rates streams x) as [inlet|]; [|left; reflexivity]. right. exists inlet.
  destruct (modifier_add st inlet s) as [[asv|] s1]; [|reflexivity].
  destruct (t_speed s1) as [v|]; [|reflexivity]. destruct (_ && _); [|reflexivity].
  destruct (tc_point _ _ _ _) as [p|]; [|reflexivity]. destruct (compress _ _ _) as [o|]; [|reflexivity].
  destruct (with_mass_rate _ _); reflexivity.
Qed.

Lemma stage_proof : forall e st rates streams x s r s', stage_evaluate e st rates streams x s = (Return r, s') ->
  settled (t_mod s (st_id st)) ->
  exists v, t_speed s = Some v /\ t_speed s' = Some v /\ stage_at v st r /\ energy_balance r /\
    (0 < s_density (sr_inlet r) -> actual_rate (sr_inlet_asv r) =
       larger (tc_min_rate (st_chart st) v)
         (asked_rate (t_mod s (st_id st)) (actual_rate (sr_inlet r)) (s_density (sr_inlet r)) (tc_max_rate (st_chart st) v))).
Proof.
  intros e st rates streams x s r s' H S. apply stage_evaluate_steps in H.
  destruct H as (s1 & p & _ & A & -> & (v & V & L & U & P) & C & O & Ep & _ & Pw). exists v.
  pose proof (modifier_add_ok _ _ _ _ _ A) as (w & W & W1 & F & Mm & _). assert (w = v) by congruence. subst w.
  assert (RR : 0 < s_density (sr_inlet r) -> actual_rate (sr_inlet_asv r) =
       larger (tc_min_rate (st_chart st) v)
         (asked_rate (t_mod s (st_id st)) (actual_rate (sr_inlet r)) (s_density (sr_inlet r)) (tc_max_rate (st_chart st) v))).
  { intros D. destruct (recirculated _ _ _ _ _ A D S) as (u & Eu & R). assert (u = v) by congruence. subst u. exact R. }
  apply compress_ok in C. destruct C as (C1 & C2 & C3 & C4). subst p. cbn [pt_eff pt_head pt_valid] in C1, C4.
  split; [exact V|]. split; [exact W1|]. split; [|split].
  - unfold stage_at. repeat (split; [first [exact L|exact U|exact P|exact C1|exact F|idtac]|]).
    + rewrite O. reflexivity.
    + rewrite O. unfold s_model at 1. cbn [s_fluid]. fold (s_model (sr_outlet_asv r)). rewrite C3. unfold s_model. now rewrite F.
    + rewrite O. cbn [s_mass_rate]. rewrite C2, Mm. ring.
    + exact C2.
    + intros D. rewrite (RR D). apply larger_le.
    + rewrite Pw. reflexivity.
  - unfold energy_balance. intros X. specialize (C4 X). rewrite O. unfold s_enthalpy at 1. cbn [s_fluid].
    fold (s_enthalpy (sr_outlet_asv r)). unfold s_enthalpy at 2. rewrite <- F. fold (s_enthalpy (sr_inlet_asv r)).
    unfold s_enthalpy at 3. rewrite <- F. fold (s_enthalpy (sr_inlet_asv r)). exact C4.
  - exact RR.
Qed.

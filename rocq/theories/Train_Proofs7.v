(** What an evaluation does not depend on (C83, C84). *)
From Coq Require Import List Bool ZArith Lia.
From Verif Require Import QcTac Base Num Search_Model Stream_Model Stream_Spec Flash_Model Process_Model Process_Spec Process_Proofs Train_Model Train_Spec Train_Proofs Train_Proofs2 Train_Proofs3 Train_Proofs4 Train_Proofs5 Train_Proofs6.
Import ListNotations.
Local Open Scope Qc_scope.

(** From related states [m] has the same outcome, and it leaves related states. *)
Definition resp {A} (E : tstate -> tstate -> Prop) (m : M tstate A) : Prop :=
  forall s1 s2, E s1 s2 -> fst (m s1) = fst (m s2) /\ E (snd (m s1)) (snd (m s2)).

Lemma resp_ret : forall A E (a : A), resp E (ret a).
Proof. intros A E a s1 s2 H. split; auto. Qed.
Lemma resp_raise : forall A E x, resp E (@raise tstate A x).
Proof. intros A E x s1 s2 H. split; auto. Qed.
Lemma resp_lift : forall A E (o : outcome A), resp E (lift o).
Proof. intros A E o s1 s2 H. split; auto. Qed.
Lemma resp_bind : forall A B E (m : M tstate A) (k : A -> M tstate B), resp E m -> (forall a, resp E (k a)) -> resp E (bind m k).
Proof.
  intros A B E m k Hm Hk s1 s2 H. unfold bind. specialize (Hm s1 s2 H). destruct (m s1) as [o1 s1'], (m s2) as [o2 s2']. cbn [fst snd] in Hm.
  destruct Hm as [-> H']. destruct o2 as [a|x]; [now apply Hk|]. split; auto.
Qed.
Lemma resp_catch : forall A E (m : M tstate A) h, resp E m -> (forall x k, h x = Some k -> resp E k) -> resp E (catch m h).
Proof.
  intros A E m h Hm Hk s1 s2 H. unfold catch. specialize (Hm s1 s2 H). destruct (m s1) as [o1 s1'], (m s2) as [o2 s2']. cbn [fst snd] in Hm.
  destruct Hm as [-> H']. destruct o2 as [a|x]; [split; auto|]. destruct (h x) as [k|] eqn:Ex; [now apply (Hk x)|]. split; auto.
Qed.
Lemma resp_modify : forall (E : tstate -> tstate -> Prop) f, (forall s1 s2, E s1 s2 -> E (f s1) (f s2)) -> resp E (modify f).
Proof. intros E f H s1 s2 J. split; [reflexivity|]. apply H, J. Qed.

Lemma resp_tree : forall E t (f : Qc -> M tstate Qc), (forall x, resp E (f x)) -> resp E (Solver_Model.find_root t f).
Proof.
  intros E t f H. induction t as [x|e|x k IH]; cbn [Solver_Model.find_root]; [apply resp_ret|apply resp_raise|].
  apply resp_bind; [apply H|apply IH].
Qed.
Lemma resp_secant_loop : forall E (f : Qc -> M tstate Qc) tol lo hi n x0 x1, (forall x, resp E (f x)) ->
  resp E (secant_loop f tol lo hi n x0 x1).
Proof.
  intros E f tol lo hi n. induction n as [|n IH]; intros x0 x1 H; cbn [secant_loop].
  - apply resp_bind; [apply H|]. intros f0. apply resp_bind; [apply H|]. intros f1. destruct (Qceqb (f1 - f0) 0); [apply resp_raise|apply resp_ret].
  - apply resp_bind; [apply H|]. intros f0. apply resp_bind; [apply H|]. intros f1. destruct (Qceqb (f1 - f0) 0); [apply resp_raise|].
    cbv zeta. destruct (Qcltb tol _); [apply IH, H|apply resp_ret].
Qed.
Lemma resp_find_root : forall E e lo hi (f : Qc -> M tstate Qc) tol n, (forall x, resp E (f x)) -> resp E (find_root e lo hi f tol n).
Proof.
  intros E e lo hi f tol n H. unfold find_root. apply resp_catch; [now apply resp_tree|]. intros x k K.
  assert (k = secant lo hi f tol n) by congruence. subst k. now apply resp_secant_loop.
Qed.
Lemma resp_maximize : forall E (f : Qc -> M tstate bool) lo hi tol n, (forall x, resp E (f x)) -> resp E (maximize_x lo hi f tol n).
Proof.
  intros E f lo hi tol n H. unfold maximize_x. generalize (S n) (qz 100) lo hi. intros k. induction k as [|k IH]; intros rel x0 x1; cbn [maximize_loop]; [apply resp_ret|].
  destruct (Qcltb tol (Qcabs rel)); [|apply resp_ret]. cbv zeta. apply resp_bind; [apply H|]. intros b. apply IH.
Qed.

(** ** The part of the state that matters *)

Definition mode (m : modifier) : option Qc * option Qc := (m_mass m, m_fraction m).
Definition same_modes (all : list stage) (s1 s2 : tstate) : Prop :=
  forall st, In st all -> mode (t_mod s1 (st_id st)) = mode (t_mod s2 (st_id st)).
Definition same_state (all : list stage) (s1 s2 : tstate) : Prop := t_speed s1 = t_speed s2 /\ same_modes all s1 s2.

Lemma same_update : forall all i f g s1 s2, same_modes all s1 s2 ->
  (forall m1 m2, mode m1 = mode m2 -> mode (f m1) = mode (g m2)) -> same_modes all (update_modifier i f s1) (update_modifier i g s2).
Proof.
  intros all i f g s1 s2 H F st I. unfold update_modifier. cbn [t_mod]. unfold upd. destruct (Nat.eqb i (st_id st)) eqn:E; [|apply H, I].
  apply Nat.eqb_eq in E. subst i. apply F, H, I.
Qed.
Lemma same_mass : forall all i x s1 s2, same_state all s1 s2 -> same_state all (set_mass i x s1) (set_mass i x s2).
Proof. intros all i x s1 s2 [V H]. split; [exact V|]. apply same_update; auto. Qed.
Lemma same_fraction : forall all i x s1 s2, same_state all s1 s2 -> same_state all (set_fraction i x s1) (set_fraction i x s2).
Proof. intros all i x s1 s2 [V H]. split; [exact V|]. apply same_update; auto. Qed.
Lemma same_reset : forall all i s1 s2, same_state all s1 s2 -> same_state all (reset_modifier i s1) (reset_modifier i s2).
Proof. intros all i s1 s2 [V H]. split; [exact V|]. apply same_update; auto. Qed.

Lemma resp_set_all : forall all f t, (forall i s1 s2, same_state all s1 s2 -> same_state all (f i s1) (f i s2)) -> resp (same_state all) (set_all f t).
Proof.
  intros all f t F. unfold set_all. apply resp_modify. induction (tn_stages t) as [|st l IH]; intros s1 s2 H; cbn [fold_left]; [exact H|]. apply IH, F, H.
Qed.
Lemma resp_reset : forall all t, resp (same_state all) (reset_modifiers t).
Proof.
  intros all t. unfold reset_modifiers. apply resp_modify. induction (tn_stages t) as [|st l IH]; intros s1 s2 H; cbn [fold_left]; [exact H|]. apply IH, same_reset, H.
Qed.
Lemma resp_set_speed : forall all t v, resp (same_state all) (set_train_speed t v).
Proof.
  intros all t v s1 s2 [V H]. unfold set_train_speed. destruct (tn_variable t); [split; [reflexivity|split; auto]|].
  rewrite V. destruct (t_speed s2) as [w|] eqn:W; [|split; [reflexivity|split; auto]].
  destruct (Qceqb v w); (split; [reflexivity|]); cbn [snd]; (split; [congruence|exact H]).
Qed.

(** ** Stages *)

Lemma added_mode : forall m1 m2 a b r d, mode m1 = mode m2 -> added_rate m1 a b r d = added_rate m2 a b r d.
Proof. intros m1 m2 a b r d H. unfold mode in H. unfold added_rate. assert (m_mass m1 = m_mass m2) by congruence. assert (m_fraction m1 = m_fraction m2) by congruence. now rewrite H0, H1. Qed.

Lemma same_add : forall all st x s1 s2, In st all -> same_state all s1 s2 -> exists o s1' s2',
  modifier_add st x s1 = (o, s1') /\ modifier_add st x s2 = (o, s2') /\ same_state all s1' s2' /\
  (forall a, o = Return a -> m_additional (t_mod s1' (st_id st)) = m_additional (t_mod s2' (st_id st))).
Proof.
  intros all st x s1 s2 I H. pose proof H as [V Hm]. unfold modifier_add. rewrite V. destruct (t_speed s2) as [v|] eqn:V2.
  - cbv zeta. rewrite (added_mode _ _ _ _ _ _ (Hm st I)). set (mass := added_rate _ _ _ _ _ * _).
    eexists _, _, _. split; [reflexivity|]. split; [reflexivity|]. split.
    + split; [cbn [update_modifier t_speed]; congruence|]. apply same_update; auto.
    + intros _ _. unfold update_modifier. cbn [t_mod]. unfold upd. rewrite Nat.eqb_refl. reflexivity.
  - eexists _, _, _. split; [reflexivity|]. split; [reflexivity|]. split; [exact H|]. intros a E. discriminate.
Qed.

Lemma resp_stage : forall all e st rates streams x, In st all -> resp (same_state all) (stage_evaluate e st rates streams x).
Proof.
  intros all e st rates streams x I. unfold stage_evaluate. apply resp_bind; [apply resp_lift|]. intros inlet.
  intros s1 s2 H. destruct (same_add all st inlet s1 s2 I H) as (o & s1' & s2' & E1 & E2 & H' & Add).
  unfold bind, validate_speed, lift, modifier_remove, ret. rewrite E1, E2. destruct o as [asv|]; [|split; auto].
  specialize (Add asv eq_refl). pose proof H' as [V _]. rewrite V.
  destruct (t_speed s2') as [v|]; [|split; auto].
  destruct (Qcleb (tc_min_speed (st_chart st)) v && Qcleb v (tc_max_speed (st_chart st))); [|split; auto].
  destruct (tc_point _ _ _ _) as [p|]; [|split; auto]. destruct (compress e p asv) as [z|]; [|split; auto].
  rewrite Add. destruct (with_mass_rate _ _); split; auto.
Qed.

Lemma resp_loop : forall all e ps c stages k rem x, incl stages all -> resp (same_state all) (train_loop e ps c stages k rem x).
Proof.
  intros all e ps c stages. induction stages as [|st stages IH]; intros k rem x I; cbn [train_loop]; [apply resp_ret|].
  apply resp_bind; [apply resp_lift|]. intros rates. apply resp_bind; [apply resp_lift|]. intros [streams rem'].
  apply resp_bind; [apply resp_stage, I; now left|]. intros r. apply resp_bind; [apply IH; intros z Z; apply I; now right|]. intros [l y]. apply resp_ret.
Qed.

Lemma resp_speed : forall A all (k : option Qc -> outcome A), resp (same_state all) (fun s => (k (t_speed s), s)).
Proof. intros A all k s1 s2 H. pose proof H as [V _]. cbn [fst snd]. rewrite V. auto. Qed.

Lemma resp_calculate : forall all e t c, incl (tn_stages t) all -> resp (same_state all) (calculate_train e t c).
Proof.
  intros all e t c I. unfold calculate_train. destruct (tn_stages t) as [|first rest]; [apply resp_raise|].
  apply resp_bind; [apply resp_lift|]. intros l. destruct l as [|inlet remaining]; [apply resp_raise|].
  apply resp_bind; [apply resp_loop, I|]. intros [results outlet]. apply resp_bind; [apply resp_lift|]. intros st.
  apply (resp_speed _ all (fun sp => Return (mk_train_result inlet outlet sp results st (above_power t results)))).
Qed.

(** ** Controls *)

Ltac resp_auto :=
  repeat first
    [ apply resp_ret | apply resp_raise | apply resp_lift
    | apply resp_bind; [|intros ?]
    | apply resp_find_root; intros ?
    | apply resp_maximize; intros ? ].

Lemma resp_upstream : forall all e t c, incl (tn_stages t) all -> resp (same_state all) (with_upstream_choke e t c).
Proof.
  intros all e t c I. unfold with_upstream_choke. apply resp_bind; [apply resp_lift|]. intros rate. apply resp_bind; [apply resp_lift|]. intros m.
  apply resp_bind; [apply resp_lift|]. intros first. apply resp_bind; [apply resp_lift|]. intros inlet.
  destruct (c_discharge c) as [target|]; [|apply resp_raise]. cbv zeta. resp_auto; now apply resp_calculate.
Qed.

Lemma resp_downstream : forall all e t c, incl (tn_stages t) all -> resp (same_state all) (with_downstream_choke e t c).
Proof.
  intros all e t c I. unfold with_downstream_choke. apply resp_bind; [now apply resp_calculate|]. intros r. apply resp_bind.
  - destruct (tn_max_discharge t) as [limit|]; [|apply resp_ret]. destruct (Qcltb limit _); [|apply resp_ret].
    apply resp_bind; [now apply resp_upstream|]. intros choked. cbv zeta. resp_auto.
  - intros r'. destruct (tr_status r'); try apply resp_ret. destruct (c_discharge c); [|apply resp_raise]. cbv zeta. resp_auto.
Qed.

Lemma resp_individual_rate : forall all e t c, incl (tn_stages t) all -> resp (same_state all) (with_individual_rate e t c).
Proof.
  intros all e t c I. unfold with_individual_rate. cbv zeta.
  assert (Step : forall f, resp (same_state all) (set_all (fun i => set_fraction i f) t ;;* calculate_train e t c)).
  { intros f. apply resp_bind; [apply resp_set_all; intros; now apply same_fraction|]. intros _. now apply resp_calculate. }
  apply resp_bind; [apply Step|]. intros least. apply resp_bind; [apply resp_lift|]. intros flag.
  match goal with |- resp _ (if ?b then _ else _) => destruct b end; [apply resp_ret|].
  apply resp_bind; [apply Step|]. intros most. destruct (c_discharge c) as [target|]; [|apply resp_raise].
  destruct (Qcltb target (tr_discharge most)); [apply resp_ret|]. apply resp_bind; [|intros f; apply Step].
  apply resp_find_root. intros x. apply resp_bind; [apply Step|]. intros r. apply resp_ret.
Qed.

Lemma resp_stage_with_mass : forall all e st x mass, In st all -> resp (same_state all) (stage_with_mass e st x mass).
Proof.
  intros all e st x mass I. unfold stage_with_mass. apply resp_bind; [apply resp_modify; intros; now apply same_mass|]. intros _. now apply resp_stage.
Qed.
Lemma resp_to_pressure : forall all e st target x, In st all -> resp (same_state all) (stage_to_pressure e st target x).
Proof.
  intros all e st target x I. unfold stage_to_pressure. apply resp_bind; [now apply resp_stage_with_mass|]. intros without.
  apply resp_bind.
  { intros s1 s2 H. pose proof H as [V _]. unfold current_max_rate. rewrite V. destruct (t_speed s2); split; auto. }
  intros maximum. cbv zeta. apply resp_bind; [now apply resp_stage_with_mass|]. intros most.
  destruct (Qcltb (sr_discharge without) target); [apply resp_ret|]. destruct (Qcltb target (sr_discharge most)); [apply resp_ret|].
  apply resp_bind; [|intros mass; now apply resp_stage_with_mass]. apply resp_find_root. intros p.
  apply resp_bind; [now apply resp_stage_with_mass|]. intros r. apply resp_ret.
Qed.
Lemma resp_pressure_loop : forall all e ratio stages x, incl stages all -> resp (same_state all) (individual_pressure_loop e ratio stages x).
Proof.
  intros all e ratio stages. induction stages as [|st stages IH]; intros x I; cbn [individual_pressure_loop]; [apply resp_ret|].
  apply resp_bind; [apply resp_to_pressure, I; now left|]. intros r. apply resp_bind; [apply IH; intros z Z; apply I; now right|]. intros l. apply resp_ret.
Qed.
Lemma resp_individual_pressure : forall all e t c, incl (tn_stages t) all -> resp (same_state all) (with_individual_pressure e t c).
Proof.
  intros all e t c I. unfold with_individual_pressure. destruct (c_discharge c) as [target|]; [|apply resp_raise].
  apply resp_bind; [apply resp_lift|]. intros rate. apply resp_bind; [apply resp_lift|]. intros m.
  apply resp_bind; [apply resp_lift|]. intros first. apply resp_bind; [apply resp_lift|]. intros inlet. cbv zeta.
  apply resp_bind; [apply resp_pressure_loop, I|]. intros l. apply resp_bind; [apply resp_lift|]. intros st.
  destruct (last_opt l) as [z|]; [|apply resp_raise].
  apply (resp_speed _ all (fun sp => Return (mk_train_result inlet (sr_outlet z) sp l st false))).
Qed.

Lemma resp_range : forall E e (at_mass : Qc -> M tstate train_result) lo hi, (forall m, resp E (at_mass m)) -> resp E (common_range e at_mass lo hi).
Proof.
  intros E e at_mass lo hi H. unfold common_range. cbv zeta.
  assert (Con : forall x, resp E (let* r := at_mass x in ret (tr_constant_mass e r))) by (intros x; apply resp_bind; [apply H|intros r; apply resp_ret]).
  apply resp_bind; [apply H|]. intros r_lo. apply resp_bind; [apply H|]. intros r_hi. destruct (tr_constant_mass e r_lo).
  - destruct (tr_constant_mass e r_hi); [apply resp_ret|]. apply resp_bind; [apply resp_maximize; intros x; apply Con|]. intros h.
    apply resp_bind; [apply H|]. intros r. apply resp_ret.
  - destruct (tr_constant_mass e r_hi).
    + apply resp_bind; [apply resp_maximize; intros x; apply Con|]. intros h. apply resp_bind; [apply H|]. intros r. apply resp_ret.
    + apply resp_bind.
      { generalize (qc 1 10) at 1. intros inc. generalize 9%nat. intros n. revert inc. induction n as [|n IH]; intros inc; cbn [common_scan];
          (apply resp_bind; [apply H|]); intros r; destruct (tr_constant_mass e r); try apply resp_ret. apply IH. }
      intros [inc|]; [|apply resp_ret]. apply resp_bind; [apply resp_maximize; intros x; apply Con|]. intros m.
      apply resp_bind; [apply resp_maximize; intros x; apply Con|]. intros h. apply resp_bind; [apply H|]. intros r. apply resp_bind; [apply H|]. intros r'. apply resp_ret.
Qed.
Lemma resp_common : forall all e t c, incl (tn_stages t) all -> resp (same_state all) (with_common_recirculation e t c).
Proof.
  intros all e t c I. unfold with_common_recirculation. apply resp_bind; [apply resp_lift|]. intros rate. apply resp_bind; [apply resp_lift|]. intros m.
  apply resp_bind; [apply resp_lift|]. intros first. cbv zeta. apply resp_bind; [apply resp_lift|]. intros f.
  assert (At : forall mass, resp (same_state all) (at_inlet_mass e t c m mass)).
  { intros mass. unfold at_inlet_mass. apply resp_bind; [apply resp_reset|]. intros _. apply resp_bind; [apply resp_lift|]. intros c'. now apply resp_calculate. }
  assert (Ad : forall mass, resp (same_state all) (with_added_mass e t c mass)).
  { intros mass. unfold with_added_mass. apply resp_bind; [apply resp_set_all; intros; now apply same_mass|]. intros _. now apply resp_calculate. }
  assert (Search : forall required lo hi, resp (same_state all) (common_search e (at_inlet_mass e t c m) (with_added_mass e t c) (c_discharge c) required lo hi)).
  { intros required lo hi. unfold common_search. destruct (Qcltb hi required); [apply At|]. apply resp_bind; [now apply resp_range|].
    intros [[[[lo' hi'] r_lo] r_hi]|]; [|apply At]. destruct (c_discharge c) as [target|]; [|apply resp_raise].
    destruct (Qcltb (tr_discharge r_lo) target); [apply resp_ret|]. destruct (Qcltb target (tr_discharge r_hi)); [apply resp_ret|].
    apply resp_bind; [|intros x; apply Ad]. apply resp_find_root. intros x. apply resp_bind; [apply At|]. intros r. apply resp_ret. }
  intros s1 s2 H. pose proof H as [V _]. rewrite V. destruct (t_speed s2) as [v|]; [apply Search, H|split; auto].
Qed.

Lemma resp_control : forall all e t c, incl (tn_stages t) all -> resp (same_state all) (with_pressure_control e t c).
Proof.
  intros all e t c I s1 s2 H. pose proof H as [V _]. unfold with_pressure_control. rewrite V. destruct (t_speed s2); [|split; auto].
  destruct (tn_control t) as [[]|]; [now apply resp_upstream|now apply resp_downstream|now apply resp_individual_rate|now apply resp_individual_pressure|now apply resp_common|now apply resp_raise].
Qed.

Lemma resp_construct : forall all t, resp (same_state all) (construct t).
Proof.
  intros all t. unfold construct. apply resp_bind.
  - destruct (tn_max_discharge t) as [p|]; [destruct (Qcltb p 0)|]; first [apply resp_ret|apply resp_raise].
  - intros _. apply resp_bind; [apply resp_lift|]. intros lowest. apply resp_bind; [apply resp_lift|]. intros highest.
    destruct (Qcltb highest lowest); [apply resp_raise|]. destruct (is_variable_speed t).
    + destruct (tn_variable t); [apply resp_ret|apply resp_raise].
    + destruct (tn_variable t); [apply resp_raise|apply resp_set_speed].
Qed.

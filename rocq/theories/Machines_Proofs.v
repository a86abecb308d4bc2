(** C116: a series of periods, and each period by itself. *)
From Coq Require Import PeanoNat String Lia.
From Verif Require Import Search_Model Train_Model Train_Proofs8.
From Verif Require Import QcTac Num Base BaseLemmas Time_Model Expr_Model Vars_Model Interp_Model Energy_Model Sampled_Model Sampled_Spec Sampled_Proofs7 Consumer_Model Equipment_Model Machines_Model Machines_Spec.
Local Open Scope list_scope.
Local Open Scope Qc_scope.

Lemma f2_nth : forall A B (R : A -> B -> Prop) l m, List.length l = List.length m ->
  (forall k a b, nth_error l k = Some a -> nth_error m k = Some b -> R a b) -> Forall2 R l m.
Proof.
  induction l as [|a l IH]; intros [|b m] L H; try discriminate L; constructor; [exact (H 0%nat a b eq_refl eq_refl)|].
  apply IH; [now injection L|]. intros k x y Hx Hy. exact (H (S k) x y Hx Hy).
Qed.

(** the evaluation of a series, also when it fails *)
Lemma periods_map : forall e t cs s s0, (tn_variable t = true \/ exists v, t_speed s = Some v /\ t_speed s0 = Some v) ->
  match fst (evaluate_periods e t cs s) with
  | Return l => Forall2 (fun c v => fst (evaluate_constraints e t c s0) = Return v) cs l
  | Raise x => exists before c after, cs = before ++ c :: after /\ fst (evaluate_constraints e t c s0) = Raise x /\
      forall b, In b before -> exists v, fst (evaluate_constraints e t b s0) = Return v
  end.
Proof.
  intros e t cs. induction cs as [|c cs IH]; intros s s0 St; cbn [evaluate_periods].
  - constructor.
  - unfold Search_Model.bind at 1. unfold reset_modifiers at 1, modify. set (s1 := fold_left _ _ _).
    assert (V1 : t_speed s1 = t_speed s) by (unfold s1; apply fold_reset_speed).
    assert (X : fst (evaluate_constraints e t c s0) = fst (evaluate_constraints e t c s1)).
    { apply evaluate_same. destruct St as [St|[w [W1 W2]]]; [now left|right; congruence]. }
    unfold Search_Model.bind at 1. destruct (evaluate_constraints e t c s1) as [[v|x] s2] eqn:E; cbn [fst] in *.
    + assert (St2 : tn_variable t = true \/ exists v, t_speed s2 = Some v /\ t_speed s0 = Some v).
      { destruct (tn_variable t) eqn:Var; [now left|]. right. destruct St as [St|[w [W1 W2]]]; [discriminate|].
        exists w. split; [|exact W2]. pose proof (evaluate_fixed_speed e t c s1 w Var) as Y. rewrite E in Y. apply Y. congruence. }
      specialize (IH s2 s0 St2). unfold Search_Model.bind at 1. destruct (evaluate_periods e t cs s2) as [[l|x] s3]; cbn [fst] in *.
      * constructor; assumption.
      * destruct IH as (before & c' & after & -> & E' & Hb). exists (c :: before), c', after. split; [reflexivity|]. split; [exact E'|].
        intros b [<-|Hb']; [now exists v|auto].
    + exists [], c, cs. split; [reflexivity|]. split; [exact X|]. intros b [].
Qed.

Lemma mapM_err : forall A B (f : A -> result B) before a after e, f a = Err e -> (forall b, In b before -> exists v, f b = Ok v) -> mapM f (before ++ a :: after) = Err e.
Proof.
  intros A B f before a after e E. induction before as [|b before IH]; intros H; cbn [app mapM].
  - now rewrite E.
  - destruct (H b ltac:(now left)) as (v & ->). cbn [Base.bind]. rewrite IH by (intros; apply H; now right). reflexivity.
Qed.
Theorem train_series_proof : forall d points state,
  tn_variable (dt_train d) = true \/ (exists v, t_speed (dt_state d) = Some v /\ t_speed state = Some v) ->
  let alone := co_run (train_compressor (mkDriven (dt_env d) (dt_train d) (dt_factor d) (dt_constant d) state)) in
  (forall outputs, train_evaluate d points = Ok outputs <-> Forall2 (fun p o => alone p = Ok o) points outputs) /\
  (forall e, train_evaluate d points = Err e -> exists p, In p points /\ alone p = Err e).
Proof.
  intros d points state St alone. subst alone. cbn [train_compressor co_run dt_env dt_train].
  set (alone := fun p => do c <- train_request (dt_train d) p; match fst (evaluate_constraints (dt_env d) (dt_train d) c state) with
     | Return v => Ok (train_output (mkDriven (dt_env d) (dt_train d) (dt_factor d) (dt_constant d) state) v) | Raise x => Err (error_of x) end).
  assert (To : forall v, train_output (mkDriven (dt_env d) (dt_train d) (dt_factor d) (dt_constant d) state) v = train_output d v) by reflexivity.
  assert (X : match train_evaluate d points with Ok outputs => Forall2 (fun p o => alone p = Ok o) points outputs | Err e => exists p, In p points /\ alone p = Err e end).
  { unfold train_evaluate. destruct (mapM (train_request (dt_train d)) points) as [cs|er] eqn:Em; cbn [Base.bind].
    - apply mapM_Ok in Em. pose proof (periods_map (dt_env d) (dt_train d) cs (dt_state d) state St) as P.
      destruct (fst (evaluate_periods (dt_env d) (dt_train d) cs (dt_state d))) as [l|x].
      + clear - Em P. revert l P. induction Em as [|p c ps cs H _ IH]; intros l P; inversion P; subst; [constructor|]. cbn [map]. constructor; [|auto].
        unfold alone. rewrite H. cbn [Base.bind]. match goal with E : fst _ = Return _ |- _ => rewrite E end. reflexivity.
      + destruct P as (before & c & after & -> & E & _). apply Forall2_app_inv_r in Em as (l1 & l2 & _ & H2 & ->). inversion H2 as [|p c' l3 cs' Hp _]; subst.
        exists p. split; [apply in_elt|]. unfold alone. rewrite Hp. cbn [Base.bind]. now rewrite E.
    - clear St. induction points as [|p ps IH]; [discriminate|]. cbn [mapM] in Em. destruct (train_request (dt_train d) p) as [c|er'] eqn:Ep; cbn [Base.bind] in Em.
      + destruct (mapM (train_request (dt_train d)) ps) as [cs|er'']; [discriminate|]. injection Em as ->. destruct (IH eq_refl) as (q & Hq & Eq). exists q. split; [now right|exact Eq].
      + injection Em as ->. exists p. split; [now left|]. unfold alone. now rewrite Ep. }
  split.
  - intros outputs. split; [intros E; rewrite E in X; exact X|]. intros F. change (Forall2 (fun p o => alone p = Ok o) points outputs) in F. destruct (train_evaluate d points) as [o|e].
    + f_equal. clear St. revert outputs F. induction X as [|p o1 ps os H _ IH]; intros outputs F; inversion F; subst; [reflexivity|]. f_equal; [congruence|auto].
    + exfalso. destruct X as (p & Hp & E). induction F as [|q o qs os H _ IH]; [destruct Hp|]. destruct Hp as [<-|Hp]; [congruence|auto].
  - intros e E. rewrite E in X. exact X.
Qed.

(** ** Sampled compressors *)
Lemma power_given : forall m rate ps pd res, evaluate_sampled m rate ps pd = Ok res ->
  if sampled_has_power (sa_samples m) then exists l, Sampled_Model.sr_power res = Some l else Sampled_Model.sr_power res = None.
Proof.
  intros m rate ps pd res E. unfold evaluate_sampled in E. destruct (interpolated_values m rate ps pd) as [us|]; [|discriminate]. cbn [Base.bind] in E. unfold sampled_has_power.
  destruct (fuel_to_power (sa_samples m)) as [[f|]|]; [| |discriminate]; cbn [Base.bind] in E; injection E as <-; cbn [Sampled_Model.sr_power]; destruct (sm_type (sa_samples m)); eauto.
Qed.
Theorem sampled_series_proof : forall m rates suction discharge points res, points_of rates suction discharge points ->
  evaluate_sampled m (Some rates) suction discharge = Ok res ->
  exists outputs, Forall2 (fun p o => co_run (sampled_compressor m) p = Ok o) points outputs /\
    map co_energy outputs = Sampled_Model.sr_usage res /\ map (fun o => compressor_valid (co_energy o) true o) outputs = Sampled_Model.sr_valid res /\
    Sampled_Model.sr_power res = (if co_has_power (sampled_compressor m) then Some (map co_power outputs) else None).
Proof.
  intros m rates suction discharge points res [Lp Hp] E.
  destruct (periods_length m (Some rates) suction discharge res E) as (_ & L1 & L2 & L3).
  pose proof (L1 rates (or_introl eq_refl)) as Lr.
  set (power := fun k => match Sampled_Model.sr_power res with Some l => match nth_error l k with Some w => w | None => None end | None => None end).
  assert (X : exists outputs, List.length outputs = List.length rates /\ forall k o, nth_error outputs k = Some o ->
    exists u v, nth_error (Sampled_Model.sr_usage res) k = Some u /\ nth_error (Sampled_Model.sr_valid res) k = Some v /\ o = sampled_output u (power k) v).
  { exists (map (fun k => sampled_output (match nth_error (Sampled_Model.sr_usage res) k with Some u => u | None => None end) (power k)
                           (match nth_error (Sampled_Model.sr_valid res) k with Some v => v | None => false end)) (seq 0 (List.length rates))).
    split; [now rewrite map_length, seq_length|]. intros k o Ho. assert (Hk : (k < List.length rates)%nat).
    { assert (Y : nth_error (map (fun k => sampled_output (match nth_error (Sampled_Model.sr_usage res) k with Some u => u | None => None end) (power k)
                           (match nth_error (Sampled_Model.sr_valid res) k with Some v => v | None => false end)) (seq 0 (List.length rates))) k <> None) by congruence.
      apply nth_error_Some in Y. now rewrite map_length, seq_length in Y. }
    rewrite nth_error_map in Ho. rewrite (nth_error_nth' _ 0%nat) in Ho by (now rewrite seq_length). rewrite seq_nth in Ho by exact Hk. cbn [option_map plus] in Ho. injection Ho as <-.
    destruct (nth_error (Sampled_Model.sr_usage res) k) as [u|] eqn:Eu; [|apply nth_error_None in Eu; lia].
    destruct (nth_error (Sampled_Model.sr_valid res) k) as [v|] eqn:Ev; [|apply nth_error_None in Ev; lia].
    exists u, v. auto. }
  destruct X as (outputs & Lo & Ho). exists outputs. split; [|split; [|split]].
  - apply f2_nth; [congruence|]. intros k p o Hk1 Hk2. destruct (Hp k p Hk1) as (r & Hr & P1 & P2 & P3). destruct (Ho k o Hk2) as (u & v & Hu & Hv & ->).
    destruct (periods_alone m (Some rates) suction discharge res k u E Hu) as (res' & b & E' & U' & B & V' & W1 & W2). rewrite Hv in B. injection B as <-.
    cbn [sampled_compressor co_run]. rewrite P1, P2, P3.
    assert (A1 : Sampled_Spec.alone (Some rates) k = Some [r]) by (cbn; now rewrite Hr).
    assert (A2 : forall l, (suction = Some l \/ discharge = Some l) -> exists x, nth_error l k = Some x).
    { intros l Hl. destruct (nth_error l k) as [x|] eqn:Ex; [eauto|]. apply nth_error_None in Ex. rewrite (L1 l) in Ex by tauto. assert ((k < List.length (Sampled_Model.sr_usage res))%nat) by (apply nth_error_Some; congruence). lia. }
    assert (A3 : forall s, s = suction \/ s = discharge -> Sampled_Spec.alone s k = option_map one (match s with Some l => nth_error l k | None => None end)).
    { intros s Hs. destruct s as [l|]; [|reflexivity]. destruct (A2 l) as (x & Hx); [destruct Hs; auto|]. cbn. now rewrite Hx. }
    rewrite A1, (A3 suction) in E' by now left. rewrite (A3 discharge) in E' by now right. rewrite E'. cbn [Base.bind]. rewrite U', V'. f_equal. f_equal.
    unfold power. destruct (Sampled_Model.sr_power res) as [l|]; [|now rewrite (W2 eq_refl)]. destruct (W1 l eq_refl) as (w & Hw & ->). now rewrite Hw.
  - apply list_ext_nth. intros k. rewrite nth_error_map. destruct (nth_error outputs k) as [o|] eqn:Eo; cbn [option_map].
    + destruct (Ho k o Eo) as (u & v & Hu & _ & ->). now rewrite Hu.
    + symmetry. apply nth_error_None. apply nth_error_None in Eo. lia.
  - apply list_ext_nth. intros k. rewrite nth_error_map. destruct (nth_error outputs k) as [o|] eqn:Eo; cbn [option_map].
    + destruct (Ho k o Eo) as (u & v & _ & Hv & ->). rewrite Hv. reflexivity.
    + symmetry. apply nth_error_None. apply nth_error_None in Eo. lia.
  - pose proof (power_given m (Some rates) suction discharge res E) as P. cbn [sampled_compressor co_has_power]. destruct (sampled_has_power (sa_samples m)); [|exact P].
    destruct P as (l & El). rewrite El. f_equal. apply list_ext_nth. intros k. rewrite nth_error_map. destruct (nth_error outputs k) as [o|] eqn:Eo; cbn [option_map].
    + destruct (Ho k o Eo) as (u & v & Hu & Hv & ->). cbn. unfold power. rewrite El. destruct (nth_error l k) as [w|] eqn:Ew; [reflexivity|].
      apply nth_error_None in Ew. rewrite (L3 l El) in Ew. assert ((k < List.length (Sampled_Model.sr_usage res))%nat) by (apply nth_error_Some; congruence). lia.
    + apply nth_error_None. apply nth_error_None in Eo. rewrite (L3 l El). lia.
Qed.

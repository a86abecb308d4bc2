From Coq Require Import List Bool ZArith Lia PeanoNat.
From Verif Require Import QcTac Base BaseLemmas Num Search_Model Stream_Model Stream_Spec Stream_Proofs Flash_Model Process_Model Process_Spec Process_Proofs Process_Proofs2.
Import ListNotations.
Local Open Scope Qc_scope.

(** ** Shaft *)

Lemma fold_max_le : forall l a v, fold_left Qcmax l a <= v <-> a <= v /\ Forall (fun x => x <= v) l.
Proof.
  induction l as [|x l IH]; intros a v; cbn [fold_left]; [intuition|]. rewrite IH. clear IH. split.
  - intros [H1 H2]. assert (a <= v /\ x <= v) as [] by (unfold Qcmax in H1; destruct (Qcleb a x) eqn:E; [apply Qcleb_le in E|apply Qcleb_gt in E]; split; qc_lra).
    auto.
  - intros [H1 H2]. inversion H2; subst. split; auto. unfold Qcmax. destruct (Qcleb a x); auto.
Qed.

Lemma fold_min_ge : forall l a v, v <= fold_left Qcmin l a <-> v <= a /\ Forall (fun x => v <= x) l.
Proof.
  induction l as [|x l IH]; intros a v; cbn [fold_left]; [intuition|]. rewrite IH. clear IH. split.
  - intros [H1 H2]. assert (v <= a /\ v <= x) as [] by (unfold Qcmin in H1; destruct (Qcleb a x) eqn:E; [apply Qcleb_le in E|apply Qcleb_gt in E]; split; qc_lra).
    auto.
  - intros [H1 H2]. inversion H2; subst. split; auto. unfold Qcmin. destruct (Qcleb a x); auto.
Qed.

Lemma speed_boundary_proof : forall charts,
  match speed_boundary charts with
  | Raise e => e = ValueErr /\ charts = []
  | Return b => charts <> [] /\
      forall v, (b_min b <= v /\ v <= b_max b) <-> (forall c, In c charts -> ch_min_speed c <= v /\ v <= ch_max_speed c)
  end.
Proof.
  intros [|c rest]; cbn [speed_boundary]; [auto|]. split; [discriminate|]. intros v. cbn [b_min b_max].
  rewrite fold_max_le, fold_min_ge, !Forall_map, !Forall_forall. split.
  - intros [[A1 A2] [B1 B2]] d [D|D]; [subst; auto|auto].
  - intros H. repeat split; try (apply H; cbn; auto); intros d D; apply H; cbn; auto.
Qed.

Lemma fold_speeds : forall cs v h,
  let h' := fold_left (fun h c => set_speed c v h) cs h in
  h_mix h' = h_mix h /\ h_split h' = h_split h /\ h_choke h' = h_choke h /\ h_shaft h' = h_shaft h /\ h_last h' = h_last h /\
  forall j, (In j cs -> h_speed h' j = Some v) /\ (~ In j cs -> h_speed h' j = h_speed h j).
Proof.
  induction cs as [|c cs IH]; intros v h; cbn [fold_left]; [cbn; intuition|].
  specialize (IH v (set_speed c v h)). cbv zeta in *. destruct IH as (H1 & H2 & H3 & H4 & H5 & H6).
  rewrite H1, H2, H3, H4, H5. cbn [h_mix h_split h_choke h_shaft h_last set_speed]. repeat split; auto.
  - intros I. destruct (in_dec Nat.eq_dec j cs) as [J|J]; [now apply H6|]. destruct (H6 j) as [_ K]. rewrite (K J). cbn. unfold upd.
    destruct I as [->|I]; [now rewrite Nat.eqb_refl|contradiction].
  - intros I. destruct (H6 j) as [_ K]. rewrite K by (intros J; apply I; cbn; auto). cbn. unfold upd.
    destruct (Nat.eqb c j) eqn:E; auto. apply Nat.eqb_eq in E. subst. exfalso. apply I. cbn. auto.
Qed.

(** What a heap looks like when the shaft [i] with compressors [cs] has been given speed [v]. *)
Definition runs_at (i : handler_id) (cs : list unit_id) (v : Qc) (h h' : heap) : Prop :=
  (forall j, In j cs -> h_speed h' j = Some v) /\ (forall j, ~ In j cs -> h_speed h' j = h_speed h j) /\
  h_shaft h' i = Some v /\ (forall j, j <> i -> h_shaft h' j = h_shaft h j) /\
  h_mix h' = h_mix h /\ h_split h' = h_split h /\ h_choke h' = h_choke h /\ h_last h' = h_last h.

Lemma apply_speed_runs : forall i cs v h, runs_at i cs v h (apply_speed i cs v h).
Proof.
  intros i cs v h. unfold apply_speed. pose proof (fold_speeds cs v (set_shaft i (Some v) h)) as H. cbv zeta in H.
  destruct H as (H1 & H2 & H3 & H4 & H5 & H6). unfold runs_at. rewrite H1, H2, H3, H4, H5.
  split; [intros; now apply H6|]. split; [intros j N; destruct (H6 j) as [_ K]; rewrite (K N); reflexivity|].
  cbn [h_shaft set_shaft]. unfold upd. split; [now rewrite Nat.eqb_refl|]. split; [|auto].
  intros j N. replace (Nat.eqb i j) with false; auto. symmetry. apply Nat.eqb_neq. auto.
Qed.

Lemma variable_speed_proof : forall r i cs v h, dict_get Nat.eqb i (r_handlers r) = Some (VariableSpeedShaft cs) ->
  exists h', apply_configuration r (i, SpeedSetting v) h = (Return tt, h') /\ runs_at i cs v h h'.
Proof.
  intros r i cs v h D. unfold apply_configuration. cbn [fst snd]. rewrite D. cbn [handle]. eexists. split; [reflexivity|].
  apply apply_speed_runs.
Qed.

Lemma single_speed_proof : forall r i cs v h, dict_get Nat.eqb i (r_handlers r) = Some (SingleSpeedShaft cs) ->
  match h_shaft h i with
  | None => exists h', apply_configuration r (i, SpeedSetting v) h = (Return tt, h') /\ runs_at i cs v h h'
  | Some w => apply_configuration r (i, SpeedSetting v) h = (if Qceqb v w then Return tt else Raise AttributeErr, h)
  end.
Proof.
  intros r i cs v h D. unfold apply_configuration. cbn [fst snd]. rewrite D. cbn [handle]. destruct (h_shaft h i) as [w|].
  - destruct (Qceqb v w); reflexivity.
  - eexists. split; [reflexivity|]. apply apply_speed_runs.
Qed.

Lemma reset_shaft_proof : forall r i cs h,
  dict_get Nat.eqb i (r_handlers r) = Some (SingleSpeedShaft cs) \/ dict_get Nat.eqb i (r_handlers r) = Some (VariableSpeedShaft cs) ->
  exists h', reset_configuration r i h = (Return tt, h') /\ h_shaft h' i = None /\ h_speed h' = h_speed h.
Proof.
  intros r i cs h [D|D]; unfold reset_configuration; rewrite D; (eexists; split; [reflexivity|]); cbn; unfold upd; rewrite Nat.eqb_refl; auto.
Qed.

Lemma connect_proof : forall cs c,
  match connect cs c with
  | Ok cs' => ~ In c cs /\ cs' = cs ++ [c]
  | Err e => In c cs /\ e = ProgrammingError
  end.
Proof.
  intros cs c. unfold connect. destruct (existsb (Nat.eqb c) cs) eqn:E.
  - apply existsb_exists in E. destruct E as (x & I & E). apply Nat.eqb_eq in E. subst. auto.
  - split; auto. intros I. assert (X : existsb (Nat.eqb c) cs = true) by (apply existsb_exists; exists c; split; [auto|apply Nat.eqb_refl]). congruence.
Qed.

(** ** Other units *)

(** A choke with a pressure change [d], or a pressure dropper: the inlet pressure error exactly when the drop exceeds the pressure. *)
Lemma drop_proof : forall ph d s, consistent_service (ph_service ph) -> served (ph_service ph) s -> 0 <= s_mass_rate s -> 0 <= d ->
  match drop_pressure ph d s with
  | Return s' => d <= s_pressure s \/ d = 0
  | Raise e => e = InletPressureError /\ s_pressure s < d \/ flash_pt (ph_service ph) (s_model s) (s_pressure s - d) (s_temperature s) = Raise e
  end /\
  (0 < d -> s_pressure s < d -> drop_pressure ph d s = Raise InletPressureError) /\
  (forall s', drop_pressure ph d s = Return s' ->
     s_pressure s' = s_pressure s - d /\ s_temperature s' = s_temperature s /\ same_flow s s').
Proof.
  intros ph d s C V M D. split; [|split].
  - unfold drop_pressure. destruct (Qcltb 0 d) eqn:E.
    + cbv zeta. destruct (Qcltb (s_pressure s - d) 0) eqn:E2.
      * left. split; auto. apply Qcltb_lt in E2. qc_lra.
      * apply Qcltb_ge in E2. unfold create_stream_from_standard_rate, create_fluid.
        destruct (flash_pt (ph_service ph) (s_model s) (s_pressure s - d) (s_temperature s)) as [q|] eqn:F; cbn [obind]; [|auto].
        rewrite new_stream_spec. rewrite served_mass by auto. rewrite (proj2 (Qcltb_ge _ _) M). left. qc_lra.
    + right. apply Qcltb_ge in E. apply Qcle_antisym; auto.
  - intros P L. unfold drop_pressure. rewrite (proj2 (Qcltb_lt _ _) P). cbv zeta. replace (Qcltb _ 0) with true; auto.
    symmetry. apply Qcltb_lt. qc_lra.
  - intros s' H. apply drop_pressure_ok in H; auto. destruct H as (_ & F & P & T). repeat split; try apply F; auto.
    rewrite P. destruct (Qcltb 0 d) eqn:E; auto. apply Qcltb_ge in E. assert (d = 0) by (apply Qcle_antisym; auto). subst. ring.
Qed.

(** A choke handler accepts only pressure changes that are not negative. *)
Lemma choke_handler_proof : forall r i c v h, dict_get Nat.eqb i (r_handlers r) = Some (ChokeHandler c) ->
  (v < 0 -> apply_configuration r (i, ChokeSetting v) h = (Raise ValueErr, h)) /\
  (0 <= v -> exists h', apply_configuration r (i, ChokeSetting v) h = (Return tt, h') /\ h_choke h' c = v /\
     (forall j, j <> c -> h_choke h' j = h_choke h j) /\ h_speed h' = h_speed h /\ h_mix h' = h_mix h /\ h_split h' = h_split h).
Proof.
  intros r i c v h D. unfold apply_configuration. cbn [fst snd]. rewrite D. cbn [handle]. split; intros H.
  - now rewrite (proj2 (Qcltb_lt _ _) H).
  - rewrite (proj2 (Qcltb_ge _ _) H). eexists. split; [reflexivity|]. cbn. unfold upd. rewrite Nat.eqb_refl. repeat split.
    intros j N. replace (Nat.eqb c j) with false; auto. symmetry. apply Nat.eqb_neq. auto.
Qed.

(** What a splitter passes on and what it splits off add up to what came in. *)
Lemma splitter_proof : forall ph rate s, consistent_service (ph_service ph) -> served (ph_service ph) s ->
  (standard_rate s < rate -> splitter_propagate ph rate s = Raise OfftakeError) /\
  (splitter_propagate ph rate s = Raise OfftakeError -> standard_rate s < rate \/
     flash_pt (ph_service ph) (s_model s) (s_pressure s) (s_temperature s) = Raise OfftakeError) /\
  (forall remaining split, splitter_propagate ph rate s = Return remaining -> split_stream ph rate s = Return split ->
     s_mass_rate remaining + s_mass_rate split = s_mass_rate s /\ standard_rate remaining + standard_rate split = standard_rate s /\
     standard_rate split = rate /\
     s_pressure remaining = s_pressure s /\ s_temperature remaining = s_temperature s /\ s_model remaining = s_model s /\
     s_pressure split = s_pressure s /\ s_temperature split = s_temperature s /\ s_model split = s_model s).
Proof.
  intros ph rate s C V. split; [|split].
  - intros L. unfold splitter_propagate. cbv zeta. replace (Qcltb _ 0) with true; auto. symmetry. apply Qcltb_lt. qc_lra.
  - unfold splitter_propagate. cbv zeta. destruct (Qcltb _ 0) eqn:E; [intros _; left; apply Qcltb_lt in E; qc_lra|].
    unfold create_stream_from_standard_rate, create_fluid. destruct (flash_pt _ _ _ _) as [q|] eqn:F; cbn [obind].
    + rewrite new_stream_spec. destruct (Qcltb (standard_rate_to_mass_rate (ph_service ph) (s_model s) (standard_rate s - rate)) 0); discriminate.
    + intros X. right. congruence.
  - intros a b A B. unfold splitter_propagate in A. cbv zeta in A. destruct (Qcltb _ 0); [discriminate|].
    apply standard_stream_ok in A; auto. unfold split_stream in B. apply standard_stream_ok in B; auto.
    destruct A as (A1 & A2 & A3 & A4 & A5 & _). destruct B as (B1 & B2 & B3 & B4 & B5 & _).
    pose proof (served_mass _ s C V) as W.
    destruct C as (C0 & _). assert (D := pos_neq _ (C0 (s_model s))). assert (H : qz 24 <> 0) by (apply pos_neq; vm_compute; reflexivity).
    unfold standard_rate_to_mass_rate in *.
    assert (SA : standard_rate a = standard_rate s - rate).
    { unfold standard_rate at 1. unfold served in A4. rewrite A4, A1, A5. unfold hours_per_day. field. auto. }
    assert (SB : standard_rate b = rate).
    { unfold standard_rate at 1. unfold served in B4. rewrite B4, B1, B5. unfold hours_per_day. field. auto. }
    repeat split; auto.
    + rewrite A5, B5, <- W. field. auto.
    + rewrite SA, SB. ring.
Qed.

Lemma temperature_proof : forall ph t s s', consistent_service (ph_service ph) -> served (ph_service ph) s ->
  temperature_propagate ph t s = Return s' -> s_temperature s' = t /\ s_pressure s' = s_pressure s /\ same_flow s s'.
Proof. intros ph t s s' C V H. apply temperature_ok in H; tauto. Qed.

(** A liquid remover keeps the vapour: with the phase model of the fluid service returning the gas phase at the same conditions,
    the mass that leaves is the inlet mass times the mass fraction of the vapour. *)
Lemma liquid_remover_proof : forall ph s s', remove_liquid_propagate ph s = Return s' ->
  (pure_vapor_threshold <= s_vapor_fraction s /\ s' = s) \/
  (s_vapor_fraction s < pure_vapor_threshold /\ exists gas, remove_liquid (ph_service ph) (s_fluid s) = Return gas /\
     s_fluid s' = gas /\ 0 < s_molar_mass s /\
     s_mass_rate s' = s_mass_rate s * (s_vapor_fraction s * p_molar_mass (f_properties gas) / s_molar_mass s)).
Proof.
  intros ph s s' H. unfold remove_liquid_propagate in H. destruct (Qcltb (s_vapor_fraction s) _) eqn:E.
  - right. apply Qcltb_lt in E. split; auto. destruct (remove_liquid _ _) as [gas|] eqn:R; [|discriminate]. cbn [obind] in H.
    exists gas. split; auto. destruct (Qcltb 0 (s_molar_mass s)) eqn:P; [|discriminate]. apply Qcltb_lt in P. cbv zeta in H.
    destruct (with_new_fluid s gas) as [s1|] eqn:W; [|discriminate]. cbn [obind] in H. apply with_new_fluid_ok in W. destruct W as [W _].
    unfold with_mass_rate in H. rewrite new_stream_spec in H. destruct (Qcltb _ 0); [discriminate|]. subst s1. cbn [s_fluid] in H.
    assert (X := f_equal (fun o => match o with Return x => Some (s_fluid x) | _ => None end) H).
    assert (Y := f_equal (fun o => match o with Return x => Some (s_mass_rate x) | _ => None end) H).
    cbn [s_fluid s_mass_rate] in X, Y. repeat split; auto; congruence.
  - left. apply Qcltb_ge in E. split; congruence.
Qed.

From Coq Require Import List Bool ZArith Lia PeanoNat.
From Verif Require Import QcTac Base BaseLemmas Num Search_Model Stream_Model Stream_Spec Stream_Proofs Flash_Model Process_Model Process_Spec.
Import ListNotations.
Local Open Scope Qc_scope.

(** ** The compressor outlet *)

(** [out] is [inlet] with the fluid of a validated PH flash at the target enthalpy and some positive pressure. *)
Definition flashed (ph : physics) (inlet : stream) (target : Qc) (out : stream) : Prop :=
  exists pressure props, 0 < pressure /\
    flash_ph (ph_service ph) (s_model inlet) pressure target (Some (s_temperature inlet)) = Return props /\
    validate_ph props target = Return tt /\
    out = mk_stream (mk_fluid (s_model inlet) props) (s_mass_rate inlet) /\ 0 <= s_mass_rate inlet.

Lemma require_positive_ok : forall v x, require_positive v = Return x -> v = Some x /\ 0 < x.
Proof.
  intros [y|] x; cbn; [|discriminate]. destruct (Qcleb y 0) eqn:E; [discriminate|]. intros H.
  assert (y = x) by congruence. subst. split; auto. now apply Qcleb_gt.
Qed.

Lemma compressor_flash_ok : forall ph inlet p t props, compressor_flash ph inlet p t = Return props ->
  flash_ph (ph_service ph) (s_model inlet) p t (Some (s_temperature inlet)) = Return props /\ validate_ph props t = Return tt.
Proof.
  intros ph inlet p t props. unfold compressor_flash.
  destruct (flash_ph _ _ _ _ _) as [q|e] eqn:E.
  - destruct (validate_ph q t) as [[]|] eqn:V; [|discriminate]. intros H. assert (q = props) by congruence. subst. auto.
  - destruct e; discriminate.
Qed.

Lemma with_new_fluid_ok : forall s f s', with_new_fluid s f = Return s' -> s' = mk_stream f (s_mass_rate s) /\ 0 <= s_mass_rate s.
Proof.
  intros s f s'. unfold with_new_fluid. rewrite new_stream_spec. destruct (Qcltb (s_mass_rate s) 0) eqn:E; [discriminate|].
  intros H. split; [congruence|]. now apply Qcltb_ge.
Qed.

Lemma flashed_step : forall ph inlet target pressure next,
  0 < pressure ->
  (let! props := compressor_flash ph inlet pressure target in with_new_fluid inlet (mk_fluid (s_model inlet) props)) = Return next ->
  flashed ph inlet target next.
Proof.
  intros ph inlet target pressure next Hp H. destruct (compressor_flash ph inlet pressure target) as [props|] eqn:E; [|discriminate].
  cbn in H. apply compressor_flash_ok in E. destruct E as [E V]. apply with_new_fluid_ok in H. destruct H as [H M].
  exists pressure, props. repeat split; auto.
Qed.

Lemma outlet_loop_flashed : forall ph e hd inlet target n current pressure s out,
  flashed ph inlet target current -> outlet_loop ph e hd inlet target n current pressure s = Return out ->
  flashed ph inlet target out.
Proof.
  intros ph e hd inlet target. induction n as [|n IH]; intros current pressure s out F H; cbn [outlet_loop] in H.
  - assert (current = out) by congruence. now subst.
  - destruct (require_positive (ph_campbell _ _ _ _ _ _ _ _)) as [raw|] eqn:E1; [|discriminate]. cbn [obind] in H.
    destruct (adaptive_pressure_update pressure raw s) as [damped s'] eqn:E2.
    destruct (require_positive (Some damped)) as [d|] eqn:E3; [|discriminate]. cbn [obind] in H.
    apply require_positive_ok in E3. destruct E3 as [E3 P3].
    destruct (compressor_flash ph inlet d target) as [props|] eqn:E4; [|discriminate]. cbn [obind] in H.
    destruct (with_new_fluid inlet (mk_fluid (s_model inlet) props)) as [next|] eqn:E5; [|discriminate]. cbn [obind] in H.
    assert (F' : flashed ph inlet target next).
    { apply flashed_step with (pressure := d); auto. rewrite E4. cbn [obind]. auto. }
    destruct (Qcltb _ _); [assert (next = out) by congruence; now subst|]. eapply IH; eauto.
Qed.

Lemma compressor_outlet_flashed : forall ph e hd inlet out, compressor_outlet ph e hd inlet = Return out ->
  e <> 0 /\ flashed ph inlet (s_enthalpy inlet + hd / e) out.
Proof.
  intros ph e hd inlet out H. unfold compressor_outlet in H.
  destruct (require_positive _) as [g|] eqn:E1; [|discriminate]. cbn [obind] in H. apply require_positive_ok in E1.
  destruct E1 as [_ P]. cbv zeta in H. destruct (Qceqb e 0) eqn:E0; [discriminate|]. apply Qceqb_neq in E0. split; auto.
  set (g' := if Qcltb max_first_guess g then max_first_guess else g) in *.
  assert (P' : 0 < g').
  { unfold g'. destruct (Qcltb _ _); auto. vm_compute. reflexivity. }
  destruct (compressor_flash ph inlet g' _) as [props|] eqn:E4; [|discriminate]. cbn [obind] in H.
  destruct (with_new_fluid inlet (mk_fluid (s_model inlet) props)) as [next|] eqn:E5; [|discriminate]. cbn [obind] in H.
  eapply outlet_loop_flashed; [|exact H]. apply flashed_step with (pressure := g'); auto. rewrite E4. cbn [obind]. auto.
Qed.

(** ** Flow through units that keep it *)

Lemma served_mass : forall sv s, consistent_service sv -> served sv s ->
  standard_rate_to_mass_rate sv (s_model s) (standard_rate s) = s_mass_rate s.
Proof.
  intros sv s C V. unfold standard_rate_to_mass_rate, standard_rate. unfold served in V. rewrite V. destruct C as [C _].
  unfold hours_per_day. field. split; [apply pos_neq, C|]; intro H; discriminate H.
Qed.

Lemma same_rate : forall sv a b, served sv a -> served sv b -> s_model a = s_model b -> s_mass_rate a = s_mass_rate b -> same_flow a b.
Proof. intros sv a b A B M R. unfold same_flow, standard_rate. unfold served in *. rewrite A, B, M, R. auto. Qed.

Lemma same_flow_refl : forall a, same_flow a a.
Proof. intros. unfold same_flow. auto. Qed.
Lemma same_flow_trans : forall a b c, same_flow a b -> same_flow b c -> same_flow a c.
Proof. unfold same_flow. intros a b c (A1 & A2 & A3) (B1 & B2 & B3). repeat split; congruence. Qed.

Lemma standard_stream_ok : forall sv m p t r s, consistent_service sv ->
  create_stream_from_standard_rate sv m p t r = Return s ->
  s_model s = m /\ s_pressure s = p /\ s_temperature s = t /\ served sv s /\ s_mass_rate s = standard_rate_to_mass_rate sv m r /\ 0 <= s_mass_rate s.
Proof.
  intros sv m p t r s (C0 & C1 & C2) H. unfold create_stream_from_standard_rate, create_fluid in H.
  destruct (flash_pt sv m p t) as [props|] eqn:E; [|discriminate]. cbn [obind] in H. rewrite new_stream_spec in H.
  destruct (Qcltb _ 0) eqn:N; [discriminate|]. assert (S : s = mk_stream (mk_fluid m props) (standard_rate_to_mass_rate sv m r)) by congruence.
  subst s. apply C1 in E. destruct E as (E1 & E2 & E3 & E4). apply Qcltb_ge in N. unfold served, s_standard_density, s_model, s_pressure, s_temperature. cbn [s_fluid f_model f_properties s_mass_rate]. repeat split; auto.
Qed.

Lemma drop_pressure_ok : forall ph d s s', consistent_service (ph_service ph) -> served (ph_service ph) s ->
  drop_pressure ph d s = Return s' ->
  served (ph_service ph) s' /\ same_flow s s' /\ (s_pressure s' = if Qcltb 0 d then s_pressure s - d else s_pressure s) /\
  s_temperature s' = s_temperature s.
Proof.
  intros ph d s s' C V H. unfold drop_pressure in H. destruct (Qcltb 0 d) eqn:E.
  - cbv zeta in H. destruct (Qcltb (s_pressure s - d) 0) eqn:E2; [discriminate|]. apply standard_stream_ok in H; auto.
    destruct H as (H1 & H2 & H3 & H4 & H5 & H6). split; [auto|]. split; [|auto]. apply same_rate with (ph_service ph); auto.
    rewrite H5. symmetry. now apply served_mass.
  - assert (s = s') by congruence. subst. split; auto. split; auto. apply same_flow_refl.
Qed.

Lemma temperature_ok : forall ph t s s', consistent_service (ph_service ph) -> served (ph_service ph) s ->
  temperature_propagate ph t s = Return s' ->
  served (ph_service ph) s' /\ same_flow s s' /\ s_pressure s' = s_pressure s /\ s_temperature s' = t.
Proof.
  intros ph t s s' C V H. unfold temperature_propagate in H. destruct (Qceqb (s_temperature s) t) eqn:E; cbn [negb] in H.
  - assert (s = s') by congruence. subst. apply Qceqb_eq in E. split; [auto|]. split; [apply same_flow_refl|auto].
  - unfold create_fluid in H. destruct (flash_pt _ _ _ _) as [props|] eqn:F; [|discriminate]. cbn [obind] in H.
    apply with_new_fluid_ok in H. destruct H as [H _]. destruct C as (C0 & C1 & C2). apply C1 in F. destruct F as (F1 & F2 & F3 & F4).
    assert (V' : served (ph_service ph) s') by (subst s'; exact F3).
    split; auto. split; [|subst s'; split; [exact F1|exact F2]]. apply same_rate with (ph_service ph); subst s'; auto.
Qed.

Lemma flashed_same : forall ph s t s', consistent_service (ph_service ph) -> served (ph_service ph) s -> flashed ph s t s' ->
  served (ph_service ph) s' /\ same_flow s s'.
Proof.
  intros ph s t s' (C0 & C1 & C2) V (p & props & P & F & W & E & M). apply C2 in F. destruct F as (F1 & F2 & F3).
  assert (V' : served (ph_service ph) s') by (subst s'; exact F2). split; auto.
  apply same_rate with (ph_service ph); subst s'; auto.
Qed.

Lemma compressor_propagate_ok : forall ph h i c s s', compressor_propagate ph h i c s = Return s' ->
  pure_vapor_threshold <= s_vapor_fraction s /\
  exists speed hd e, h_speed h i = Some speed /\ ch_min_rate c speed <= volumetric_rate s /\ volumetric_rate s <= ch_max_rate c speed /\
    ch_point c speed (volumetric_rate s) = Return (hd, e) /\ compressor_outlet ph e hd s = Return s'.
Proof.
  intros ph h i c s s' H. unfold compressor_propagate in H. destruct (Qcltb (s_vapor_fraction s) _) eqn:E1; [discriminate|].
  apply Qcltb_ge in E1. split; auto. cbv zeta in H. unfold compressor_speed in H.
  destruct (h_speed h i) as [speed|] eqn:E2; [|discriminate]. cbn [obind] in H.
  destruct (Qcltb (volumetric_rate s) _) eqn:E3; [discriminate|]. apply Qcltb_ge in E3.
  destruct (Qcltb (ch_max_rate c speed) _) eqn:E4; [discriminate|]. apply Qcltb_ge in E4.
  destruct (ch_point c speed (volumetric_rate s)) as [[hd e]|] eqn:E5; [|discriminate]. cbn [obind] in H.
  exists speed, hd, e. auto 10.
Qed.

Lemma unit_keeps_flow : forall ph h i k s s', consistent_service (ph_service ph) -> served (ph_service ph) s -> keeps_flow k ->
  propagate ph h (i, k) s = Return s' -> served (ph_service ph) s' /\ same_flow s s'.
Proof.
  intros ph h i k s s' C V K H. destruct k; cbn [keeps_flow] in K; try contradiction; cbn [propagate] in H.
  - apply compressor_propagate_ok in H. destruct H as (_ & speed & hd & e & _ & _ & _ & _ & H).
    apply compressor_outlet_flashed in H. destruct H as [_ H]. eapply flashed_same; eauto.
  - apply drop_pressure_ok in H; auto. tauto.
  - apply drop_pressure_ok in H; auto. tauto.
  - apply temperature_ok in H; auto. tauto.
  - assert (s = s') by congruence. subst. split; auto. apply same_flow_refl.
  - assert (s = s') by congruence. subst. split; auto. apply same_flow_refl.
Qed.

Lemma propagate_many_app : forall ph h a b s,
  propagate_many ph h (a ++ b) s = let! s' := propagate_many ph h a s in propagate_many ph h b s'.
Proof.
  intros ph h. induction a as [|u a IH]; intros b s; cbn [app propagate_many obind]; auto.
  destruct (propagate ph h u s); cbn [obind]; auto.
Qed.

Lemma add_rate_ok : forall r s s', add_rate r s = Return s' ->
  s' = mk_stream (s_fluid s) (s_mass_rate s + r * s_standard_density s / hours_per_day).
Proof. intros r s s'. unfold add_rate, with_mass_rate. rewrite new_stream_spec. destruct (Qcltb _ 0); congruence. Qed.
Lemma subtract_rate_ok : forall r s s', subtract_rate r s = Return s' ->
  s' = mk_stream (s_fluid s) (s_mass_rate s - r * s_standard_density s / hours_per_day).
Proof. intros r s s'. unfold subtract_rate, with_mass_rate. rewrite new_stream_spec. destruct (Qcltb _ 0); congruence. Qed.

Lemma with_loops_flow : forall ph h us, consistent_service (ph_service ph) -> with_loops h us -> forall s s',
  served (ph_service ph) s -> propagate_many ph h us s = Return s' -> served (ph_service ph) s' /\ same_flow s s'.
Proof.
  intros ph h us C W. induction W as [|i k us K W IH|m sp inner us E N WI IHI WU IHU]; intros s s' V H.
  - cbn in H. assert (s = s') by congruence. subst. split; auto. apply same_flow_refl.
  - cbn [propagate_many] in H. destruct (propagate ph h (i, k) s) as [s1|] eqn:P; [|discriminate]. cbn [obind] in H.
    apply unit_keeps_flow in P; auto. destruct P as [V1 F1]. apply IH in H; auto. destruct H as [V2 F2].
    split; auto. eapply same_flow_trans; eauto.
  - cbn [propagate_many] in H. destruct (propagate ph h (m, DirectMixer) s) as [s1|] eqn:P; [|discriminate]. cbn [obind] in H.
    cbn [propagate] in P. apply add_rate_ok in P. rewrite propagate_many_app in H.
    destruct (propagate_many ph h inner s1) as [s2|] eqn:P2; [|discriminate]. cbn [obind propagate_many] in H.
    destruct (propagate ph h (sp, DirectSplitter) s2) as [s3|] eqn:P3; [|discriminate]. cbn [obind] in H.
    cbn [propagate] in P3. apply subtract_rate_ok in P3.
    assert (V1 : served (ph_service ph) s1) by (subst s1; exact V).
    apply IHI in P2; auto. destruct P2 as [V2 F2].
    assert (V3 : served (ph_service ph) s3) by (subst s3; exact V2).
    apply IHU in H; auto. destruct H as [V4 F4]. split; auto.
    eapply same_flow_trans; [|exact F4]. destruct F2 as (M2 & R2 & _).
    apply same_rate with (ph_service ph); auto.
    + subst s3 s1. cbn in *. exact M2.
    + subst s3. cbn [s_mass_rate]. rewrite <- R2. unfold served in V2. rewrite V2, <- M2, <- E. subst s1.
      cbn [s_mass_rate]. unfold served in V. rewrite V. unfold s_model. cbn [s_fluid]. ring.
Qed.

(** A loop as such never fails: its mixer takes a non-negative rate, and its splitter can give back what the mixer added. *)
Lemma loop_total : forall ph h m sp inner s, consistent_service (ph_service ph) -> served (ph_service ph) s ->
  with_loops h inner -> h_mix h m = h_split h sp -> 0 <= h_mix h m -> 0 <= s_mass_rate s ->
  exists s1, add_rate (h_mix h m) s = Return s1 /\ standard_rate s1 = standard_rate s + h_mix h m /\ s_fluid s1 = s_fluid s /\
    match propagate_many ph h inner s1 with
    | Raise e => propagate_many ph h ((m, DirectMixer) :: inner ++ [(sp, DirectSplitter)]) s = Raise e
    | Return s2 => exists s3, propagate_many ph h ((m, DirectMixer) :: inner ++ [(sp, DirectSplitter)]) s = Return s3 /\
                    same_flow s s3 /\ s_fluid s3 = s_fluid s2
    end.
Proof.
  intros ph h m sp inner s C V W E N R.
  assert (D : 0 < s_standard_density s) by (rewrite V; apply C).
  assert (D24 : 0 <= h_mix h m * s_standard_density s / hours_per_day).
  { apply Qcltb_ge. rewrite rate_sign; auto. now apply Qcltb_ge. }
  set (s1 := mk_stream (s_fluid s) (s_mass_rate s + h_mix h m * s_standard_density s / hours_per_day)).
  assert (A1 : add_rate (h_mix h m) s = Return s1).
  { unfold add_rate, with_mass_rate. rewrite new_stream_spec. replace (Qcltb _ 0) with false; auto. symmetry. apply Qcltb_ge. qc_lra. }
  exists s1. split; [exact A1|]. split.
  { unfold s1, standard_rate. unfold s_standard_density. cbn [s_mass_rate s_fluid]. fold (s_standard_density s). unfold hours_per_day. field.
    split; first [now apply pos_neq | intro X; discriminate X]. }
  split; [reflexivity|].
  cbn [propagate_many propagate]. rewrite A1. cbn [obind]. rewrite propagate_many_app.
  destruct (propagate_many ph h inner s1) as [s2|] eqn:P; cbn [obind]; auto.
  pose proof (with_loops_flow ph h inner C W s1 s2 V P) as [V2 F2]. destruct F2 as (M2 & R2 & _).
  assert (Ds : s_standard_density s2 = s_standard_density s).
  { unfold served in *. rewrite V2, V. rewrite <- M2. reflexivity. }
  cbn [propagate_many propagate]. unfold subtract_rate, with_mass_rate. rewrite new_stream_spec.
  rewrite <- E, <- R2, Ds. unfold s1. cbn [s_mass_rate].
  replace (Qcltb _ 0) with false by (symmetry; apply Qcltb_ge; qc_lra). cbn [obind].
  eexists. split; [reflexivity|]. split; [|reflexivity].
  apply same_rate with (ph_service ph); auto. cbn [s_mass_rate]. ring.
Qed.

Lemma recirculation_proof : forall ph r i m sp inner rate h h' s,
  consistent_service (ph_service ph) -> served (ph_service ph) s -> 0 <= s_mass_rate s -> 0 <= rate ->
  dict_get Nat.eqb i (r_handlers r) = Some (RecirculationLoop m sp) ->
  r_units r = (m, DirectMixer) :: inner ++ [(sp, DirectSplitter)] ->
  apply_configuration r (i, RecirculationSetting rate) h = (Return tt, h') -> with_loops h' inner ->
  exists inside, s_fluid inside = s_fluid s /\ standard_rate inside = standard_rate s + rate /\
    match propagate_many ph h' inner inside with
    | Return out => exists s', run ph r s h' = (Return s', h') /\ same_flow s s' /\ s_fluid s' = s_fluid out
    | Raise e => run ph r s h' = (Raise e, h')
    end.
Proof.
  intros ph r i m sp inner rate h h' s C V R N D U A W.
  unfold apply_configuration in A. cbn [fst snd] in A. rewrite D in A. cbn [handle] in A.
  assert (h' = set_recirculation m sp rate h) by congruence.
  assert (Hm : h_mix h' m = rate) by (subst h'; cbn; unfold upd; now rewrite Nat.eqb_refl).
  assert (Hs : h_split h' sp = rate) by (subst h'; cbn; unfold upd; now rewrite Nat.eqb_refl).
  destruct (loop_total ph h' m sp inner s) as (s1 & A1 & S1 & F1 & X); auto; try congruence; try (rewrite Hm; auto).
  exists s1. split; auto. split; [now rewrite S1, Hm|]. unfold run. rewrite U.
  destruct (propagate_many ph h' inner s1) as [s2|e].
  - destruct X as (s3 & X & Y & Z). exists s3. split; [|auto]. exact (f_equal (fun o => (o, h')) X).
  - exact (f_equal (fun o => (o, h')) X).
Qed.

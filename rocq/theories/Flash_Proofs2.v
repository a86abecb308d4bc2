(** The fluid service: accuracy of cached answers, and cases. *)
From Coq Require Import List Bool ZArith Lia PeanoNat Qround.
From Verif Require Import QcTac Num Base BaseLemmas Search_Model Stream_Model Stream_Spec Stream_Proofs Cache_Model Cache_Proofs Flash_Model Flash_Spec Flash_Proofs.
Import ListNotations.
Local Open Scope list_scope.
Local Open Scope Qc_scope.

Lemma qz_pos : forall n, (0 < n)%Z -> 0 < qz n.
Proof. intros n H. apply Qclt_this. unfold qz. rewrite !this_Q2Qc. change (inject_Z 0 < inject_Z n)%Q. rewrite <- Zlt_Qlt. exact H. Qed.
Lemma py_round_close : forall scale x y, (0 < scale)%Z -> py_round scale x = py_round scale y -> Qcabs (x - y) <= 1 / qz scale.
Proof.
  intros scale x y Hs H. pose proof (qz_pos scale Hs) as Hp. unfold py_round in H.
  assert (Hn : qz (nearest (x * qz scale)) = qz (nearest (y * qz scale))).
  { apply (f_equal (fun z => z * qz scale)) in H. unfold Qcdiv in H. rewrite <- !Qcmult_assoc, Qcmult_inv_l in H by (intros E; rewrite E in Hp; qc_lra).
    rewrite !Qcmult_1_r in H. exact H. }
  pose proof (nearest_close (x * qz scale)) as Hx. pose proof (nearest_close (y * qz scale)) as Hy. rewrite <- Hn in Hy.
  set (n := qz (nearest (x * qz scale))) in *. clearbody n. set (q := qz scale) in *. clearbody q. clear H Hn.
  assert (Hd : Qcabs (x - y) * q <= 1).
  { unfold qc in *. unfold Qcabs in *. destruct (Qcleb 0 (x - y)) eqn:E1; [apply Qcleb_le in E1|apply Qcleb_gt in E1];
    destruct (Qcleb 0 (n - x * q)) eqn:E2; destruct (Qcleb 0 (n - y * q)) eqn:E3;
    repeat match goal with H : Qcleb _ _ = true |- _ => apply Qcleb_le in H | H : Qcleb _ _ = false |- _ => apply Qcleb_gt in H end; qc_lra. }
  apply Qcmult_lt_0_le_reg_r with q; [assumption|]. replace (1 / q * q) with 1; [exact Hd|]. field. intros E; rewrite E in Hp; qc_lra.
Qed.
Lemma six_close : forall x y, six_decimals x = six_decimals y -> within_millionth x y.
Proof.
  intros x y H. unfold within_millionth. replace (qc 1 1000000) with (1 / qz 1000000) by (apply Qc_is_canon; vm_compute; reflexivity).
  apply py_round_close; [reflexivity|exact H].
Qed.
Lemma within_refl : forall x, within_millionth x x.
Proof. intros x. unfold within_millionth. replace (x - x) with 0 by ring. vm_compute. discriminate. Qed.
Lemma within_sym : forall x y, within_millionth x y -> within_millionth y x.
Proof. intros x y. unfold within_millionth. replace (y - x) with (- (x - y)) by ring. intros H. unfold qc in *. qc_cases; qc_lra. Qed.

Lemma fresh_properties_read : forall (Sys : Type) (E : @engine Sys) md m s p, fresh_properties E md m s = Return p ->
  p_pressure p = e_pressure E s /\ p_temperature p = e_temperature E s.
Proof.
  intros Sys E md m s p H. unfold fresh_properties in H. destruct (molar_mass_mixture _) as [mm|]; [|discriminate]. cbn [obind] in H.
  destruct (fresh_density E md) as [d|]; [|discriminate]. cbn [obind] in H. injection H as <-. split; reflexivity.
Qed.
Lemma fresh_pt_read : forall (Sys : Type) (E : @engine Sys) mr md m p t a, accurate E -> fresh_with E mr md (FlashPT m p t) = Return (AProperties a) ->
  p_pressure a = p /\ p_temperature a = t.
Proof.
  intros Sys E mr md m p t a [Hacc _] H. cbn [fresh_with] in H. destruct (fresh_reference E mr) as [ref|]; [|discriminate]. cbn [obind] in H.
  destruct (e_pt E ref p t) as [s|] eqn:Es; [|discriminate]. cbn [obind] in H. destruct (fresh_properties E md m s) as [props|] eqn:Ep; [|discriminate]. cbn [obind] in H.
  injection H as <-. destruct (fresh_properties_read _ _ _ _ _ _ Ep) as [-> ->]. eapply Hacc; eassumption.
Qed.
Lemma fresh_ph_valid : forall (Sys : Type) (E : @engine Sys) mr md m p h g a, fresh_with E mr md (FlashPH m p h g) = Return (AProperties a) ->
  validate_ph a h = Return tt /\ (accurate E -> p_pressure a = p).
Proof.
  intros Sys E mr md m p h g a H. cbn [fresh_with] in H. destruct (fresh_reference E mr) as [ref|]; [|discriminate]. cbn [obind] in H.
  destruct (match g with Some t => e_pt E ref p t | None => Return ref end) as [sd|]; [|discriminate]. cbn [obind] in H.
  destruct (e_ph E sd p h) as [s|] eqn:Es; [|discriminate]. cbn [obind] in H. destruct (fresh_properties E md m s) as [props|] eqn:Ep; [|discriminate]. cbn [obind] in H.
  destruct (validate_ph props h) as [[]|] eqn:Ev; [|discriminate]. cbn [obind] in H.
  injection H as <-. split; [assumption|]. intros [_ Hacc]. destruct (fresh_properties_read _ _ _ _ _ _ Ep) as [-> _]. eapply Hacc; eassumption.
Qed.

Lemma pt_accuracy_proof : forall (Sys : Type) (E : @engine Sys) (ref_size flash_size : Z) (programs : list (list request)) (s : @state Sys) i w m p t a,
  (0 <= ref_size)%Z -> (0 <= flash_size)%Z -> accurate E -> wsteps E (wstart ref_size flash_size programs) s ->
  nth_error (workers s) i = Some w -> In (FlashPT m p t, Return (AProperties a)) (w_answers w) ->
  within_millionth (p_pressure a) p /\ within_millionth (p_temperature a) t.
Proof.
  intros Sys E rsz fsz programs s i w m p t a Hr Hf Hacc Hs Hw Hin.
  destruct (cached_answers_proof Sys E rsz fsz programs s i w _ _ Hr Hf Hs Hw Hin) as [r' [_ [H2 [mr [md [H3 _]]]]]].
  destruct H2 as [->|H2].
  - destruct (fresh_pt_read _ _ _ _ _ _ _ _ Hacc (eq_sym H3)) as [-> ->]. split; apply within_refl.
  - destruct r' as [m' p' t'| | | |]; cbn [same_flash] in H2; try contradiction. destruct H2 as [_ [H4 H5]].
    destruct (fresh_pt_read _ _ _ _ _ _ _ _ Hacc (eq_sym H3)) as [-> ->]. split; apply six_close; assumption.
Qed.

Lemma validate_facts : forall a h, validate_ph a h = Return tt ->
  0 < p_pressure a /\ 0 < p_temperature a /\ 0 < p_density a /\ 0 < p_z a /\ 0 < p_kappa a /\ 0 < p_standard_density a /\
  - vapor_tolerance <= p_vapor_fraction a /\ p_vapor_fraction a <= 1 + vapor_tolerance /\ Qcabs (p_enthalpy a - h) <= ph_tolerance h.
Proof.
  intros a h H. unfold validate_ph in H.
  destruct (Qcleb (p_pressure a) 0) eqn:E1; [discriminate|]. destruct (Qcleb (p_temperature a) 0) eqn:E2; [discriminate|].
  destruct (Qcleb (p_density a) 0) eqn:E3; [discriminate|]. destruct (Qcleb (p_z a) 0) eqn:E4; [discriminate|].
  destruct (Qcleb (p_kappa a) 0) eqn:E5; [discriminate|]. destruct (Qcleb (p_standard_density a) 0) eqn:E6; [discriminate|].
  destruct (Qcleb (- vapor_tolerance) (p_vapor_fraction a)) eqn:E7; [|discriminate].
  destruct (Qcleb (p_vapor_fraction a) (1 + vapor_tolerance)) eqn:E8; [|discriminate]. cbn [andb negb] in H.
  destruct (Qcltb (ph_tolerance h) (Qcabs (p_enthalpy a - h))) eqn:E9; [discriminate|].
  apply Qcleb_gt in E1, E2, E3, E4, E5, E6. apply Qcleb_le in E7, E8. apply Qcltb_ge in E9. repeat split; assumption.
Qed.

Lemma tolerance_shift : forall x h h', within_millionth h' h -> Qcabs (x - h') <= ph_tolerance h' -> Qcabs (x - h) <= ph_tolerance h + qc 2 1000000.
Proof.
  intros x h h' H1 H2. unfold within_millionth in H1. unfold ph_tolerance in *.
  assert (Ha : Qcabs h' <= Qcabs h + qc 1 1000000).
  { unfold qc in *. unfold Qcabs in *. destruct (Qcleb 0 (h' - h)) eqn:E1; destruct (Qcleb 0 h') eqn:E2; destruct (Qcleb 0 h) eqn:E3;
    repeat match goal with H : Qcleb _ _ = true |- _ => apply Qcleb_le in H | H : Qcleb _ _ = false |- _ => apply Qcleb_gt in H end; qc_lra. }
  assert (Hm : Qcmax (qz 10) (Qcabs h' * qc 1 10000) <= Qcmax (qz 10) (Qcabs h * qc 1 10000) + qc 1 1000000).
  { set (u := Qcabs h') in *. set (v := Qcabs h) in *. clearbody u v. unfold Qcmax. unfold qz, qc in *.
    repeat match goal with |- context [Qcleb ?a ?b] => let E := fresh in destruct (Qcleb a b) eqn:E; [apply Qcleb_le in E|apply Qcleb_gt in E] | |- context [Qcltb ?a ?b] => let E := fresh in destruct (Qcltb a b) eqn:E; [apply Qcltb_lt in E|apply Qcltb_ge in E] end; qc_lra. }
  set (T := Qcmax (qz 10) (Qcabs h * qc 1 10000)) in *. set (T' := Qcmax (qz 10) (Qcabs h' * qc 1 10000)) in *. clearbody T T'. clear Ha.
  unfold qc in *. unfold Qcabs in *. destruct (Qcleb 0 (x - h)); destruct (Qcleb 0 (x - h')) eqn:E1; destruct (Qcleb 0 (h' - h)) eqn:E2;
    repeat match goal with H : Qcleb _ _ = true |- _ => apply Qcleb_le in H | H : Qcleb _ _ = false |- _ => apply Qcleb_gt in H end; qc_lra.
Qed.

Lemma ph_accuracy_proof : forall (Sys : Type) (E : @engine Sys) (ref_size flash_size : Z) (programs : list (list request)) (s : @state Sys) i w m p h g a,
  (0 <= ref_size)%Z -> (0 <= flash_size)%Z -> wsteps E (wstart ref_size flash_size programs) s ->
  nth_error (workers s) i = Some w -> In (FlashPH m p h g, Return (AProperties a)) (w_answers w) ->
  0 < p_pressure a /\ 0 < p_temperature a /\ 0 < p_density a /\ 0 < p_z a /\ 0 < p_kappa a /\ 0 < p_standard_density a /\
  Qcabs (p_enthalpy a - h) <= Qcmax (qz 10) (Qcabs h * qc 1 10000) + qc 2 1000000 /\
  (accurate E -> within_millionth (p_pressure a) p).
Proof.
  intros Sys E rsz fsz programs s i w m p h g a Hr Hf Hs Hw Hin.
  destruct (cached_answers_proof Sys E rsz fsz programs s i w _ _ Hr Hf Hs Hw Hin) as [r' [_ [H2 [mr [md [H3 _]]]]]].
  assert (exists m' p' h' g', r' = FlashPH m' p' h' g' /\ within_millionth p' p /\ within_millionth h' h) as (m' & p' & h' & g' & -> & Hp & Hh).
  { destruct H2 as [->|H2]; [exists m, p, h, g; split; [reflexivity|]; split; apply within_refl|].
    destruct r' as [|m' p' h' g'| | |]; cbn [same_flash] in H2; try contradiction. destruct H2 as [_ [H4 H5]].
    exists m', p', h', g'. split; [reflexivity|]. split; apply six_close; assumption. }
  destruct (fresh_ph_valid _ _ _ _ _ _ _ _ _ (eq_sym H3)) as [Hv Hacc]. destruct (validate_facts _ _ Hv) as (V1 & V2 & V3 & V4 & V5 & V6 & _ & _ & V9).
  repeat (split; [assumption|]). split; [eapply tolerance_shift; eassumption|]. intros H. rewrite (Hacc H). assumption.
Qed.

(** ** A runner for one thread, for cases *)
Section Runner.
Context {Sys : Type}.
Variable E : @engine Sys.
Definition run_one (s : @state Sys) : @state Sys :=
  match workers s with
  | w :: _ =>
      match w_current w with
      | None => match w_todo w with
                | r :: rest => mk_state (refs s) (flashes s) (set_worker 0 (mk_worker rest (Some (r, act_of E r)) (w_answers w)) (workers s))
                | [] => s
                end
      | Some (r, Done x) => mk_state (refs s) (flashes s) (set_worker 0 (mk_worker (w_todo w) None (w_answers w ++ [(r, x)])) (workers s))
      | Some (r, a) => let '(r', f', a') := act_step a (refs s) (flashes s) in
                       mk_state r' f' (set_worker 0 (mk_worker (w_todo w) (Some (r, a')) (w_answers w)) (workers s))
      end
  | [] => s
  end.
Lemma run_one_steps : forall s0 s, wsteps E s0 s -> wsteps E s0 (run_one s).
Proof.
  intros s0 s H. unfold run_one. destruct (workers s) as [|w ws] eqn:Ew; [assumption|]. rewrite <- Ew.
  assert (H0 : nth_error (workers s) 0 = Some w) by (rewrite Ew; reflexivity).
  destruct (w_current w) as [[r a]|] eqn:Ec.
  - destruct a as [x|k c|k v c|k c|k v c|c|c].
    1: eapply wsteps_more; [exact H|]; eapply wstep_end; eassumption.
    all: match goal with |- context [act_step ?a ?r ?f] => destruct (act_step a r f) as [[r' f'] a'] eqn:Es end.
    all: eapply wsteps_more; [exact H|]; eapply wstep_act; [eassumption|eassumption|discriminate|exact Es].
  - destruct (w_todo w) as [|r rest] eqn:Et; [assumption|]. eapply wsteps_more; [exact H|]. eapply wstep_begin; eassumption.
Qed.
Fixpoint run_many (n : nat) (s : @state Sys) : @state Sys := match n with O => s | S n' => run_many n' (run_one s) end.
Lemma run_many_steps : forall n s0 s, wsteps E s0 s -> wsteps E s0 (run_many n s).
Proof. induction n as [|n IH]; intros s0 s H; cbn; [assumption|]. apply IH. apply run_one_steps. assumption. Qed.
End Runner.

(** An engine that does nothing but remember pressure, temperature and enthalpy. *)
Definition toy_engine : @engine (Qc * Qc * Qc) :=
  mk_engine (fun _ _ => Return (qc 101325 100000, qc 28815 100, 0)) (fun s p t => Return (p, t, t * qz 2)) (fun s p h => Return (p, h / qz 2, h))
    (fun s => Return s) (fun s => Return [0; 0; 0; 1; 0; 0; 0; 0; 0; 0; 0])
    (fun s => snd (fst s)) (fun s => fst (fst s)) (fun _ => 1) (fun s => snd s) (fun _ => 1) (fun _ => 1) (fun _ => 1).
Lemma toy_accurate : accurate toy_engine.
Proof. split; cbn; intros; match goal with H : Return _ = Return _ |- _ => injection H as <- end; cbn; auto. Qed.
Definition toy_model : fluid_model := mk_model SRK [0; 0; 0; 1; 0; 0; 0; 0; 0; 0; 0].
Definition toy_requests : list request := [FlashPT toy_model (qz 10) (qz 300); FlashPT toy_model (qz 10 + qc 1 10000000) (qz 300); FlashPH toy_model (qz 10) (qz 600) None].
Definition toy_final : @state (Qc * Qc * Qc) := run_many toy_engine 20 (wstart 5 5 [toy_requests]).
Lemma toy_reached : wsteps toy_engine (wstart 5 5 [toy_requests]) toy_final.
Proof. apply run_many_steps. apply wsteps_refl. Qed.
Definition pressure_of (x : outcome answer) : option Q := match x with Return (AProperties p) => Some (this (p_pressure p)) | _ => None end.
Lemma toy_answers : option_map (fun w => map (fun rx => pressure_of (snd rx)) (w_answers w)) (nth_error (workers toy_final) 0) =
  Some [Some (10 # 1)%Q; Some (10 # 1)%Q; Some (10 # 1)%Q].
Proof. vm_compute. reflexivity. Qed.
Lemma toy_plain : map (fun r => pressure_of (plain_answer toy_engine r)) toy_requests = [Some (10 # 1)%Q; Some (100000001 # 10000000)%Q; Some (10 # 1)%Q].
Proof. vm_compute. reflexivity. Qed.

Lemma transparent_refuted_proof : exists (E : @engine (Qc * Qc * Qc)) (requests : list request) s w r x,
  accurate E /\ wsteps E (wstart 5 5 [requests]) s /\ nth_error (workers s) 0 = Some w /\
  In (r, x) (w_answers w) /\ x <> plain_answer E r.
Proof.
  pose proof toy_answers as Ha. destruct (nth_error (workers toy_final) 0) as [w|] eqn:Ew; [|discriminate]. cbn [option_map] in Ha. injection Ha as Ha.
  assert (Hr : map fst (w_answers w) = toy_requests).
  { assert (H : option_map (fun w => length (w_answers w)) (nth_error (workers toy_final) 0) = Some 3%nat) by (vm_compute; reflexivity).
    assert (H2 : option_map (fun w => map fst (w_answers w)) (nth_error (workers toy_final) 0) = Some toy_requests) by reflexivity.
    rewrite Ew in H2. cbn [option_map] in H2. injection H2 as H2. exact H2. }
  destruct (w_answers w) as [|[r1 x1] [|[r2 x2] [|[r3 x3] [|? ?]]]] eqn:Eans; try discriminate Ha. cbn [map snd fst] in Ha, Hr. injection Ha as Ha1 Ha2 Ha3.
  exists toy_engine, toy_requests, toy_final, w, r2, x2. split; [exact toy_accurate|]. split; [exact toy_reached|]. split; [exact Ew|]. split; [rewrite Eans; right; left; reflexivity|].
  intros Heq. unfold toy_requests in Hr. assert (Hr2 : r2 = FlashPT toy_model (qz 10 + qc 1 10000000) (qz 300)) by congruence.
  pose proof toy_plain as Hp. unfold toy_requests in Hp. cbn [map] in Hp. rewrite <- Hr2 in Hp. rewrite <- Heq, Ha2 in Hp. discriminate.
Qed.

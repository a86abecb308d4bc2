(** Proofs about simplified trains: the head, a stage, the stages of a train. *)
From Coq Require Import List Bool ZArith Lia.
From Verif Require Import QcTac Base Num Search_Model Stream_Model Stream_Spec Process_Model Chart_Model Compressor_Spec Compressor_Props Train_Model
  Simplified_Model Simplified_Spec.
From Verif Require Compressor_Model.
Import ListNotations.
Local Open Scope list_scope.
Local Open Scope Qc_scope.

Lemma obind_inv : forall A B (m : outcome A) (k : A -> outcome B) b,
  obind m k = Return b -> exists a, m = Return a /\ k a = Return b.
Proof. intros A B [a|e] k b E; [exists a; split; [reflexivity|exact E]|discriminate E]. Qed.
Ltac step E a := let H := fresh in destruct (obind_inv _ _ _ _ _ E) as (a & H & E'); clear E; rename E' into E; revert H.
Lemma chart_call_inv : forall A (r : result A) a, chart_call r = Return a -> r = Ok a.
Proof. intros A [a|[]] b; cbn; congruence. Qed.
Lemma new_stream_inv : forall f m s, new_stream f m = Return s -> s = mk_stream f m /\ 0 <= m.
Proof. intros f m s. unfold new_stream. destruct (Qcltb m 0) eqn:L; [discriminate|]. intros E. injection E as <-. split; [reflexivity|]. now apply Qcltb_ge in L. Qed.

(** ** The head *)
Lemma campbell_inv : forall w eff kappa z mm ratio t head, campbell_head w eff kappa z mm ratio t = Return head ->
  campbell (w_power w) eff kappa z mm ratio t head.
Proof.
  intros w eff kappa z mm ratio t head. unfold campbell_head. cbv zeta.
  destruct (Qceqb (kappa * eff) 0) eqn:A; [discriminate|]. destruct (Qceqb ((kappa - 1) / (kappa * eff)) 0) eqn:B; [discriminate|].
  destruct (Qceqb mm 0) eqn:C; [discriminate|]. cbn [orb]. intros E. injection E as <-.
  apply Qceqb_neq in A. apply Qceqb_neq in B. apply Qceqb_neq in C. split; [exact A|]. split; [exact C|].
  exists ((kappa - 1) / (kappa * eff)). split; [field; split; intros X; apply A; rewrite X; ring|]. split; [exact B|].
  set (e := (kappa - 1) / (kappa * eff)) in *. fold gas_constant. field. split; assumption.
Qed.

Lemma close_iff : forall next head, (if Qceqb head 0 then false else Qcltb (Qcabs (next - head) / Qcabs head) (qc 1 1000)) = true <->
  head <> 0 /\ Qcabs (next - head) < qc 1 1000 * Qcabs head.
Proof.
  intros next head. destruct (Qceqb head 0) eqn:Z.
  - apply Qceqb_eq in Z. split; [discriminate|intros [X _]; contradiction].
  - apply Qceqb_neq in Z. assert (P : 0 < Qcabs head) by (qc_cases; qc_lra).
    set (a := Qcabs (next - head)). set (b := Qcabs head) in *. assert (D : a / b * b = a) by (field; qc_lra).
    rewrite Qcltb_lt. split.
    + intros L. split; [exact Z|]. rewrite <- D. apply Qcmult_lt_compat_r; assumption.
    + intros [_ L]. rewrite <- D in L. destruct (Qclt_le_dec (a / b) (qc 1 1000)) as [X|X]; [exact X|].
      exfalso. assert (qc 1 1000 * b <= a / b * b) by (apply Qcmult_le_compat_r; [exact X|qc_lra]). qc_lra.
Qed.

Lemma head_loop_inv : forall w cs inlet pressure n i z kappa head last change eff,
  guess w cs inlet pressure i head z kappa -> (i + n = 20)%nat -> (0 < n)%nat ->
  head_loop w cs inlet pressure n z kappa head last = Return (change, eff) ->
  exists h, change = work h eff /\ eff <> 0 /\ head_found w cs inlet pressure eff h.
Proof.
  intros w cs inlet pressure n. induction n as [|n IH]; intros i z kappa head last change eff G L P E; [lia|].
  cbn [head_loop] in E.
  destruct (obind_inv _ _ _ _ _ E) as (e & E1 & E2); clear E.
  destruct (obind_inv _ _ _ _ _ E2) as (next & E3 & E4); clear E2.
  destruct (obind_inv _ _ _ _ _ E4) as (props & E5 & E6); clear E4.
  destruct (obind_inv _ _ _ _ _ E6) as (out & E7 & E8); clear E6.
  apply chart_call_inv in E1. apply campbell_inv in E3. apply new_stream_inv in E7. destruct E7 as [-> _].
  assert (I : improves w cs inlet pressure head z kappa e next) by (split; assumption).
  assert (Z : e <> 0) by (destruct E3 as [X _]; intros ->; apply X; ring).
  set (c := if Qceqb head 0 then false else Qcltb (Qcabs (next - head) / Qcabs head) (qc 1 1000)) in *.
  destruct c eqn:C.
  - injection E8 as <- <-. exists next. split; [reflexivity|]. split; [exact Z|]. exists i, head, z, kappa. split; [exact G|].
    split; [exact I|]. left. split; [lia|]. apply close_iff. exact C.
  - assert (NC : ~ (head <> 0 /\ Qcabs (next - head) < qc 1 1000 * Qcabs head)).
    { intros X. apply close_iff in X. fold c in X. congruence. }
    destruct n as [|n].
    + cbn [head_loop] in E8. injection E8 as <- <-. exists next. split; [reflexivity|]. split; [exact Z|].
      exists i, head, z, kappa. split; [exact G|]. split; [exact I|]. right. lia.
    + exact (IH (S i) _ _ next (next / e, e) change eff (guess_next w cs inlet pressure i head z kappa e next props G I E5 NC)
               ltac:(lia) ltac:(lia) E8).
Qed.

Lemma head_iteration_inv : forall w cs inlet pressure change eff, head_iteration w cs inlet pressure = Return (change, eff) ->
  exists h, change = work h eff /\ eff <> 0 /\ head_found w cs inlet pressure eff h.
Proof.
  intros w cs inlet pressure change eff E. unfold head_iteration in E. destruct (obind_inv _ _ _ _ _ E) as (e & _ & E2).
  exact (head_loop_inv w cs inlet pressure 20 0 _ _ 0 _ change eff (guess_first w cs inlet pressure) eq_refl ltac:(lia) E2).
Qed.

(** ** A stage *)
Lemma finish_inv : forall w inlet pressure used before eff mass rc re ch he ex r,
  finish_stage w inlet pressure used before eff mass rc re ch he ex = Return r ->
  exists props, leaves_with w inlet pressure used props /\ ss_inlet r = inlet /\ ss_outlet r = mk_stream (mk_fluid (s_model inlet) props) (s_mass_rate inlet) /\
    ss_inlet_asv r = mk_stream (s_fluid inlet) mass /\ ss_outlet_asv r = mk_stream (s_fluid (ss_outlet r)) mass /\
    ss_power r = (if ex then None else Some (mass * used / qz 3600 * qc 1 1000000)) /\ ss_flag r = flag_of rc re ch he /\
    ss_recirculates r = rc /\ ss_choked r = ch /\ ss_valid r = negb ex /\ ss_efficiency r = eff /\ ss_change r = used /\
    ss_change_before r = before.
Proof.
  intros w inlet pressure used before eff mass rc re ch he ex r E. unfold finish_stage in E.
  destruct (obind_inv _ _ _ _ _ E) as (props & E1 & E2); clear E.
  destruct (obind_inv _ _ _ _ _ E2) as (out & E3 & E4); clear E2.
  cbv zeta in E4. destruct (obind_inv _ _ _ _ _ E4) as (a & E5 & E6); clear E4.
  destruct (obind_inv _ _ _ _ _ E6) as (b & E7 & E8); clear E6.
  apply new_stream_inv in E3. destruct E3 as [-> _]. apply new_stream_inv in E5. destruct E5 as [-> _].
  apply new_stream_inv in E7. destruct E7 as [-> _]. injection E8 as <-. exists props.
  cbn [ss_inlet ss_outlet ss_inlet_asv ss_outlet_asv ss_power ss_flag ss_recirculates ss_choked ss_valid ss_efficiency ss_change ss_change_before].
  repeat split; try assumption. destruct ex; reflexivity.
Qed.

Lemma finish_flags : forall w inlet pressure used before eff mass rc re ch he ex r,
  finish_stage w inlet pressure used before eff mass rc re ch he ex = Return r -> ex = re || he -> flag_tells r.
Proof.
  intros w inlet pressure used before eff mass rc re ch he ex r E X. unfold finish_stage in E.
  destruct (obind_inv _ _ _ _ _ E) as (props & E1 & E2); clear E.
  destruct (obind_inv _ _ _ _ _ E2) as (out & E3 & E4); clear E2.
  cbv zeta in E4. destruct (obind_inv _ _ _ _ _ E4) as (a & E5 & E6); clear E4.
  destruct (obind_inv _ _ _ _ _ E6) as (b & E7 & E8); clear E6. injection E8 as <-.
  unfold flag_tells, ss_within. cbn [ss_flag ss_recirculates ss_choked ss_rate_exceeds ss_head_exceeds ss_valid]. subst ex.
  destruct rc, re, ch, he; cbn [flag_of andb orb In]; intuition (congruence || auto).
Qed.

Lemma megawatt_is : forall mass used, mass * used / qz 3600 * qc 1 1000000 = megawatt mass used.
Proof.
  intros mass used. unfold megawatt. unfold Qcdiv. rewrite <- (Qcmult_assoc (mass * used)). f_equal.
Qed.

Lemma flags_exceeds : forall cs rate head c, Compressor_Model.evaluate_capacity cs true rate head = Ok c ->
  Compressor_Model.ca_exceeds c = Compressor_Model.ca_rate_exceeds c || Compressor_Model.ca_head_exceeds c.
Proof.
  intros cs rate head c E. unfold Compressor_Model.evaluate_capacity in E.
  repeat match type of E with
  | Base.bind ?m _ = Ok _ => destruct m; [cbn [Base.bind] in E|discriminate E]
  end.
  injection E as <-. cbn [Compressor_Model.ca_exceeds Compressor_Model.ca_rate_exceeds Compressor_Model.ca_head_exceeds].
  rewrite negb_andb, negb_andb, !negb_involutive, orb_false_r. reflexivity.
Qed.

Lemma stage_inv : forall w st ratio x r, regular_chart (si_chart st) -> 0 < s_mass_rate x ->
  stage_to_ratio w st ratio x = Return r ->
  lifts w (si_chart st) (si_temperature st) (s_model x) (s_mass_rate x) (s_pressure x) (s_pressure x * ratio) r.
Proof.
  intros w st ratio x r R M E. unfold stage_to_ratio in E. cbv zeta in E.
  destruct (obind_inv _ _ _ _ _ E) as (f & E1 & E2); clear E.
  destruct (obind_inv _ _ _ _ _ E2) as (inlet & E3 & E4); clear E2.
  unfold create_fluid in E1. destruct (obind_inv _ _ _ _ _ E1) as (props & E5 & E6); clear E1. injection E6 as <-.
  apply new_stream_inv in E3. destruct E3 as [E3 _].
  assert (M' : 0 < s_mass_rate inlet) by (rewrite E3; exact M).
  apply Qcltb_lt in M'. rewrite M' in E4.
  destruct (obind_inv _ _ _ _ _ E4) as ([change eff] & E7 & E8); clear E4.
  destruct (obind_inv _ _ _ _ _ E8) as (c & E9 & E10); clear E8.
  apply chart_call_inv in E9. destruct (head_iteration_inv _ _ _ _ _ _ E7) as (head & -> & Z & H).
  assert (HH : work head eff * eff = head) by (unfold work; field; exact Z). rewrite HH in E9.
  pose proof (flags_exceeds _ _ _ _ E9) as FX.
  destruct (C68_capacity (si_chart st) (volumetric_rate inlet) head R) as (c' & m & k & h & e & C1 & C2 & C3 & C4 & C5 & C6 & C7 & C8 & C9 & C10).
  assert (c' = c) by congruence. subst c'.
  destruct (finish_inv _ _ _ _ _ _ _ _ _ _ _ _ _ E10) as (out & F1 & F2 & F3 & F4 & F5 & F6 & F7 & F8 & F9 & F10 & _).
  assert (VR : volumetric_rate inlet = s_mass_rate x / s_density inlet) by (unfold volumetric_rate; rewrite E3; reflexivity).
  rewrite VR in *.
  constructor.
  - rewrite F2, E3. split; [reflexivity|]. split; [reflexivity|exact E5].
  - rewrite F3, E3. split; reflexivity.
  - exists eff, head, m, k, h, e. cbv zeta. rewrite F2. rewrite <- C3, <- C6.
    split; [exact H|]. split; [unfold limits; rewrite <- C3; auto|]. split; [rewrite F3; exact F1|].
    split; [rewrite F4; reflexivity|]. split; [rewrite F5; reflexivity|]. rewrite F8, F9.
    split; [exact C4|]. split; [exact C7|].
    split; [intros X; apply C10 in X; rewrite F6, X; now rewrite megawatt_is|].
    split; [intros X; rewrite F6; destruct (Compressor_Model.ca_exceeds c); [reflexivity|exfalso; apply X; apply C10; reflexivity]|].
    unfold ss_within. rewrite F7, F10. rewrite <- C10.
    destruct (Compressor_Model.ca_exceeds c) eqn:X; symmetry in FX.
    + unfold flag_of. destruct (Compressor_Model.ca_choked c), (Compressor_Model.ca_recirculates c), (Compressor_Model.ca_rate_exceeds c), (Compressor_Model.ca_head_exceeds c);
        cbn [andb negb]; (split; [|]); intros Y; try discriminate Y; discriminate FX.
    + split; [reflexivity|]. intros _. cbn [negb]. destruct (flag_of _ _ _ _); reflexivity.
  - exact (finish_flags _ _ _ _ _ _ _ _ _ _ _ _ _ E10 FX).
Qed.

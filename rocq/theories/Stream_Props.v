(** C43, C57: mixing of streams, mass rates and standard rates. *)
From Coq Require Import List Bool ZArith Lia Permutation PeanoNat.
From Verif Require Import QcTac Num Base BaseLemmas Search_Model Stream_Model Stream_Spec Stream_Proofs.
Import ListNotations.
Local Open Scope Qc_scope.

(** C43: the result of mixing carries all the mass, at the lowest pressure, with the enthalpy and the moles of every component of
    the streams together; it raises exactly for an empty list, only zero rates, different equations of state, or when the flash
    raises. *)
Theorem C43_mixing : forall sv streams, Forall proper_stream streams ->
  match mix_streams sv streams with
  | Return out =>
      (exists enthalpy guess pressure, is_mixture streams (s_model out) pressure enthalpy (s_mass_rate out) /\
         flash_ph sv (s_model out) pressure enthalpy guess = Return (f_properties (s_fluid out)))
  | Raise e =>
      (e = EmptyStreamList /\ streams = []) \/
      (e = ZeroTotalMassRate /\ streams <> [] /\ forall s, In s streams -> s_mass_rate s = 0) \/
      (e = IncompatibleEoS /\ exists a b, In a streams /\ In b streams /\ fm_eos (s_model a) <> fm_eos (s_model b)) \/
      (exists m pressure enthalpy guess mass_rate, is_mixture streams m pressure enthalpy mass_rate /\
         flash_ph sv m pressure enthalpy guess = Raise e)
  end.
Proof. exact mix_streams_proof. Qed.
Print Assumptions C43_mixing.

(** C43: the order of the streams does not matter. *)
Theorem C43_order : forall sv l m, Forall proper_stream l -> Permutation l m -> mix_streams sv l = mix_streams sv m.
Proof. exact mix_order_proof. Qed.
Print Assumptions C43_order.

(** C43: the molar mass reported for a composition is its average molar mass. *)
Theorem C43_molar_mass : forall c, proper_composition c -> molar_mass_mixture c = Return (average_molar_mass c).
Proof. exact molar_mass_proof. Qed.
Print Assumptions C43_molar_mass.

(** C57: a stream created for a standard rate has that rate; it is refused exactly when the rate is negative (or the flash
    raises). *)
Theorem C57_from_standard_rate : forall sv m pressure temperature rate,
  consistent_service sv ->
  match create_stream_from_standard_rate sv m pressure temperature rate with
  | Return s => standard_rate s = rate /\ s_pressure s = pressure /\ s_temperature s = temperature /\ s_model s = m /\
                s_mass_rate s = standard_rate_to_mass_rate sv m rate /\ 0 <= rate
  | Raise e => flash_pt sv m pressure temperature = Raise e \/ (e = NegativeMassRate /\ rate < 0)
  end.
Proof. exact standard_rate_proof. Qed.
Print Assumptions C57_from_standard_rate.

Theorem C57_from_mass_rate : forall sv m pressure temperature mass,
  consistent_service sv ->
  match create_stream_from_mass_rate sv m pressure temperature mass with
  | Return s => standard_rate s = mass_rate_to_standard_rate sv m mass /\ s_pressure s = pressure /\ s_temperature s = temperature /\
                s_model s = m /\ s_mass_rate s = mass /\ 0 <= mass
  | Raise e => flash_pt sv m pressure temperature = Raise e \/ (e = NegativeMassRate /\ mass < 0)
  end.
Proof. exact mass_rate_proof. Qed.
Print Assumptions C57_from_mass_rate.

(** C57: the two conversions of the fluid service undo each other. *)
Theorem C57_conversions : forall sv m r, consistent_service sv ->
  mass_rate_to_standard_rate sv m (standard_rate_to_mass_rate sv m r) = r /\
  standard_rate_to_mass_rate sv m (mass_rate_to_standard_rate sv m r) = r.
Proof. exact conversion_inverse_proof. Qed.
Print Assumptions C57_conversions.

(** C57: changing the rate keeps the fluid. *)
Theorem C57_with_rate : forall s r,
  0 < s_standard_density s ->
  (match with_standard_rate s r with
   | Return out => 0 <= r /\ s_fluid out = s_fluid s /\ standard_rate out = r
   | Raise e => e = NegativeMassRate /\ r < 0 end) /\
  (match with_mass_rate s r with
   | Return out => 0 <= r /\ s_fluid out = s_fluid s /\ s_mass_rate out = r
   | Raise e => e = NegativeMassRate /\ r < 0 end) /\
  (match from_standard_rate r (s_model s) (f_properties (s_fluid s)) with
   | Return out => 0 <= r /\ s_fluid out = s_fluid s /\ standard_rate out = r
   | Raise e => e = NegativeMassRate /\ r < 0 end).
Proof. exact with_rate_proof. Qed.
Print Assumptions C57_with_rate.

(** A backend with constant properties, for the examples. *)
Definition C43_props (m : fluid_model) (p t h : Qc) : properties :=
  mk_properties t p (qz 50) h 1 (qc 13 10) 1 (average_molar_mass (fm_composition m)) (qc 4 5).
Definition C43_service : service :=
  mk_service (fun m p t => Return (C43_props m p t (qz 2 * t)))
             (fun m p h g => Return (C43_props m p (h / qz 2) h))
             (fun f => Return f) (fun m => qc 4 5).
Lemma C43_service_consistent : consistent_service C43_service.
Proof.
  split; [intros m; vm_compute; reflexivity|]. split.
  - intros m p t props H. cbn in H. injection H as <-. cbn. auto.
  - intros m p h g props H. cbn in H. injection H as <-. cbn. auto.
Qed.
Definition C43_methane : composition := [0; 0; 0; 1; 0; 0; 0; 0; 0; 0; 0].
Definition C43_mix : composition := [0; 0; 0; qz 3; 1; 0; 0; 0; 0; 0; 0].
Definition C43_stream (c : composition) (p t rate : Qc) : stream :=
  let m := mk_model SRK c in mk_stream (mk_fluid m (C43_props m p t (qz 2 * t))) rate.
Lemma C43_stream_proper : forall c p t rate, proper_composition c -> 0 <= rate -> proper_stream (C43_stream c p t rate).
Proof. intros c p t rate Hc Hr. split; [exact Hc|]. split; [reflexivity|exact Hr]. Qed.
Example C43_case :
  let a := C43_stream C43_methane (qz 30) (qz 300) (qz 100) in
  let b := C43_stream C43_mix (qz 20) (qz 330) (qz 50) in
  Forall proper_stream [a; b] /\
  exists out, mix_streams C43_service [a; b] = Return out /\ s_mass_rate out = qz 150 /\ s_pressure out = qz 20 /\
    s_enthalpy out = qz 620 /\ mix_streams C43_service [b; a] = Return out.
Proof.
  intros a b.
  assert (H : Forall proper_stream [a; b]).
  { assert (Hn : forall l : list Qc, Forall (fun x => Qcleb 0 x = true) l -> forall x, In x l -> 0 <= x).
    { intros l Hl x Hx. rewrite Forall_forall in Hl. apply Qcleb_le. apply Hl; assumption. }
    repeat constructor; try (apply Hn; repeat constructor); vm_compute; congruence. }
  split; [exact H|].
  pose proof (mix_streams_eq C43_service a [b] H) as E. cbv zeta in E.
  assert (E0 : Qceqb (total s_mass_rate [a; b]) 0 = false) by (vm_compute; reflexivity). rewrite E0 in E.
  assert (E1 : existsb (fun s => negb (eos_eqb (fm_eos (s_model s)) (fm_eos (s_model a)))) [b] = false) by reflexivity. rewrite E1 in E.
  cbn [flash_ph C43_service obind] in E.
  eexists. split; [exact E|]. split; [apply Qc_is_canon; vm_compute; reflexivity|]. split; [apply Qc_is_canon; vm_compute; reflexivity|].
  split; [apply Qc_is_canon; vm_compute; reflexivity|].
  rewrite <- E. symmetry. apply C43_order; [exact H|]. apply perm_swap.
Qed.
Example C57_case : exists s, create_stream_from_standard_rate C43_service (mk_model PR C43_methane) (qz 30) (qz 300) (qz 1000) = Return s /\
  standard_rate s = qz 1000 /\ s_mass_rate s = qc 100 3.
Proof. eexists. split; [reflexivity|]. split; apply Qc_is_canon; vm_compute; reflexivity. Qed.

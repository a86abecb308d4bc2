(** The properties of how the listed units and constraints of a pipeline become sections: division (C94), validation (C95) and the
    assembled pipeline with its targets (C96).

    Every theorem is closed by the proof in the [Sections_Proofs] files. *)
From Coq Require Import List Bool ZArith Lia PeanoNat String.
From Verif Require Import QcTac Base Num Search_Model Stream_Model Process_Model Process_Spec Sections_Model Sections_Spec Sections_Proofs3 Sections_Proofs4 Sections_Proofs6.
Import ListNotations.
Local Open Scope string_scope.
Local Open Scope list_scope.

(** ** Concrete cases: two compressors, a cooler in front of each, a valve at the end; a constraint after the first compressor and another
    after the second or at the outlet. *)
Definition C94_chart : chart := mk_chart (fun _ => 1%Qc) (fun _ => qz 10) (fun s r => Return (qz 1000, qc 1 2)) (qz 10) (qz 20).
Definition C94_items : list item :=
  [(None, (0%nat, TemperatureSetter (qz 300))); (Some "low", (1%nat, Compressor C94_chart)); (Some "cooler", (2%nat, TemperatureSetter (qz 300)));
   (Some "high", (3%nat, Compressor C94_chart)); (None, (4%nat, PressureDropper (qz 1)))].
Definition C94_inner : constraint := mk_constraint (Some "low") "20" IndividualASVRate IndividualASV.
Definition C94_outer : constraint := mk_constraint None "80" DownstreamChoke CommonASV.
Definition C94_named : constraint := mk_constraint (Some "high") "80" DownstreamChoke CommonASV.

Lemma C94_units : distinct_units C94_items.
Proof. unfold distinct_units. cbn. repeat constructor; cbn; intuition discriminate. Qed.

(** ** C94 Division *)

(** Accepted units and constraints are divided as intended: no unit is lost, moved or repeated, every constraint has its own section, and a
    section ends where its constraint applies. *)
Theorem C94_division : forall items cs ss, distinct_units items -> partition_items items cs = Ok ss ->
  fitting items cs /\ division items cs ss.
Proof. exact division_ok. Qed.
Print Assumptions C94_division.
Example C94_division_case : exists ss, partition_items C94_items [C94_outer; C94_inner] = Ok ss /\
  map (fun s => ids (s_units s)) ss = [[0; 1]; [2; 3; 4]]%nat /\ map s_constraint ss = [C94_inner; C94_outer] /\ map s_target ss = [1; 4]%nat.
Proof. eexists. split; [reflexivity|]. split; [reflexivity|]. split; reflexivity. Qed.
(** the valve after the last named unit stays in the last section *)
Example C94_trailing_case : exists ss, partition_items C94_items [C94_named; C94_inner] = Ok ss /\
  map (fun s => ids (s_units s)) ss = [[0; 1]; [2; 3; 4]]%nat /\ map s_constraint ss = [C94_inner; C94_named] /\ map s_target ss = [1; 3]%nat.
Proof. eexists. split; [reflexivity|]. split; [reflexivity|]. split; reflexivity. Qed.

(** Exactly the constraints that fit the units are accepted. *)
Theorem C94_accepted : forall items cs, distinct_units items -> ((exists ss, partition_items items cs = Ok ss) <-> fitting items cs).
Proof. exact accepted_proof. Qed.
Print Assumptions C94_accepted.
Example C94_accepted_case : fitting C94_items [C94_outer; C94_inner] /\ ~ fitting C94_items [C94_inner] /\ ~ fitting C94_items [C94_outer; C94_outer].
Proof.
  split; [|split].
  - apply (C94_accepted _ _ C94_units). eexists. reflexivity.
  - intros F. apply (C94_accepted _ _ C94_units) in F. destruct F as (ss & F). discriminate.
  - intros F. apply (C94_accepted _ _ C94_units) in F. destruct F as (ss & F). discriminate.
Qed.

(** The rest is refused with a validation error, or in one situation with an IndexError. *)
Theorem C94_refused : forall items cs e, distinct_units items -> partition_items items cs = Err e ->
  e = ValidationError \/
  e = IndexError /\ (exists c, In c cs /\ co_unit c = None) /\ ~ exists front u, listed items = front ++ [u] /\ ~ constrained items cs u.
Proof. exact refusal_proof. Qed.
Print Assumptions C94_refused.
Example C94_refused_case : partition_items C94_items [C94_inner] = Err ValidationError.
Proof. reflexivity. Qed.

(** "Units and constraints that do not fit are refused with a validation error" is false: a constraint on the last unit together with one on the
    outlet raises an IndexError. *)
Theorem C94_refused_refuted : exists items cs, distinct_units items /\ ~ fitting items cs /\ partition_items items cs = Err IndexError.
Proof.
  set (items := firstn 2 C94_items). assert (distinct_units items) as U by (unfold distinct_units; cbn; repeat constructor; cbn; intuition discriminate).
  exists items, [C94_inner; C94_outer]. split; [exact U|]. split; [|reflexivity].
  intros F. apply (C94_accepted _ _ U) in F. destruct F as (ss & F). discriminate.
Qed.
Print Assumptions C94_refused_refuted.

(** ** C95 Validation *)

(** A division is accepted if and only if every section compresses, has an anti-surge valve, controls the pressure in a way that this valve
    allows, and neither mixes nor splits inside a common valve. *)
Theorem C95_accepted : forall items cs ss, build_sections items cs = Ok ss <-> partition_items items cs = Ok ss /\ Forall acceptable_section ss.
Proof. exact build_proof. Qed.
Print Assumptions C95_accepted.
Theorem C95_refused : forall items cs ss, partition_items items cs = Ok ss -> ~ Forall acceptable_section ss -> build_sections items cs = Err ValidationError.
Proof. exact build_refusal_proof. Qed.
Print Assumptions C95_refused.
Example C95_accepted_case : exists ss, build_sections C94_items [C94_outer; C94_inner] = Ok ss /\ List.length ss = 2%nat.
Proof. eexists. split; reflexivity. Qed.
Example C95_refused_case :
  build_sections C94_items [C94_outer; mk_constraint (Some "low") "20" CommonASVControl IndividualASV] = Err ValidationError /\
  build_sections C94_items [C94_outer; mk_constraint (Some "low") "20" UpstreamChoke NoASV] = Err ValidationError /\
  build_sections C94_items [C94_outer; C94_inner; mk_constraint (Some "cooler") "20" UpstreamChoke IndividualASV] = Err ValidationError.
Proof. split; [|split]; reflexivity. Qed.

(** ** C96 The pipeline *)

(** Exactly what passes validation becomes a pipeline. *)
Theorem C96_accepted : forall items cs, distinct_units items ->
  ((exists p, map_pipeline items cs = Ok p) <-> exists ss, build_sections items cs = Ok ss).
Proof. exact pipeline_accepted_proof. Qed.
Print Assumptions C96_accepted.

(** The pipeline is an inlet, the listed units in order with nothing but loops and chokes added, and an outlet; the units of each section are
    those of the division; ids are unique; the connections are the pairs of neighbours. *)
Theorem C96_pipeline : forall items cs p, distinct_units items -> Forall listable (listed items) -> map_pipeline items cs = Ok p ->
  exists ss inlet body outlet, build_sections items cs = Ok ss /\
  concat (p_sections p) = (inlet, Inlet) :: body ++ [(outlet, Outlet)] /\ filter from_user body = listed items /\
  map (filter from_user) (p_sections p) = map s_units ss /\
  NoDup (ids (concat (p_sections p))) /\ NoDup (map fst (p_handlers p)) /\
  forall a b, In (a, b) (p_connections p) <-> follows (concat (p_sections p)) a b.
Proof. exact pipeline_proof. Qed.
Print Assumptions C96_pipeline.

(** Every compressor is inside a recirculation loop that one of the handlers controls, and the handlers control only units of the pipeline. *)
Theorem C96_protected : forall items cs p, distinct_units items -> map_pipeline items cs = Ok p ->
  (forall u, In u (listed items) -> compresses u -> protected_in (concat (p_sections p)) (p_handlers p) u) /\
  Forall (part_of (concat (p_sections p))) (map snd (p_handlers p)).
Proof. exact protected_proof. Qed.
Print Assumptions C96_protected.
Example C96_pipeline_case : exists p, map_pipeline C94_items [C94_outer; C94_inner] = Ok p /\
  map ids (p_sections p) = [[5; 7; 0; 1; 8]; [10; 2; 3; 4; 11; 13; 6]]%nat /\
  map snd (p_handlers p) = [RecirculationLoop 7 8; RecirculationLoop 10 11; ChokeHandler 13]%nat /\ Forall listable (listed C94_items).
Proof. eexists. split; [reflexivity|]. split; [reflexivity|]. split; [reflexivity|]. repeat constructor. Qed.

(** Every section is assembled with the valves and the choke its constraint asks for. *)
Theorem C96_shaped : forall items cs ss p k s, distinct_units items -> map_pipeline items cs = Ok p -> build_sections items cs = Ok ss ->
  nth_error ss k = Some s ->
  exists a us b, nth_error (p_sections p) k = Some (a ++ us ++ b) /\ shaped s us /\
    Forall (fun u => snd u = Inlet) a /\ Forall (fun u => snd u = Outlet) b.
Proof. exact shaped_proof. Qed.
Print Assumptions C96_shaped.

(** The constraint of a section is attached to the last unit of the section but one, and to the connection that leaves it. *)
Theorem C96_targets : forall items cs ss p k us s, distinct_units items -> map_pipeline items cs = Ok p -> build_sections items cs = Ok ss ->
  nth_error (p_sections p) k = Some us -> nth_error ss k = Some s ->
  exists front u w, us = front ++ [u; w] /\
    nth_error (p_targets p) k = Some (mk_target (co_pressure (s_constraint s)) (fst u) (fst u, fst w)) /\
    In (fst u, fst w) (p_connections p).
Proof. exact targets_proof. Qed.
Print Assumptions C96_targets.
(** In the last section this is the unit before the outlet. *)
Theorem C96_last_target : forall items cs p, distinct_units items -> map_pipeline items cs = Ok p ->
  exists sections front u outlet t ts, p_sections p = sections ++ [front ++ [u; (outlet, Outlet)]] /\ p_targets p = ts ++ [t] /\
    t_unit t = fst u /\ t_connection t = (fst u, outlet) /\ List.length ts = List.length sections.
Proof. exact last_target_proof. Qed.
Print Assumptions C96_last_target.
Example C96_targets_case : exists p, map_pipeline C94_items [C94_outer; C94_inner] = Ok p /\
  p_targets p = [mk_target "20" 1 (1, 8); mk_target "80" 13 (13, 6)]%nat.
Proof. eexists. split; reflexivity. Qed.

(** "The pressure constraint of a section applies at the outlet of the section's last unit" is false: for every section but the last it is attached
    one unit too early. *)
Theorem C96_earlier_target_refuted : exists items cs p us u t, distinct_units items /\ Forall listable (listed items) /\ map_pipeline items cs = Ok p /\
  nth_error (p_sections p) 0 = Some us /\ last us u = u /\ In u us /\ nth_error (p_targets p) 0 = Some t /\ List.length (p_sections p) = 2%nat /\ t_unit t <> fst u.
Proof.
  exists C94_items, [C94_outer; C94_inner]. eexists. eexists. exists (8%nat, DirectSplitter). eexists.
  split; [exact C94_units|]. split; [repeat constructor|]. split; [reflexivity|]. split; [reflexivity|]. split; [reflexivity|]. split; [cbn; tauto|].
  split; [reflexivity|]. split; [reflexivity|]. cbn. discriminate.
Qed.
Print Assumptions C96_earlier_target_refuted.

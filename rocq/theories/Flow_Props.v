(** Property C136: flow diagrams. *)
From Coq Require Import PeanoNat String Lia.
From Verif Require Import Base Time_Model Graph_Model Graph_Spec Flow_Model Flow_Spec Flow_Proofs.
Local Open Scope list_scope.

(** In every diagram, at every level, edges end at nodes of the same diagram and flows are explained (any energy model). *)
Theorem C136_closed : forall g container whole depth d, get_energy_flow_diagram g container whole depth = Ok d -> forall inner, within d inner -> closed inner /\ period_of inner = whole.
Proof. exact closed_proof. Qed.
Print Assumptions C136_closed.

(** The whole diagram of a model laid out as YAML lays it out. *)
Theorem C136_area : forall regs container whole g depth, laid_out regs container -> build regs = Ok g -> (2 <= depth)%nat ->
  exists shown edges, get_energy_flow_diagram g container whole depth = Ok (mkDiagram None "Area" whole ([fuel_node] ++ shown ++ [emission_node]) edges [FuelFlow; EmissionFlow])
    /\ Forall2 (installation_shown regs container whole) (installations regs container) shown
    /\ (forall e, In e edges <-> exists i, In i (installations regs container) /\ (e = mkFlowEdge FuelInput (Component i) FuelFlow \/ e = mkFlowEdge (Component i) EmissionOutput EmissionFlow)).
Proof. exact area_proof. Qed.
Print Assumptions C136_area.

(** Every component but the asset is shown exactly once. *)
Theorem C136_once : forall regs container whole g depth d, laid_out regs container -> build regs = Ok g -> (2 <= depth)%nat -> get_energy_flow_diagram g container whole depth = Ok d ->
  NoDup (diagram_components d) /\ forall id, In id (diagram_components d) <-> In id (map fst regs) /\ ~ is_a container Asset id.
Proof. exact once_proof. Qed.
Print Assumptions C136_once.

(** ** A case: an installation with a generator set that feeds a pump, a compressor on fuel and a venting emitter *)
Definition C136_regs : list registration :=
  [(NUuid 0, None); (NUuid 1, Some (NUuid 0)); (NUuid 2, Some (NUuid 1)); (NUuid 3, Some (NUuid 2)); (NUuid 4, Some (NUuid 1)); (NUuid 5, Some (NUuid 1))].
Definition C136_container (id : node_id) : option component :=
  match id with
  | NUuid 0 => Some (mkComponent "asset" Asset)
  | NUuid 1 => Some (mkComponent "installation" Installation)
  | NUuid 2 => Some (mkComponent "genset" GeneratorSet)
  | NUuid 3 => Some (mkComponent "pump" (ElectricityConsumer Pump))
  | NUuid 4 => Some (mkComponent "compressor" (FuelConsumer Compressor))
  | NUuid 5 => Some (mkComponent "vent" VentingEmitter)
  | _ => None
  end.
Example C136_case : laid_out C136_regs C136_container.
Proof.
  split; [split|split].
  - repeat constructor; cbn; intuition discriminate.
  - intros c p I. cbn in I |- *. repeat (destruct I as [I|I]; [try discriminate I; injection I as <- <-; auto 10|]). destruct I.
  - intros c I. cbn in I. repeat (destruct I as [I|I]; [try discriminate I; injection I as <-; exists "asset"%string; reflexivity|]). destruct I.
  - intros c p I. unfold is_a. cbn in I. destruct I as [I|[I|[I|[I|[I|[I|[]]]]]]]; try discriminate I; injection I as <- <-.
    + left. split; eexists; reflexivity.
    + right. left. split; [eexists; reflexivity|]. left. eexists. reflexivity.
    + right. right. split; [eexists; reflexivity|]. exists Pump. eexists. reflexivity.
    + right. left. split; [eexists; reflexivity|]. right. left. exists Compressor. eexists. reflexivity.
    + right. left. split; [eexists; reflexivity|]. right. right. eexists. reflexivity.
Qed.
Example C136_drawn_case : forall whole, exists g d, build C136_regs = Ok g /\ get_energy_flow_diagram g C136_container whole 2 = Ok d /\ diagram_components d = [NUuid 1; NUuid 2; NUuid 3; NUuid 4; NUuid 5].
Proof. intros whole. eexists. eexists. split; [vm_compute; reflexivity|]. split; [vm_compute; reflexivity|]. vm_compute. reflexivity. Qed.

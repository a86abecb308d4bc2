(** Vocabulary for flow diagrams. *)
From Coq Require Import PeanoNat String.
From Verif Require Import Base Time_Model Graph_Model Graph_Spec Flow_Model.
Local Open Scope list_scope.

(** what is read off a node and off a diagram *)
Definition ref_of (x : flow_node) : node_ref := match x with mkFlowNode r _ _ _ => r end.
Definition sub_of (x : flow_node) : option flow_diagram := match x with mkFlowNode _ _ _ s => s end.
Definition shown_in (d : flow_diagram) : list flow_node := match d with mkDiagram _ _ _ l _ _ => l end.
Definition edges_in (d : flow_diagram) : list flow_edge := match d with mkDiagram _ _ _ _ l _ => l end.
Definition flows_in (d : flow_diagram) : list flow := match d with mkDiagram _ _ _ _ _ l => l end.
Definition period_of (d : flow_diagram) : period := match d with mkDiagram _ _ p _ _ _ => p end.
(** a diagram, and the diagrams of its nodes, and of theirs *)
Inductive within : flow_diagram -> flow_diagram -> Prop :=
| within_self : forall d, within d d
| within_sub : forall d x sub inner, In x (shown_in d) -> sub_of x = Some sub -> within sub inner -> within d inner.
(** every end of every edge is a node of the diagram, and every flow is explained *)
Definition closed (d : flow_diagram) : Prop :=
  forall e, In e (edges_in d) -> In (from_node e) (map ref_of (shown_in d)) /\ In (to_node e) (map ref_of (shown_in d)) /\ In (edge_flow e) (flows_in d).

(** ** Models as they are read from YAML *)
Section Laid_out.
Variable regs : list registration.
Variable container : node_id -> option component.
Definition is_a (k : component_kind) (id : node_id) : Prop := exists name, container id = Some (mkComponent name k).
Definition generator (id : node_id) : bool := match container id with Some (mkComponent _ GeneratorSet) => true | _ => false end.
(** what may be below what: installations below the asset; generator sets, consumers of fuel and venting emitters below
    installations; consumers of electricity below generator sets *)
Definition laid_out : Prop :=
  hierarchy regs
  /\ (forall c, In (c, None) regs -> is_a Asset c)
  /\ forall c p, In (c, Some p) regs ->
       (is_a Asset p /\ is_a Installation c)
       \/ (is_a Installation p /\ (is_a GeneratorSet c \/ (exists e, is_a (FuelConsumer e) c) \/ is_a VentingEmitter c))
       \/ (is_a GeneratorSet p /\ exists e, is_a (ElectricityConsumer e) c).
(** the type shown for a component *)
Definition shown_type (k : component_kind) (t : node_type) : Prop :=
  match k with
  | Asset => False
  | Installation => t = TInstallation
  | GeneratorSet => t = TGenerator
  | FuelConsumer Compressor | ElectricityConsumer Compressor => t = TCompressor
  | FuelConsumer Pump | ElectricityConsumer Pump => t = TPump
  | FuelConsumer CompressorSystem | ElectricityConsumer CompressorSystem => t = TCompressorSystem
  | FuelConsumer PumpSystem | ElectricityConsumer PumpSystem => t = TPumpSystem
  | FuelConsumer Generic | ElectricityConsumer Generic => t = TDirect
  | VentingEmitter => t = TDirect
  end.
(** a node for the component [id] *)
Definition node_for (id : node_id) (x : flow_node) : Prop :=
  exists name k t sub, container id = Some (mkComponent name k) /\ shown_type k t /\ x = mkFlowNode (Component id) name t sub.
Definition plain_node (id : node_id) (x : flow_node) : Prop := node_for id x /\ sub_of x = None.
(** what is shown for an installation: its consumers, each generator set followed by the consumers of its electricity *)
Definition consumers_shown (i : node_id) : list node_id :=
  flat_map (fun c => c :: if generator c then children_of regs c else []) (children_of regs i).
(** the edges of an installation *)
Inductive installation_edge (i : node_id) : flow_edge -> Prop :=
| burns : forall c, In (c, Some i) regs -> ~ is_a VentingEmitter c -> installation_edge i (mkFlowEdge FuelInput (Component c) FuelFlow)
| emits : forall c, In (c, Some i) regs -> installation_edge i (mkFlowEdge (Component c) EmissionOutput EmissionFlow)
| supplies : forall c e, In (c, Some i) regs -> In (e, Some c) regs -> installation_edge i (mkFlowEdge (Component c) (Component e) ElectricityFlow).
Definition installation_shown (whole : period) (i : node_id) (x : flow_node) : Prop :=
  node_for i x /\
  match children_of regs i with
  | [] => sub_of x = None
  | _ => exists name shown edges, is_a Installation i /\ (exists k, container i = Some (mkComponent name k))
      /\ sub_of x = Some (mkDiagram (Some i) name whole ([fuel_node; emission_node] ++ shown) edges [FuelFlow; EmissionFlow; ElectricityFlow])
      /\ Forall2 plain_node (consumers_shown i) shown /\ (forall e, In e edges <-> installation_edge i e)
  end.
End Laid_out.
(** the components shown anywhere in a diagram *)
Fixpoint node_components (x : flow_node) : list node_id :=
  match x with mkFlowNode r _ _ sub => match r with Component id => [id] | _ => [] end ++ match sub with Some d => diagram_components d | None => [] end end
with diagram_components (d : flow_diagram) : list node_id :=
  match d with mkDiagram _ _ _ l _ _ => flat_map node_components l end.
(** the installations, in the order they are registered *)
Definition installations (regs : list registration) (container : node_id -> option component) : list node_id :=
  filter (fun id => match container id with Some (mkComponent _ Installation) => true | _ => false end) (map fst regs).

(** Model of src/libecalc/presentation/flow_diagram/energy_model_flow_diagram.py: the flow diagram of an energy model. *)
From Coq Require Import PeanoNat String.
From Verif Require Import Base Time_Model Graph_Model.
Local Open Scope list_scope.

(** common/component_type.py:4-15 and the is_fuel_consumer, is_provider and get_component_process_type of the components
    (asset.py:27-38, installation.py:80-91, generator_set_component.py:86-96, fuel_consumer.py:73-83,
    electricity_consumer.py:58-68, venting_emitter.py:157-170) *)
Inductive equipment : Type := Compressor | Pump | CompressorSystem | PumpSystem | Generic.
Inductive component_kind : Type := Asset | Installation | GeneratorSet | FuelConsumer (e : equipment) | ElectricityConsumer (e : equipment) | VentingEmitter.
Record component : Type := mkComponent { c_name : string; c_kind : component_kind }.
Definition is_fuel_consumer (c : component) : bool :=
  match c_kind c with Asset | Installation | GeneratorSet | FuelConsumer _ => true | ElectricityConsumer _ | VentingEmitter => false end.
Definition is_provider (c : component) : bool := match c_kind c with GeneratorSet => true | _ => false end.
(** isinstance(_, Emitter): fuel consumers, generator sets and venting emitters *)
Definition is_emitter (c : component) : bool := match c_kind c with GeneratorSet | FuelConsumer _ | VentingEmitter => true | _ => false end.

(** flow_diagram_dtos.py:11-29, the types that are used; 16-17, the two nodes that are no components.  The id of a component's
    node is the text of its UUID, which is neither of the other two texts. *)
Inductive node_type : Type := TInstallation | TPump | TCompressor | TCompressorSystem | TPumpSystem | TGenerator | TDirect | TInputOutput.
Inductive node_ref : Type := FuelInput | EmissionOutput | Component (id : node_id).
Inductive flow : Type := FuelFlow | EmissionFlow | ElectricityFlow.
Record flow_edge : Type := mkFlowEdge { from_node : node_ref; to_node : node_ref; edge_flow : flow }.
(** 39-79; a subdiagram is a list of one diagram or None *)
Inductive flow_node : Type := mkFlowNode (ref : node_ref) (title : string) (type : node_type) (subdiagram : option flow_diagram)
with flow_diagram : Type := mkDiagram (id : option node_id) (title : string) (model_period : period) (shown : list flow_node) (edges : list flow_edge) (flows : list flow).
Definition fuel_node : flow_node := mkFlowNode FuelInput "Fuel" TInputOutput None.
Definition emission_node : flow_node := mkFlowNode EmissionOutput "Emission" TInputOutput None.

(** 28-52, _get_node_type *)
Definition equipment_type (e : equipment) : node_type :=
  match e with Compressor => TCompressor | Pump => TPump | CompressorSystem => TCompressorSystem | PumpSystem => TPumpSystem | Generic => TDirect end.
Definition get_node_type (c : component) : result node_type :=
  match c_kind c with
  | Asset => Err AssertionError
  | Installation => Ok TInstallation
  | GeneratorSet => Ok TGenerator
  | FuelConsumer e | ElectricityConsumer e => Ok (equipment_type e)
  | VentingEmitter => Ok TDirect
  end.

Section Diagram.
Variable g : graph.
(** energy_container_energy_model_builder.py:12-13, get_energy_container *)
Variable container : node_id -> option component.
Variable model_period : period.
Definition get_container (id : node_id) : result component := of_option KeyError (container id).

Section Level.
Variable get_node : node_id -> bool -> result flow_node.
(** 74-100, one turn of the loop: the nodes and edges it adds *)
Definition consumer_parts (consumer : node_id) : result (list flow_node * list flow_edge) :=
  do c <- get_container consumer;
  do x <- get_node consumer (negb (is_provider c));
  let edges :=
    if is_fuel_consumer c then [mkFlowEdge FuelInput (Component consumer) FuelFlow; mkFlowEdge (Component consumer) EmissionOutput EmissionFlow]
    else if is_emitter c then [mkFlowEdge (Component consumer) EmissionOutput EmissionFlow]
    else [] in
  if is_provider c then
    do electric <- get_children g consumer;
    do shown <- mapM (fun e => get_node e true) electric;
    Ok (x :: shown, edges ++ map (fun e => mkFlowEdge (Component consumer) (Component e) ElectricityFlow) electric)
  else Ok ([x], edges).
(** 66-118, _get_energy_component_fde *)
Definition get_fde (id : node_id) : result (option flow_diagram) :=
  do consumers <- get_children g id;
  match consumers with
  | [] => Ok None
  | _ =>
      do parts <- mapM consumer_parts consumers;
      do c <- get_container id;
      Ok (Some (mkDiagram (Some id) (c_name c) model_period (fuel_node :: emission_node :: concat (map fst parts)) (concat (map snd parts)) [FuelFlow; EmissionFlow; ElectricityFlow]))
  end.
End Level.
(** 127-134, _get_node; [depth]: the depth of recursion Python allows (a RecursionError is OtherError) *)
Fixpoint get_node (depth : nat) (id : node_id) (include_subdiagram : bool) : result flow_node :=
  match depth with
  | O => Err OtherError
  | S depth =>
      do c <- get_container id;
      do t <- get_node_type c;
      do sub <- if include_subdiagram then get_fde (get_node depth) id else Ok None;
      Ok (mkFlowNode (Component id) (c_name c) t sub)
  end.
(** 136-167, get_energy_flow_diagram *)
Definition get_energy_flow_diagram (depth : nat) : result flow_diagram :=
  do all <- mapM (fun id => do c <- get_container id; Ok (id, c)) (get_energy_containers g);
  let installations := map fst (filter (fun p => match c_kind (snd p) with Installation => true | _ => false end) all) in
  do shown <- mapM (fun i => get_node depth i true) installations;
  let ref_of x := match x with mkFlowNode r _ _ _ => r end in
  Ok (mkDiagram None "Area" model_period (fuel_node :: shown ++ [emission_node])
        (flat_map (fun x => [mkFlowEdge FuelInput (ref_of x) FuelFlow; mkFlowEdge (ref_of x) EmissionOutput EmissionFlow]) shown)
        [FuelFlow; EmissionFlow]).
End Diagram.

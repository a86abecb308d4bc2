(** Model of the component graph and of the networkx traversals it uses.
    networkx (3.6.1 in /repo/uv.lock) is a dependency: its traversals are
    modelled from their published algorithms, which the comments name. *)
From Coq Require Import PeanoNat String.
From Verif Require Import Base.
Local Open Scope list_scope.
Local Open Scope nat_scope.

(** NodeID = str | UUID; a UUID is identified by a number.
    src/libecalc/common/graph.py:8 *)
Inductive node_id : Type :=
| NStr (s : string)
| NUuid (n : nat).

Definition node_eq_dec : forall a b : node_id, {a = b} + {a <> b}.
Proof. decide equality; [apply string_dec | apply Nat.eq_dec]. Defined.
Definition node_eqb (a b : node_id) : bool := if node_eq_dec a b then true else false.
Definition mem (x : node_id) (l : list node_id) : bool := existsb (node_eqb x) l.

(** nx.DiGraph: every node with its successors, both in insertion order
    (networkx keeps dicts of dicts). *)
Definition digraph : Type := list (node_id * list node_id).
Definition nodes (g : digraph) : list node_id := map fst g.
Definition has_node (g : digraph) (v : node_id) : bool := mem v (nodes g).
Definition adj (g : digraph) (v : node_id) : list node_id :=
  match dict_get node_eqb v g with Some l => l | None => [] end.
Definition preds (g : digraph) (v : node_id) : list node_id :=
  filter (fun u => mem v (adj g u)) (nodes g).

(** nx.DiGraph.add_node, nx.DiGraph.add_edge (which adds missing end points and
    keeps an edge that is already there). *)
Definition nx_add_node (v : node_id) (g : digraph) : digraph :=
  if has_node g v then g else g ++ [(v, [])].
Definition nx_add_edge (e : node_id * node_id) (g : digraph) : digraph :=
  let g := nx_add_node (snd e) (nx_add_node (fst e) g) in
  if mem (snd e) (adj g (fst e)) then g
  else dict_set node_eqb (fst e) (adj g (fst e) ++ [snd e]) g.
Definition nx_edges (g : digraph) : list (node_id * node_id) :=
  flat_map (fun p => map (fun v => (fst p, v)) (snd p)) g.

(** nx.compose: a new graph with the nodes and edges of both, those of the
    first first.  (The order of predecessors is not used anywhere else.) *)
Definition nx_compose (g h : digraph) : digraph :=
  let r := fold_left (fun r v => nx_add_node v r) (nodes g) [] in
  let r := fold_left (fun r e => nx_add_edge e r) (nx_edges g) r in
  let r := fold_left (fun r v => nx_add_node v r) (nodes h) r in
  fold_left (fun r e => nx_add_edge e r) (nx_edges h) r.

(** Graph: the digraph and the payload of every node.  The payload is left out:
    [gr_nodes] is the set of ids that have one.
    src/libecalc/common/graph.py:19-27 *)
Record graph : Type := mkGraph { gr_graph : digraph; gr_nodes : list node_id }.
Definition empty_graph : graph := mkGraph [] [].

Definition add_id (v : node_id) (l : list node_id) : list node_id :=
  if mem v l then l else l ++ [v].

(** src/libecalc/common/graph.py:29-32 *)
Definition add_node (v : node_id) (g : graph) : graph :=
  mkGraph (nx_add_node v (gr_graph g)) (add_id v (gr_nodes g)).

(** src/libecalc/common/graph.py:34-39 *)
Definition add_edge (from_id to_id : node_id) (g : graph) : result graph :=
  if orb (negb (mem from_id (gr_nodes g))) (negb (mem to_id (gr_nodes g))) then Err ValueError
  else Ok (mkGraph (nx_add_edge (from_id, to_id) (gr_graph g)) (gr_nodes g)).

(** src/libecalc/common/graph.py:41-44 *)
Definition add_subgraph (sub g : graph) : graph :=
  mkGraph (nx_compose (gr_graph g) (gr_graph sub)) (fold_left (fun l v => add_id v l) (gr_nodes sub) (gr_nodes g)).

(** ** Topological sort
    nx.topological_sort: Kahn's algorithm by generations
    (networkx/algorithms/dag.py, topological_generations).  The number of
    unprocessed predecessors is kept for the nodes that have one; a child that
    reaches zero joins the next generation.  KeyError stands for the
    RuntimeError "Graph changed during iteration". *)
Definition indegrees (g : digraph) : list (node_id * nat) :=
  filter (fun p => negb (Nat.eqb (snd p) 0)) (map (fun v => (v, length (preds g v))) (nodes g)).
Definition zero_indegree (g : digraph) : list node_id :=
  filter (fun v => Nat.eqb (length (preds g v)) 0) (nodes g).

Definition del_key {V} (k : node_id) (d : list (node_id * V)) : list (node_id * V) :=
  filter (fun p => negb (node_eqb k (fst p))) d.

Fixpoint release_children (children : list node_id) (ind : list (node_id * nat)) (zero : list node_id)
    : result (list (node_id * nat) * list node_id) :=
  match children with
  | [] => Ok (ind, zero)
  | c :: cs =>
      match dict_get node_eqb c ind with
      | None => Err KeyError
      | Some d =>
          if Nat.eqb (d - 1) 0 then release_children cs (del_key c ind) (zero ++ [c])
          else release_children cs (dict_set node_eqb c (d - 1) ind) zero
      end
  end.

Fixpoint release_generation (g : digraph) (generation : list node_id) (ind : list (node_id * nat)) (zero : list node_id)
    : result (list (node_id * nat) * list node_id) :=
  match generation with
  | [] => Ok (ind, zero)
  | u :: us =>
      do p <- release_children (adj g u) ind zero;
      release_generation g us (fst p) (snd p)
  end.

(** The loop over the generations; [fuel] bounds the number of generations (at
    most one per node, see [topological_sort]); OtherError when it runs out,
    which is proved not to happen.  ValueError stands for NetworkXUnfeasible
    (the graph contains a cycle). *)
Fixpoint generations (g : digraph) (fuel : nat) (zero : list node_id) (ind : list (node_id * nat)) : result (list node_id) :=
  match zero with
  | [] => match ind with [] => Ok [] | _ => Err ValueError end
  | _ =>
      match fuel with
      | O => Err OtherError
      | S fuel' =>
          do p <- release_generation g zero ind [];
          do rest <- generations g fuel' (snd p) (fst p);
          Ok (zero ++ rest)
      end
  end.
Definition topological_sort (g : digraph) : result (list node_id) :=
  generations g (S (length g)) (zero_indegree g) (indegrees g).

(** nx.is_directed_acyclic_graph: topological_sort does not raise
    NetworkXUnfeasible. *)
Definition is_directed_acyclic_graph (g : digraph) : bool := is_ok (topological_sort g).

(** ** Breadth first: nx.bfs_tree (networkx/algorithms/traversal/
    breadth_first_search.py, bfs_tree and generic_bfs_edges): the source, then the new
    children of every generation, in order.  The early stop when all nodes have
    been seen is left out: it yields nothing more.  An unknown source raises
    NetworkXError (KeyError here). *)
Fixpoint new_children (children seen : list node_id) : list node_id :=
  match children with
  | [] => []
  | c :: cs => if mem c seen then new_children cs seen else c :: new_children cs (c :: seen)
  end.
Fixpoint next_level (g : digraph) (level seen : list node_id) : list node_id :=
  match level with
  | [] => []
  | u :: us =>
      let new := new_children (adj g u) seen in
      new ++ next_level g us (new ++ seen)
  end.
Fixpoint bfs_levels (g : digraph) (depth : nat) (level seen : list node_id) : list (list node_id) :=
  match depth with
  | O => []
  | S depth' =>
      match level with
      | [] => []
      | _ =>
          let next := next_level g level seen in
          next :: bfs_levels g depth' next (next ++ seen)
      end
  end.
(** depth_limit defaults to the number of nodes. *)
Definition bfs_tree (g : digraph) (source : node_id) : result (list node_id) :=
  if has_node g source then Ok (source :: concat (bfs_levels g (length g) [source] [source]))
  else Err KeyError.

(** ** Depth first: nx.dfs_tree(g, source).nodes() (networkx/algorithms/traversal/
    depth_first_search.py, dfs_edges): an explicit stack of iterators over
    children.  [fuel] bounds the number of steps; OtherError when it runs out,
    which is proved not to happen. *)
Fixpoint dfs_loop (g : digraph) (fuel : nat) (stack : list (list node_id)) (visited : list node_id) : result (list node_id) :=
  match stack with
  | [] => Ok []
  | [] :: st => match fuel with O => Err OtherError | S fuel' => dfs_loop g fuel' st visited end
  | (c :: cs) :: st =>
      match fuel with
      | O => Err OtherError
      | S fuel' =>
          if mem c visited then dfs_loop g fuel' (cs :: st) visited
          else do rest <- dfs_loop g fuel' (adj g c :: cs :: st) (c :: visited); Ok (c :: rest)
      end
  end.
Definition dfs_fuel (g : digraph) : nat := fold_right (fun p n => S (length (snd p)) + n) 0 g.
Definition dfs_tree (g : digraph) (source : node_id) : result (list node_id) :=
  if has_node g source then
    do rest <- dfs_loop g (dfs_fuel g) [adj g source] [source]; Ok (source :: rest)
  else Err KeyError.

(** ** The methods of Graph *)

(** src/libecalc/common/graph.py:46-54 *)
Definition get_successors (g : graph) (v : node_id) (recursively : bool) : result (list node_id) :=
  if recursively then
    do l <- dfs_tree (gr_graph g) v; Ok (filter (fun u => negb (node_eqb u v)) l)
  else if has_node (gr_graph g) v then Ok (adj (gr_graph g) v) else Err KeyError.

(** The error message joins the ids of the predecessors with ", ", which raises
    TypeError unless they are all strings.
    src/libecalc/common/graph.py:56-63 *)
Definition get_predecessor (g : graph) (v : node_id) : result node_id :=
  if has_node (gr_graph g) v then
    match preds (gr_graph g) v with
    | [] => Err IndexError
    | [u] => Ok u
    | us => if forallb (fun u => match u with NStr _ => true | NUuid _ => false end) us
            then Err ValueError else Err TypeError
    end
  else Err KeyError.

(** src/libecalc/common/graph.py:65-67 *)
Definition root (g : graph) : result node_id :=
  do l <- topological_sort (gr_graph g); of_option IndexError (nth_error l 0).

(** src/libecalc/common/graph.py:72-74 *)
Definition sorted_node_ids (g : graph) : result (list node_id) := topological_sort (gr_graph g).

(** src/libecalc/common/graph.py:76-87 *)
Definition breadth_first_search_tree (g : graph) (source : node_id) : result (list node_id) :=
  bfs_tree (gr_graph g) source.

(** ** The tree of energy containers *)

(** EnergyContainerEnergyModelBuilder: the registered containers, each with the
    id of its parent if it has one (the component itself is left out;
    registering an id again replaces the component, and adds another edge).
    src/libecalc/presentation/yaml/domain/energy_container_energy_model_builder.py:37-47 *)
Definition registration : Type := node_id * option node_id.
Definition registered_nodes (regs : list registration) : list node_id :=
  fold_left (fun l r => add_id (fst r) l) regs [].
Definition registered_edges (regs : list registration) : list (node_id * node_id) :=
  flat_map (fun r => match snd r with Some p => [(p, fst r)] | None => [] end) regs.

Fixpoint add_edges (es : list (node_id * node_id)) (g : graph) : result graph :=
  match es with
  | [] => Ok g
  | e :: es' => do g' <- add_edge (fst e) (snd e) g; add_edges es' g'
  end.

(** src/libecalc/presentation/yaml/domain/energy_container_energy_model_builder.py:49-61 *)
Definition build (regs : list registration) : result graph :=
  add_edges (registered_edges regs) (fold_left (fun g v => add_node v g) (registered_nodes regs) empty_graph).

(** EnergyContainerEnergyModel.get_energy_containers, get_children,
    get_all_children, get_parent, get_root.
    src/libecalc/presentation/yaml/domain/energy_container_energy_model_builder.py:15-34 *)
Definition get_energy_containers (g : graph) : list node_id := nodes (gr_graph g).
Definition get_children (g : graph) (v : node_id) : result (list node_id) := get_successors g v false.
Definition get_all_children (g : graph) (v : node_id) : result (list node_id) := get_successors g v true.
Definition get_parent (g : graph) (v : node_id) : result node_id := get_predecessor g v.
Definition get_root (g : graph) : result node_id := root g.

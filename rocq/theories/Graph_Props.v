(** C47, C56: traversals of the component graph and the tree of energy containers. *)
From Coq Require Import PeanoNat String.
From Verif Require Import Base BaseLemmas Graph_Model Graph_Spec Graph_Proofs Graph_Proofs2 Graph_Proofs3.
Local Open Scope list_scope.
Local Open Scope nat_scope.

(** C47: the sorted ids are the ids of the graph, each once, every edge pointing forward; the sort raises exactly for a graph
    with a cycle. *)
Theorem C47_topological : forall g, made g ->
  match sorted_node_ids g with
  | Ok order => Permutation order (nodes (gr_graph g)) /\ (forall u v, edge (gr_graph g) u v -> before order u v)
                /\ ~ cyclic (gr_graph g)
  | Err e => e = ValueError /\ cyclic (gr_graph g)
  end.
Proof. exact topological_proof. Qed.
Print Assumptions C47_topological.

(** C47: the breadth first tree from a node visits that node first, then every node that can be reached from it, each once,
    never a nearer one after a farther one. *)
Theorem C47_breadth_first : forall g s, made g ->
  match breadth_first_search_tree g s with
  | Ok l => In s (nodes (gr_graph g)) /\ nth_error l 0 = Some s /\ NoDup l /\
      (forall v, In v l <-> reachable (gr_graph g) s v) /\
      (forall i j u v a b, i < j -> nth_error l i = Some u -> nth_error l j = Some v ->
         distance (gr_graph g) s u a -> distance (gr_graph g) s v b -> a <= b)
  | Err e => e = KeyError /\ ~ In s (nodes (gr_graph g))
  end.
Proof. exact breadth_first_proof. Qed.
Print Assumptions C47_breadth_first.

(** C47: the recursive successors are the other nodes that can be reached, each once. *)
Theorem C47_successors_recursive : forall g s, made g ->
  match get_successors g s true with
  | Ok l => In s (nodes (gr_graph g)) /\ NoDup l /\ forall v, In v l <-> reachable (gr_graph g) s v /\ v <> s
  | Err e => e = KeyError /\ ~ In s (nodes (gr_graph g))
  end.
Proof. exact successors_proof. Qed.
Print Assumptions C47_successors_recursive.

(** C47: the direct successors. *)
Theorem C47_successors : forall g s, made g ->
  match get_successors g s false with
  | Ok l => In s (nodes (gr_graph g)) /\ NoDup l /\ forall v, In v l <-> edge (gr_graph g) s v
  | Err e => e = KeyError /\ ~ In s (nodes (gr_graph g))
  end.
Proof. exact direct_successors_proof. Qed.
Print Assumptions C47_successors.

(** C47: the predecessor is returned when there is exactly one. *)
Theorem C47_predecessor : forall g v, made g ->
  match get_predecessor g v with
  | Ok u => forall w, edge (gr_graph g) w v <-> w = u
  | Err e =>
      (e = KeyError /\ ~ In v (nodes (gr_graph g))) \/
      (e = IndexError /\ In v (nodes (gr_graph g)) /\ forall w, ~ edge (gr_graph g) w v) \/
      ((e = ValueError \/ e = TypeError) /\ exists a b, a <> b /\ edge (gr_graph g) a v /\ edge (gr_graph g) b v)
  end.
Proof. exact predecessor_proof. Qed.
Print Assumptions C47_predecessor.

(** C47: an edge is added between known nodes only, and nothing else changes. *)
Theorem C47_add_edge : forall g u v, made g ->
  match add_edge u v g with
  | Ok g' => In u (nodes (gr_graph g)) /\ In v (nodes (gr_graph g)) /\ nodes (gr_graph g') = nodes (gr_graph g) /\
             forall a b, edge (gr_graph g') a b <-> edge (gr_graph g) a b \/ (a = u /\ b = v)
  | Err e => e = ValueError /\ (~ In u (nodes (gr_graph g)) \/ ~ In v (nodes (gr_graph g)))
  end.
Proof. exact add_edge_proof. Qed.
Print Assumptions C47_add_edge.

(** C47: adding a sub graph adds its nodes and edges. *)
Theorem C47_add_subgraph : forall g h, made g -> made h ->
  (forall x, In x (nodes (gr_graph (add_subgraph h g))) <-> In x (nodes (gr_graph g)) \/ In x (nodes (gr_graph h))) /\
  (forall u v, edge (gr_graph (add_subgraph h g)) u v <-> edge (gr_graph g) u v \/ edge (gr_graph h) u v).
Proof. exact subgraph_proof. Qed.
Print Assumptions C47_add_subgraph.

(** C56: a model is built exactly when every parent is registered; its containers and edges are the registered ones. *)
Theorem C56_build : forall regs,
  match build regs with
  | Ok g => made g /\ (forall c p, In (c, Some p) regs -> In p (map fst regs)) /\
            (forall x, In x (get_energy_containers g) <-> In x (map fst regs)) /\
            (forall u v, edge (gr_graph g) u v <-> In (v, Some u) regs)
  | Err e => e = ValueError /\ exists c p, In (c, Some p) regs /\ ~ In p (map fst regs)
  end.
Proof. exact build_ok_proof. Qed.
Print Assumptions C56_build.

(** C56: for a hierarchy (every id once), parents, children in order of registration, all descendants, and the containers in
    order of registration. *)
Theorem C56_hierarchy : forall regs, hierarchy regs ->
  exists g, build regs = Ok g /\
    get_energy_containers g = map fst regs /\
    (forall c p, In (c, p) regs ->
       get_parent g c = match p with Some q => Ok q | None => Err IndexError end) /\
    (forall v, In v (map fst regs) ->
       get_children g v = Ok (children_of regs v)) /\
    (forall v, In v (map fst regs) ->
       exists l, get_all_children g v = Ok l /\ NoDup l /\ forall d, In d l <-> above regs v d /\ d <> v) /\
    (forall v, ~ In v (map fst regs) ->
       get_parent g v = Err KeyError /\ get_children g v = Err KeyError /\ get_all_children g v = Err KeyError).
Proof. exact hierarchy_proof. Qed.
Print Assumptions C56_hierarchy.

(** C56: the root is the first container registered without a parent. *)
Theorem C56_root : forall regs g, hierarchy regs -> build regs = Ok g ->
  match get_root g with
  | Ok r => first_without_parent regs = Some r /\ ~ cyclic (gr_graph g)
  | Err e => (e = IndexError /\ regs = []) \/ (e = ValueError /\ cyclic (gr_graph g))
  end.
Proof. exact root_proof. Qed.
Print Assumptions C56_root.

Definition C47_a := NStr "asset". Definition C47_b := NStr "installation". Definition C47_c := NUuid 1. Definition C47_d := NUuid 2.
Definition C47_regs : list registration :=
  [(C47_c, Some C47_b); (C47_a, None); (C47_d, Some C47_b); (C47_b, Some C47_a)].
Lemma C47_hierarchy_holds : hierarchy C47_regs.
Proof.
  split; [repeat constructor; cbn; intuition discriminate|].
  intros c p. cbn. intuition congruence.
Qed.
Example C47_case : exists g, build C47_regs = Ok g /\ made g /\
  sorted_node_ids g = Ok [C47_a; C47_b; C47_c; C47_d] /\
  breadth_first_search_tree g C47_b = Ok [C47_b; C47_c; C47_d] /\
  get_all_children g C47_a = Ok [C47_b; C47_c; C47_d] /\
  get_parent g C47_d = Ok C47_b /\ get_children g C47_b = Ok [C47_c; C47_d] /\ get_root g = Ok C47_a.
Proof.
  pose proof (build_ok_proof C47_regs) as H.
  destruct (build C47_regs) as [g|e] eqn:E; [|vm_compute in E; discriminate].
  exists g. split; [reflexivity|]. split; [tauto|]. vm_compute in E. injection E as <-. repeat split.
Qed.
(** a cycle is noticed *)
Example C47_case_cycle : exists g, build [(C47_a, Some C47_b); (C47_b, Some C47_a)] = Ok g /\ sorted_node_ids g = Err ValueError.
Proof. eexists. split; vm_compute; reflexivity. Qed.
Example C56_case_missing_parent : build [(C47_a, Some C47_b)] = Err ValueError.
Proof. vm_compute; reflexivity. Qed.

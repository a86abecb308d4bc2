(** Vocabulary for the properties of the component graph (C47). *)
From Coq Require Import PeanoNat.
From Verif Require Import Base Graph_Model.
Local Open Scope list_scope.
Local Open Scope nat_scope.

(** There is an edge from [u] to [v]. *)
Definition edge (g : digraph) (u v : node_id) : Prop := In v (adj g u).

(** There is a path of exactly [n] edges from [u] to [v]. *)
Inductive path (g : digraph) : nat -> node_id -> node_id -> Prop :=
| path_nil : forall u, path g 0 u u
| path_step : forall n u v w, path g n u v -> edge g v w -> path g (S n) u w.
Definition reachable (g : digraph) (u v : node_id) : Prop := exists n, path g n u v.

(** A path of at least one edge from a node back to itself. *)
Definition cyclic (g : digraph) : Prop := exists v n, path g (S n) v v.

(** [u] stands before [v] in [l]. *)
Definition before (l : list node_id) (u v : node_id) : Prop :=
  exists i j, i < j /\ nth_error l i = Some u /\ nth_error l j = Some v.

(** [n] is the length of the shortest path from [u] to [v]. *)
Definition distance (g : digraph) (u v : node_id) (n : nat) : Prop :=
  path g n u v /\ forall m, path g m u v -> n <= m.

(** The graphs that can be made with the methods of Graph. *)
Inductive made : graph -> Prop :=
| made_empty : made empty_graph
| made_node : forall g v, made g -> made (add_node v g)
| made_edge : forall g u v g', made g -> add_edge u v g = Ok g' -> made g'
| made_subgraph : forall g h, made g -> made h -> made (add_subgraph h g).

(** A hierarchy of containers: every id registered once, parents registered too. *)
Definition hierarchy (regs : list registration) : Prop :=
  NoDup (map fst regs) /\
  (forall c p, In (c, Some p) regs -> In p (map fst regs)).
(** [a] is above [d] in the hierarchy, one or more levels up. *)
Inductive above (regs : list registration) : node_id -> node_id -> Prop :=
| above_parent : forall p c, In (c, Some p) regs -> above regs p c
| above_step : forall a p c, above regs a p -> In (c, Some p) regs -> above regs a c.

(** The ids registered with [v] as parent, in the order of registration. *)
Definition children_of (regs : list registration) (v : node_id) : list node_id :=
  map fst (filter (fun r => match snd r with Some p => node_eqb p v | None => false end) regs).
(** The first id registered without a parent. *)
Definition first_without_parent (regs : list registration) : option node_id :=
  option_map fst (List.find (fun r => match snd r with None => true | Some _ => false end) regs).

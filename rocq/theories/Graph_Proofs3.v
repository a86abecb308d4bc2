(** The tree of energy containers; sub graphs; predecessors. *)
From Coq Require Import PeanoNat String.
From Verif Require Import Base BaseLemmas Graph_Model Graph_Spec Graph_Proofs Graph_Proofs2.
Local Open Scope list_scope.
Local Open Scope nat_scope.

(** ** The nodes with a payload are the nodes of the digraph *)
Lemma fold_nodes_In : forall vs g x,
  In x (nodes (fold_left (fun r v => nx_add_node v r) vs g)) <-> In x (nodes g) \/ In x vs.
Proof.
  induction vs as [|v vs IH]; intros g x; cbn [fold_left]; [cbn; tauto|].
  rewrite IH, nx_add_node_nodes, add_id_In. cbn. intuition congruence.
Qed.
Lemma fold_edges_In : forall es g x,
  In x (nodes (fold_left (fun r e => nx_add_edge e r) es g)) <-> In x (nodes g) \/ In x (map fst es) \/ In x (map snd es).
Proof.
  induction es as [|[a b] es IH]; intros g x; cbn [fold_left]; [cbn; tauto|].
  rewrite IH, nx_add_edge_nodes, !add_id_In. cbn. intuition congruence.
Qed.
Lemma fold_ids_In : forall vs l x, In x (fold_left (fun l v => add_id v l) vs l) <-> In x l \/ In x vs.
Proof.
  induction vs as [|v vs IH]; intros l x; cbn [fold_left]; [cbn; tauto|].
  rewrite IH, add_id_In. cbn. intuition congruence.
Qed.
Lemma fold_nodes_adj : forall vs g u, adj (fold_left (fun r v => nx_add_node v r) vs g) u = adj g u.
Proof. induction vs as [|v vs IH]; intros g u; cbn [fold_left]; [reflexivity|]. rewrite IH, nx_add_node_adj. reflexivity. Qed.
Lemma fold_edges_edge : forall es g u v,
  edge (fold_left (fun r e => nx_add_edge e r) es g) u v <-> edge g u v \/ In (u, v) es.
Proof.
  induction es as [|[a b] es IH]; intros g u v; cbn [fold_left]; [cbn; tauto|].
  rewrite IH, nx_add_edge_edge. cbn. intuition congruence.
Qed.
Lemma nx_edges_In : forall g u v, wf g -> In (u, v) (nx_edges g) <-> edge g u v.
Proof.
  intros g u v Hw. unfold nx_edges. rewrite in_flat_map. split.
  - intros [[w l] [H1 H2]]. cbn [fst snd] in H2. apply in_map_iff in H2. destruct H2 as [x [E H2]].
    injection E as <- <-. unfold edge. rewrite (adj_of_In g w l Hw H1). assumption.
  - intros H. pose proof (proj1 (edge_nodes g u v Hw H)) as Hu. exists (u, adj g u).
    split; [apply adj_In; assumption|]. cbn [fst snd]. apply in_map_iff. exists v. split; [reflexivity|exact H].
Qed.
Lemma compose_nodes : forall g h x, wf g -> wf h -> In x (nodes (nx_compose g h)) <-> In x (nodes g) \/ In x (nodes h).
Proof.
  intros g h x Hg Hh. unfold nx_compose. rewrite fold_edges_In, fold_nodes_In, fold_edges_In, fold_nodes_In.
  assert (He : forall k y, wf k -> In y (map fst (nx_edges k)) \/ In y (map snd (nx_edges k)) -> In y (nodes k)).
  { intros k y Hk [H|H]; apply in_map_iff in H; destruct H as [[a b] [E H]]; apply nx_edges_In in H; [|assumption| |assumption];
    apply edge_nodes in H; [|assumption| |assumption]; cbn in E; subst; tauto. }
  pose proof (He g x Hg). pose proof (He h x Hh). cbn. tauto.
Qed.
Lemma compose_edges : forall g h u v, wf g -> wf h -> edge (nx_compose g h) u v <-> edge g u v \/ edge h u v.
Proof.
  intros g h u v Hg Hh. unfold nx_compose. rewrite fold_edges_edge.
  unfold edge at 1. rewrite fold_nodes_adj. fold (edge (fold_left (fun r e => nx_add_edge e r) (nx_edges g) (fold_left (fun r v0 => nx_add_node v0 r) (nodes g) [])) u v).
  rewrite fold_edges_edge. unfold edge at 1. rewrite fold_nodes_adj.
  rewrite !nx_edges_In by assumption. cbn. tauto.
Qed.

Lemma made_nodes : forall g, made g -> forall x, In x (nodes (gr_graph g)) <-> In x (gr_nodes g).
Proof.
  intros g H. induction H as [|g v H IH|g u v g' H IH E|g h H IH H' IH']; intros x.
  - cbn; tauto.
  - cbn [add_node gr_graph gr_nodes]. rewrite nx_add_node_nodes, !add_id_In, IH. tauto.
  - unfold add_edge in E. destruct (negb (mem u (gr_nodes g)) || negb (mem v (gr_nodes g)))%bool eqn:Eb; [discriminate|].
    injection E as <-. cbn [gr_graph gr_nodes]. apply orb_false_iff in Eb. destruct Eb as [E1 E2].
    apply negb_false_iff, mem_In in E1. apply negb_false_iff, mem_In in E2.
    rewrite nx_add_edge_nodes, !add_id_In, IH. split; [|tauto]. intros [[Hx| ->]| ->]; assumption.
  - cbn [add_subgraph gr_graph gr_nodes]. rewrite fold_ids_In, compose_nodes, IH, IH' by (apply made_wf; assumption). tauto.
Qed.

Lemma add_edge_proof : forall g u v, made g ->
  match add_edge u v g with
  | Ok g' => In u (nodes (gr_graph g)) /\ In v (nodes (gr_graph g)) /\ nodes (gr_graph g') = nodes (gr_graph g) /\
             forall a b, edge (gr_graph g') a b <-> edge (gr_graph g) a b \/ (a = u /\ b = v)
  | Err e => e = ValueError /\ (~ In u (nodes (gr_graph g)) \/ ~ In v (nodes (gr_graph g)))
  end.
Proof.
  intros g u v Hm. pose proof (made_nodes g Hm) as Hn. unfold add_edge.
  destruct (mem u (gr_nodes g)) eqn:E1; destruct (mem v (gr_nodes g)) eqn:E2; cbn [negb orb].
  - apply mem_In in E1, E2. rewrite <- Hn in E1, E2. split; [assumption|]. split; [assumption|].
    cbn [gr_graph]. split.
    + rewrite nx_add_edge_nodes. unfold add_id. rewrite (proj2 (mem_In u _) E1). rewrite (proj2 (mem_In v _) E2). reflexivity.
    + intros a b. apply nx_add_edge_edge.
  - apply mem_notIn in E2. rewrite <- Hn in E2. split; [reflexivity|tauto].
  - apply mem_notIn in E1. rewrite <- Hn in E1. split; [reflexivity|tauto].
  - apply mem_notIn in E1. rewrite <- Hn in E1. split; [reflexivity|tauto].
Qed.

Lemma subgraph_proof : forall g h, made g -> made h ->
  (forall x, In x (nodes (gr_graph (add_subgraph h g))) <-> In x (nodes (gr_graph g)) \/ In x (nodes (gr_graph h))) /\
  (forall u v, edge (gr_graph (add_subgraph h g)) u v <-> edge (gr_graph g) u v \/ edge (gr_graph h) u v).
Proof.
  intros g h Hg Hh. apply made_wf in Hg, Hh. cbn [add_subgraph gr_graph]. split; intros.
  - apply compose_nodes; assumption.
  - apply compose_edges; assumption.
Qed.

Lemma NoDup_preds : forall g v, wf g -> NoDup (preds g v).
Proof. intros g v [H _]. unfold preds. apply NoDup_filter. exact H. Qed.

Lemma predecessor_proof : forall g v, made g ->
  match get_predecessor g v with
  | Ok u => forall w, edge (gr_graph g) w v <-> w = u
  | Err e =>
      (e = KeyError /\ ~ In v (nodes (gr_graph g))) \/
      (e = IndexError /\ In v (nodes (gr_graph g)) /\ forall w, ~ edge (gr_graph g) w v) \/
      ((e = ValueError \/ e = TypeError) /\ exists a b, a <> b /\ edge (gr_graph g) a v /\ edge (gr_graph g) b v)
  end.
Proof.
  intros g v Hm. pose proof (made_wf g Hm) as Hw. unfold get_predecessor, has_node.
  destruct (mem v (nodes (gr_graph g))) eqn:E.
  - apply mem_In in E. pose proof (preds_spec (gr_graph g)) as Hp. pose proof (NoDup_preds (gr_graph g) v Hw) as Hnd.
    destruct (preds (gr_graph g) v) as [|a [|b l]] eqn:Ep.
    + right; left. split; [reflexivity|]. split; [assumption|]. intros w Hw'. apply Hp in Hw'; [|assumption]. rewrite Ep in Hw'. destruct Hw'.
    + intros w. rewrite <- Hp by assumption. rewrite Ep. cbn. intuition congruence.
    + assert (Hab : exists x y, x <> y /\ edge (gr_graph g) x v /\ edge (gr_graph g) y v).
      { exists a, b. split; [inversion Hnd as [|? ? Hx]; subst; intros ->; apply Hx; left; reflexivity|].
        split; apply Hp; try assumption; rewrite Ep; [left; reflexivity|right; left; reflexivity]. }
      destruct (forallb _ _); right; right; split; auto.
  - apply mem_notIn in E. left. split; [reflexivity|assumption].
Qed.

(** ** Building the tree *)
Lemma registered_nodes_NoDup : forall regs, NoDup (map fst regs) -> registered_nodes regs = map fst regs.
Proof.
  intros regs H. unfold registered_nodes.
  assert (Hgen : forall rs l, NoDup (l ++ map fst rs) -> fold_left (fun l (r : registration) => add_id (fst r) l) rs l = l ++ map fst rs).
  { induction rs as [|r rs IH]; intros l Hl; cbn [fold_left map]; [rewrite app_nil_r; reflexivity|].
    cbn [map] in Hl. assert (Hr : ~ In (fst r) l).
    { intros Hin. apply NoDup_remove_2 in Hl. apply Hl. apply in_app_iff; left; assumption. }
    unfold add_id at 2. apply mem_notIn in Hr. rewrite Hr. rewrite IH; rewrite <- app_assoc; [reflexivity|assumption]. }
  exact (Hgen regs [] H).
Qed.
Lemma registered_nodes_In : forall regs x, In x (registered_nodes regs) <-> In x (map fst regs).
Proof.
  intros regs x. unfold registered_nodes.
  assert (Hgen : forall rs l, In x (fold_left (fun l (r : registration) => add_id (fst r) l) rs l) <-> In x l \/ In x (map fst rs)).
  { induction rs as [|r rs IH]; intros l; cbn [fold_left map]; [cbn; tauto|]. rewrite IH, add_id_In. cbn. intuition congruence. }
  etransitivity; [exact (Hgen regs [])|]. cbn. tauto.
Qed.
Lemma registered_edges_In : forall regs u v, In (u, v) (registered_edges regs) <-> In (v, Some u) regs.
Proof.
  intros regs u v. unfold registered_edges. rewrite in_flat_map. split.
  - intros [[c p] [H1 H2]]. cbn [fst snd] in H2. destruct p as [p|]; [|destruct H2]. destruct H2 as [H2|[]].
    injection H2 as <- <-. assumption.
  - intros H. exists (v, Some u). split; [assumption|]. left; reflexivity.
Qed.

Definition base_graph (regs : list registration) : graph :=
  fold_left (fun g v => add_node v g) (registered_nodes regs) empty_graph.
Lemma base_graph_made : forall regs, made (base_graph regs).
Proof.
  intros regs. unfold base_graph.
  assert (H : forall vs g, made g -> made (fold_left (fun g v => add_node v g) vs g)).
  { induction vs as [|v vs IH]; intros g Hg; cbn; [assumption|]. apply IH. constructor; assumption. }
  apply H. constructor.
Qed.
Lemma fold_add_node : forall vs g,
  fold_left (fun g v => add_node v g) vs g =
  mkGraph (fold_left (fun r v => nx_add_node v r) vs (gr_graph g)) (fold_left (fun l v => add_id v l) vs (gr_nodes g)).
Proof. induction vs as [|v vs IH]; intros g; cbn [fold_left]; [destruct g; reflexivity|]. rewrite IH. reflexivity. Qed.

Lemma add_edges_spec : forall es g, made g ->
  match add_edges es g with
  | Ok g' => made g' /\ (forall a b, In (a, b) es -> In a (gr_nodes g) /\ In b (gr_nodes g)) /\
             gr_graph g' = fold_left (fun r e => nx_add_edge e r) es (gr_graph g) /\ gr_nodes g' = gr_nodes g
  | Err e => e = ValueError /\ exists a b, In (a, b) es /\ (~ In a (gr_nodes g) \/ ~ In b (gr_nodes g))
  end.
Proof.
  induction es as [|[a b] es IH]; intros g Hm; cbn [add_edges fst snd].
  - split; [assumption|]. split; [intros a b []|]. split; reflexivity.
  - unfold add_edge. destruct (mem a (gr_nodes g)) eqn:E1; destruct (mem b (gr_nodes g)) eqn:E2; cbn [negb orb bind].
    + assert (Hm' : made (mkGraph (nx_add_edge (a, b) (gr_graph g)) (gr_nodes g))).
      { apply (made_edge g a b); [assumption|]. unfold add_edge. rewrite E1, E2. reflexivity. }
      specialize (IH _ Hm'). cbn [gr_graph gr_nodes] in IH. destruct (add_edges es _) as [g'|e].
      * destruct IH as [H1 [H2 [H3 H4]]]. split; [assumption|]. split; [|split; assumption].
        intros x y [Hxy|Hxy]; [injection Hxy as <- <-; split; apply mem_In; assumption | apply H2; assumption].
      * destruct IH as [H1 [x [y [H2 H3]]]]. split; [assumption|]. exists x, y. split; [right; assumption|assumption].
    + apply mem_notIn in E2. split; [reflexivity|]. exists a, b. split; [left; reflexivity|tauto].
    + apply mem_notIn in E1. split; [reflexivity|]. exists a, b. split; [left; reflexivity|tauto].
    + apply mem_notIn in E1. split; [reflexivity|]. exists a, b. split; [left; reflexivity|tauto].
Qed.

Lemma base_graph_nodes : forall regs x, In x (gr_nodes (base_graph regs)) <-> In x (map fst regs).
Proof.
  intros regs x. unfold base_graph. rewrite fold_add_node. cbn [gr_nodes empty_graph].
  rewrite fold_ids_In, registered_nodes_In. cbn. tauto.
Qed.

Lemma build_ok_proof : forall regs,
  match build regs with
  | Ok g => made g /\ (forall c p, In (c, Some p) regs -> In p (map fst regs)) /\
            (forall x, In x (get_energy_containers g) <-> In x (map fst regs)) /\
            (forall u v, edge (gr_graph g) u v <-> In (v, Some u) regs)
  | Err e => e = ValueError /\ exists c p, In (c, Some p) regs /\ ~ In p (map fst regs)
  end.
Proof.
  intros regs. unfold build. fold (base_graph regs).
  pose proof (add_edges_spec (registered_edges regs) (base_graph regs) (base_graph_made regs)) as H.
  destruct (add_edges (registered_edges regs) (base_graph regs)) as [g|e].
  - destruct H as [H1 [H2 [H3 H4]]]. split; [assumption|]. split; [|split].
    + intros c p Hc. apply registered_edges_In in Hc. apply H2 in Hc. destruct Hc as [Hc _].
      apply base_graph_nodes in Hc. assumption.
    + intros x. unfold get_energy_containers. rewrite (made_nodes g H1), H4. apply base_graph_nodes.
    + intros u v. rewrite H3, fold_edges_edge, registered_edges_In. unfold base_graph. rewrite fold_add_node.
      cbn [gr_graph empty_graph]. unfold edge. rewrite fold_nodes_adj. cbn. tauto.
  - destruct H as [H1 [a [b [H2 H3]]]]. split; [assumption|]. apply registered_edges_In in H2.
    exists b, a. split; [assumption|]. rewrite !base_graph_nodes in H3. destruct H3 as [H3|H3]; [assumption|].
    exfalso; apply H3. apply (in_map fst) in H2. exact H2.
Qed.

(** successors keep the order of registration *)
Lemma fold_edges_adj : forall es g u,
  NoDup (map snd es) -> (forall e w, In e es -> ~ In (snd e) (adj g w)) ->
  adj (fold_left (fun r e => nx_add_edge e r) es g) u = adj g u ++ map snd (filter (fun e => node_eqb (fst e) u) es).
Proof.
  induction es as [|[a b] es IH]; intros g u Hn Hd; cbn [fold_left filter]; [rewrite app_nil_r; reflexivity|].
  cbn [map snd] in Hn. inversion Hn as [|? ? Hb Hn']; subst.
  assert (Hab : mem b (adj g a) = false) by (apply mem_notIn; apply (Hd (a, b) a); left; reflexivity).
  rewrite IH; [|assumption|].
  - rewrite nx_add_edge_adj, Hab. cbn [fst]. destruct (node_eqb u a) eqn:E.
    + apply node_eqb_spec in E; subst u. rewrite node_eqb_refl. cbn [map snd]. rewrite <- app_assoc. reflexivity.
    + assert (E' : node_eqb a u = false) by (apply node_eqb_neq; apply node_eqb_neq in E; congruence). rewrite E'. reflexivity.
  - intros e w He. rewrite nx_add_edge_adj, Hab. destruct (node_eqb w a); [|apply (Hd e w); right; assumption].
    rewrite in_app_iff. intros [H|[H|[]]]; [apply (Hd e a) in H; [assumption|right; assumption]|].
    apply Hb. rewrite H. apply in_map; assumption.
Qed.

Lemma build_adj : forall regs g, NoDup (map fst regs) -> build regs = Ok g -> forall v, adj (gr_graph g) v = children_of regs v.
Proof.
  intros regs g Hn Hb v. unfold build in Hb. fold (base_graph regs) in Hb.
  pose proof (add_edges_spec (registered_edges regs) (base_graph regs) (base_graph_made regs)) as H. rewrite Hb in H.
  destruct H as [_ [_ [H3 _]]]. rewrite H3.
  assert (Hsub : forall x, In x (map snd (registered_edges regs)) -> In x (map fst regs)).
  { intros x Hx. apply in_map_iff in Hx. destruct Hx as [[a b] [E Hx]]. apply registered_edges_In in Hx. cbn in E; subst b.
    apply (in_map fst) in Hx. exact Hx. }
  assert (Hnd : NoDup (map snd (registered_edges regs))).
  { clear -Hn. unfold registered_edges. induction regs as [|[c p] regs IH]; [constructor|]. cbn [map fst] in Hn. inversion Hn; subst.
    specialize (IH H2). destruct p as [p|]; cbn [flat_map snd fst app map]; [|assumption].
    constructor; [|assumption]. intros Hin. apply H1. apply in_map_iff in Hin. destruct Hin as [[a b] [E Hx]].
    change (In (a, b) (registered_edges regs)) in Hx. apply registered_edges_In in Hx. cbn in E; subst b. apply (in_map fst) in Hx. exact Hx. }
  assert (Hadj0 : forall w, adj (gr_graph (base_graph regs)) w = []).
  { intros w. unfold base_graph. rewrite fold_add_node. cbn [gr_graph empty_graph]. rewrite fold_nodes_adj. reflexivity. }
  rewrite fold_edges_adj; [|assumption|intros e w _; rewrite Hadj0; intros []].
  rewrite Hadj0. cbn [app]. unfold children_of, registered_edges. clear.
  induction regs as [|[c p] regs IH]; [reflexivity|]. cbn [flat_map filter snd fst]. destruct p as [p|]; cbn [app filter fst]; [|exact IH].
  destruct (node_eqb p v); cbn [map snd fst]; [f_equal|]; exact IH.
Qed.

Lemma build_nodes : forall regs g, NoDup (map fst regs) -> build regs = Ok g -> nodes (gr_graph g) = map fst regs.
Proof.
  intros regs g Hn Hb. unfold build in Hb. fold (base_graph regs) in Hb.
  pose proof (add_edges_spec (registered_edges regs) (base_graph regs) (base_graph_made regs)) as H. rewrite Hb in H.
  destruct H as [_ [H2 [H3 _]]]. rewrite H3.
  assert (Hbase : nodes (gr_graph (base_graph regs)) = map fst regs).
  { unfold base_graph. rewrite fold_add_node. cbn [gr_graph empty_graph]. rewrite (registered_nodes_NoDup regs Hn).
    clear -Hn. assert (Hg : forall vs g, NoDup (nodes g ++ vs) -> nodes (fold_left (fun r v => nx_add_node v r) vs g) = nodes g ++ vs).
    { induction vs as [|v vs IH]; intros g Hg; cbn [fold_left]; [rewrite app_nil_r; reflexivity|].
      assert (Hv : ~ In v (nodes g)) by (intros Hin; apply NoDup_remove_2 in Hg; apply Hg; apply in_app_iff; left; assumption).
      assert (E : nodes (nx_add_node v g) = nodes g ++ [v]) by (rewrite nx_add_node_nodes; unfold add_id; apply mem_notIn in Hv; rewrite Hv; reflexivity).
      rewrite IH, E, <- app_assoc; [reflexivity|]. rewrite E, <- app_assoc. exact Hg. }
    apply (Hg (map fst regs) []). exact Hn. }
  assert (Hall : forall a b, In (a, b) (registered_edges regs) -> In a (map fst regs) /\ In b (map fst regs)).
  { intros a b Hab. apply H2 in Hab. rewrite !base_graph_nodes in Hab. exact Hab. }
  revert Hall Hbase. generalize (gr_graph (base_graph regs)). generalize (registered_edges regs). clear.
  induction l as [|[a b] es IH]; intros d Hall Hbase; cbn [fold_left]; [assumption|].
  apply IH; [intros x y Hxy; apply Hall; right; assumption|]. rewrite nx_add_edge_nodes, Hbase.
  destruct (Hall a b (or_introl eq_refl)) as [Ha Hb]. unfold add_id. rewrite (proj2 (mem_In a _) Ha), (proj2 (mem_In b _) Hb). reflexivity.
Qed.

Lemma hierarchy_proof : forall regs, hierarchy regs ->
  exists g, build regs = Ok g /\
    get_energy_containers g = map fst regs /\
    (forall c p, In (c, p) regs ->
       get_parent g c = match p with Some q => Ok q | None => Err IndexError end) /\
    (forall v, In v (map fst regs) ->
       get_children g v = Ok (children_of regs v)) /\
    (forall v, In v (map fst regs) ->
       exists l, get_all_children g v = Ok l /\ NoDup l /\ forall d, In d l <-> above regs v d /\ d <> v) /\
    (forall v, ~ In v (map fst regs) ->
       get_parent g v = Err KeyError /\ get_children g v = Err KeyError /\ get_all_children g v = Err KeyError).
Proof.
  intros regs [Hn Hp]. pose proof (build_ok_proof regs) as H. destruct (build regs) as [g|e] eqn:Eb.
  2:{ exfalso. destruct H as [_ [c [p [H1 H2]]]]. apply H2. eapply Hp; eassumption. }
  destruct H as [Hm [_ [_ Hedge]]]. pose proof (build_nodes regs g Hn Eb) as Hnodes.
  exists g. split; [reflexivity|]. split; [exact Hnodes|].
  assert (Hdet : forall c p q, In (c, p) regs -> In (c, q) regs -> p = q).
  { clear -Hn. induction regs as [|[x y] regs IH]; intros c p q H1 H2; [destruct H1|]. cbn [map fst] in Hn. inversion Hn; subst.
    destruct H1 as [H1|H1]; destruct H2 as [H2|H2].
    - congruence.
    - injection H1 as -> ->. exfalso; apply H3. apply (in_map fst) in H2. exact H2.
    - injection H2 as -> ->. exfalso; apply H3. apply (in_map fst) in H1. exact H1.
    - eapply IH; eassumption. }
  split.
  { intros c p Hc. unfold get_parent. pose proof (predecessor_proof g c Hm) as Hpr.
    assert (Hcn : In c (nodes (gr_graph g))) by (rewrite Hnodes; apply (in_map fst) in Hc; exact Hc).
    destruct (get_predecessor g c) as [u|e].
    - assert (Hu : In (c, Some u) regs) by (apply Hedge, Hpr; reflexivity). rewrite (Hdet c p (Some u) Hc Hu). reflexivity.
    - destruct Hpr as [[_ Hx]|[[-> [_ Hx]]|[_ [a [b [Hab [Ha Hb]]]]]]].
      + contradiction.
      + destruct p as [q|]; [|reflexivity]. exfalso. apply (Hx q), Hedge. exact Hc.
      + exfalso. apply Hedge in Ha, Hb. pose proof (Hdet c _ _ Ha Hb). congruence. }
  split.
  { intros v Hv. unfold get_children, get_successors, has_node. rewrite Hnodes, (proj2 (mem_In v _) Hv).
    rewrite (build_adj regs g Hn Eb). reflexivity. }
  split.
  { intros v Hv. unfold get_all_children. pose proof (successors_proof g v Hm) as Hs.
    destruct (get_successors g v true) as [l|e].
    - destruct Hs as [_ [Hnd Hl]]. exists l. split; [reflexivity|]. split; [assumption|]. intros d. rewrite Hl.
      assert (Hra : forall d, d <> v -> (reachable (gr_graph g) v d <-> above regs v d)).
      { assert (H1 : forall n x, path (gr_graph g) n v x -> x = v \/ above regs v x).
        { induction n as [|n IH]; intros x Hx; [inversion Hx; left; reflexivity|].
          apply path_snoc_inv in Hx. destruct Hx as [u [Hu He]]. apply Hedge in He. right.
          destruct (IH u Hu) as [->|Ha]; [constructor; assumption|econstructor; eassumption]. }
        assert (H2 : forall x y, above regs x y -> reachable (gr_graph g) x y).
        { intros x y Hxy. induction Hxy as [p c Hc|a p c Ha [n IH] Hc].
          - exists 1. econstructor; [constructor|]. apply Hedge; assumption.
          - exists (S n). econstructor; [exact IH|]. apply Hedge; assumption. }
        intros x Hx. split; [|apply H2]. intros [n Hpn]. destruct (H1 n x Hpn) as [->|Ha]; [congruence|assumption]. }
      split; intros [H1 H2]; (split; [apply (Hra d H2); assumption|assumption]).
    - exfalso. destruct Hs as [_ Hs]. apply Hs. rewrite Hnodes; assumption. }
  intros v Hv. assert (Hmem : mem v (nodes (gr_graph g)) = false) by (apply mem_notIn; rewrite Hnodes; assumption).
  unfold get_parent, get_predecessor, get_children, get_all_children, get_successors, dfs_tree, has_node. rewrite Hmem. repeat split.
Qed.

(** ** The root *)
Lemma topological_head : forall g order, topological_sort g = Ok order ->
  exists rest, order = zero_indegree g ++ rest.
Proof.
  intros g order H. unfold topological_sort in H. cbn [generations] in H.
  destruct (zero_indegree g) as [|z zs] eqn:Ez; [exists order; reflexivity|].
  destruct (release_generation g (z :: zs) (indegrees g) []) as [p|e]; [|discriminate]. cbn [bind] in H.
  destruct (generations g (length g) (snd p) (fst p)) as [rest|e]; [|discriminate]. cbn [bind] in H.
  injection H as <-. exists rest. reflexivity.
Qed.

Lemma root_proof : forall regs g, hierarchy regs -> build regs = Ok g ->
  match get_root g with
  | Ok r => first_without_parent regs = Some r /\ ~ cyclic (gr_graph g)
  | Err e => (e = IndexError /\ regs = []) \/ (e = ValueError /\ cyclic (gr_graph g))
  end.
Proof.
  intros regs g [Hn Hp] Eb. pose proof (build_ok_proof regs) as H. rewrite Eb in H. destruct H as [Hm [_ [_ Hedge]]].
  pose proof (build_nodes regs g Hn Eb) as Hnodes. pose proof (made_wf g Hm) as Hw.
  pose proof (topological_proof g Hm) as Ht. unfold get_root, root. unfold sorted_node_ids in Ht.
  destruct (topological_sort (gr_graph g)) as [order|e] eqn:Et; cbn [bind].
  2:{ right. destruct Ht as [-> Hc]. split; [reflexivity|assumption]. }
  destruct Ht as [Hperm [Hord Hac]].
  destruct (topological_head _ _ Et) as [rest Er].
  assert (Hz : zero_indegree (gr_graph g) = map fst (filter (fun r => match snd r with None => true | Some _ => false end) regs)).
  { unfold zero_indegree. rewrite Hnodes.
    assert (Hb : forall r, In r regs -> Nat.eqb (length (preds (gr_graph g) (fst r))) 0 = match snd r with None => true | Some _ => false end).
    { intros [c p] Hr. cbn [fst snd].
      assert (Hpr : forall u, In u (preds (gr_graph g) c) <-> In (c, Some u) regs) by (intros u; rewrite preds_spec by assumption; apply Hedge).
      destruct p as [q|].
      - assert (Hq : In q (preds (gr_graph g) c)) by (apply Hpr; assumption). destruct (preds (gr_graph g) c); [destruct Hq|reflexivity].
      - destruct (preds (gr_graph g) c) as [|u us] eqn:Epr; [reflexivity|]. exfalso.
        assert (Hu : In (c, Some u) regs) by (apply Hpr; left; reflexivity).
        clear -Hn Hr Hu. induction regs as [|[x y] regs IH]; [destruct Hr|]. cbn [map fst] in Hn. inversion Hn; subst.
        destruct Hr as [Hr|Hr]; destruct Hu as [Hu|Hu]; try congruence.
        + injection Hr as -> ->. apply H1. apply (in_map fst) in Hu. exact Hu.
        + injection Hu as -> ->. apply H1. apply (in_map fst) in Hr. exact Hr.
        + apply IH; assumption. }
    clear -Hb. induction regs as [|r regs IH]; [reflexivity|]. cbn [map filter]. rewrite Hb by (left; reflexivity).
    rewrite IH by (intros x Hx; apply Hb; right; assumption). destruct (snd r); reflexivity. }
  assert (Hfind : first_without_parent regs = nth_error (zero_indegree (gr_graph g)) 0).
  { rewrite Hz. unfold first_without_parent. clear. induction regs as [|r regs IH]; [reflexivity|]. cbn [List.find filter].
    destruct (snd r); [exact IH|reflexivity]. }
  rewrite Hfind.
  destruct (zero_indegree (gr_graph g)) as [|z zs] eqn:Ez.
  - cbn [app] in Er. subst rest. destruct order as [|o os].
    + cbn [nth_error of_option]. left. split; [reflexivity|]. apply Permutation_nil in Hperm. rewrite Hnodes in Hperm.
      destruct regs; [reflexivity|discriminate].
    + exfalso. assert (Ho : In o (nodes (gr_graph g))) by (eapply Permutation_in; [exact Hperm|left; reflexivity]).
      assert (Hno : preds (gr_graph g) o = []).
      { destruct (preds (gr_graph g) o) as [|u us] eqn:Ep; [reflexivity|]. exfalso.
        assert (Hu : edge (gr_graph g) u o) by (apply preds_spec; [assumption|rewrite Ep; left; reflexivity]).
        apply Hord in Hu. destruct Hu as [i [j [Hij [Hi Hj]]]].
        assert (Hnd : NoDup (o :: os)) by (eapply Permutation_NoDup; [symmetry; exact Hperm|exact (proj1 Hw)]).
        assert (j = 0) by (apply (proj1 (NoDup_nth_error (o :: os)) Hnd); [apply nth_error_Some; congruence|rewrite Hj; reflexivity]). lia. }
      assert (Hin : In o (zero_indegree (gr_graph g))) by (apply filter_In; split; [assumption|rewrite Hno; reflexivity]).
      rewrite Ez in Hin. destruct Hin.
  - rewrite Er. cbn. split; [reflexivity|assumption].
Qed.

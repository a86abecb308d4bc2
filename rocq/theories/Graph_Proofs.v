(** Basic facts about digraphs; topological sort. *)
From Coq Require Import PeanoNat String.
From Verif Require Import Base BaseLemmas Graph_Model Graph_Spec.
Local Open Scope list_scope.
Local Open Scope nat_scope.

Lemma node_eqb_spec : forall a b, node_eqb a b = true <-> a = b.
Proof. intros a b; unfold node_eqb; destruct (node_eq_dec a b); split; congruence. Qed.
Lemma node_eqb_refl : forall a, node_eqb a a = true.
Proof. intros a; apply node_eqb_spec; reflexivity. Qed.
Lemma node_eqb_neq : forall a b, node_eqb a b = false <-> a <> b.
Proof. intros a b; unfold node_eqb; destruct (node_eq_dec a b); split; congruence. Qed.
Lemma mem_In : forall x l, mem x l = true <-> In x l.
Proof.
  intros x l; unfold mem; rewrite existsb_exists; split.
  - intros [y [Hy E]]. apply node_eqb_spec in E. congruence.
  - intros H; exists x; split; [assumption | apply node_eqb_refl].
Qed.
Lemma mem_notIn : forall x l, mem x l = false <-> ~ In x l.
Proof. intros x l; rewrite <- mem_In; destruct (mem x l); split; congruence. Qed.

Definition wf (g : digraph) : Prop :=
  NoDup (nodes g) /\ forall v l, In (v, l) g -> NoDup l /\ incl l (nodes g).

Lemma adj_In : forall g v, In v (nodes g) -> In (v, adj g v) g.
Proof.
  intros g v H. unfold adj. destruct (dict_get node_eqb v g) as [l|] eqn:E.
  - apply (dict_get_In _ _ node_eqb) in E; [assumption | apply node_eqb_spec].
  - exfalso. revert E H. unfold nodes. induction g as [|[k l] g IH]; cbn; [tauto|].
    destruct (node_eqb v k) eqn:Ek; [discriminate|]. apply node_eqb_neq in Ek. intuition congruence.
Qed.
Lemma adj_notIn : forall g v, ~ In v (nodes g) -> adj g v = [].
Proof.
  intros g v H. unfold adj. destruct (dict_get node_eqb v g) as [l|] eqn:E; [|reflexivity].
  exfalso; apply H. apply (dict_get_In _ _ node_eqb) in E; [|apply node_eqb_spec].
  apply (in_map fst) in E. exact E.
Qed.
Lemma adj_of_In : forall g v l, wf g -> In (v, l) g -> adj g v = l.
Proof.
  intros g v l [Hn _] H. unfold adj.
  rewrite (dict_get_NoDup _ _ node_eqb v l); [reflexivity | apply node_eqb_spec | exact Hn | exact H].
Qed.
Lemma adj_wf : forall g v, wf g -> NoDup (adj g v) /\ incl (adj g v) (nodes g).
Proof.
  intros g v Hw. destruct (mem v (nodes g)) eqn:E.
  - apply mem_In in E. apply adj_In in E. apply Hw in E. exact E.
  - apply mem_notIn in E. rewrite (adj_notIn _ _ E). split; [constructor|]. intros x [].
Qed.
Lemma edge_nodes : forall g u v, wf g -> edge g u v -> In u (nodes g) /\ In v (nodes g).
Proof.
  intros g u v Hw H. split.
  - destruct (mem u (nodes g)) eqn:E; [apply mem_In; exact E|].
    apply mem_notIn in E. unfold edge in H. rewrite (adj_notIn _ _ E) in H. destruct H.
  - exact (proj2 (adj_wf g u Hw) _ H).
Qed.
Lemma preds_spec : forall g u v, wf g -> In u (preds g v) <-> edge g u v.
Proof.
  intros g u v Hw. unfold preds, edge. rewrite filter_In, mem_In. split; [tauto|].
  intros H. split; [|assumption]. exact (proj1 (edge_nodes g u v Hw H)).
Qed.

(** ** Adding nodes and edges *)
Lemma nx_add_node_nodes : forall v g, nodes (nx_add_node v g) = add_id v (nodes g).
Proof.
  intros v g; unfold nx_add_node, add_id, has_node. destruct (mem v (nodes g)); [reflexivity|].
  unfold nodes. rewrite map_app. reflexivity.
Qed.
Lemma add_id_In : forall v l x, In x (add_id v l) <-> In x l \/ x = v.
Proof.
  intros v l x; unfold add_id. destruct (mem v l) eqn:E.
  - apply mem_In in E. split; [tauto|]. intros [H| ->]; assumption.
  - rewrite in_app_iff. cbn. intuition congruence.
Qed.
Lemma add_id_NoDup : forall v l, NoDup l -> NoDup (add_id v l).
Proof.
  intros v l H; unfold add_id. destruct (mem v l) eqn:E; [assumption|].
  apply mem_notIn in E. apply (Permutation_NoDup (l := v :: l)).
  - change (v :: l) with ([v] ++ l). apply Permutation_app_comm.
  - constructor; assumption.
Qed.
Lemma nx_add_node_wf : forall v g, wf g -> wf (nx_add_node v g).
Proof.
  intros v g [Hn Hl]. split.
  - rewrite nx_add_node_nodes. apply add_id_NoDup; assumption.
  - intros w l H. rewrite nx_add_node_nodes.
    assert (Hinc : incl (nodes g) (add_id v (nodes g))) by (intros x Hx; apply add_id_In; left; assumption).
    unfold nx_add_node in H. destruct (has_node g v).
    + destruct (Hl w l H) as [H1 H2]. split; [assumption|]. intros x Hx. apply Hinc, H2, Hx.
    + apply in_app_iff in H. destruct H as [H|[H|[]]].
      * destruct (Hl w l H) as [H1 H2]. split; [assumption|]. intros x Hx. apply Hinc, H2, Hx.
      * injection H as <- <-. split; [constructor|]. intros x [].
Qed.
Lemma nx_add_node_adj : forall v g u, adj (nx_add_node v g) u = adj g u.
Proof.
  intros v g u; unfold nx_add_node. destruct (has_node g v) eqn:E; [reflexivity|].
  unfold adj. clear E. induction g as [|[k l] g IH].
  - cbn. destruct (node_eqb u v); reflexivity.
  - cbn. destruct (node_eqb u k); [reflexivity | exact IH].
Qed.

Lemma set_adj_nodes : forall g a l, In a (nodes g) -> nodes (dict_set node_eqb a l g) = nodes g.
Proof.
  intros g a l H. unfold nodes. apply dict_set_keys_in; [apply node_eqb_spec|].
  apply in_map_iff in H. destruct H as [[k m] [E H]]. cbn in E; subst k.
  apply (in_map fst) in H. exact H.
Qed.
Lemma set_adj_adj : forall g a l u, adj (dict_set node_eqb a l g) u = if node_eqb u a then l else adj g u.
Proof.
  intros g a l u. unfold adj. rewrite dict_get_set by apply node_eqb_spec.
  destruct (node_eqb u a); reflexivity.
Qed.
Lemma set_adj_In : forall g a l v m, NoDup (nodes g) -> In a (nodes g) ->
  In (v, m) (dict_set node_eqb a l g) -> (v = a /\ m = l) \/ (v <> a /\ In (v, m) g).
Proof.
  induction g as [|[k x] g IH]; intros a l v m Hn Ha H; cbn in *; [destruct Ha|].
  inversion Hn as [|? ? Hk Hn']; subst.
  destruct (node_eqb a k) eqn:E.
  - apply node_eqb_spec in E; subst k. destruct H as [H|H].
    + injection H as <- <-. left; split; reflexivity.
    + right. split; [|right; assumption]. intros ->. apply Hk. apply (in_map fst) in H. exact H.
  - apply node_eqb_neq in E. destruct H as [H|H].
    + injection H as <- <-. right. split; [congruence|]. left; reflexivity.
    + destruct Ha as [Ha|Ha]; [congruence|].
      destruct (IH a l v m Hn' Ha H) as [Hl|[Hr1 Hr2]]; [left; assumption | right; split; [assumption|right; assumption]].
Qed.

Lemma nx_add_edge_nodes : forall a b g, nodes (nx_add_edge (a, b) g) = add_id b (add_id a (nodes g)).
Proof.
  intros a b g. unfold nx_add_edge; cbn [fst snd].
  assert (Hn : nodes (nx_add_node b (nx_add_node a g)) = add_id b (add_id a (nodes g)))
    by (rewrite !nx_add_node_nodes; reflexivity).
  destruct (mem b _); [exact Hn|]. rewrite set_adj_nodes; [exact Hn|].
  rewrite Hn, !add_id_In. left; right; reflexivity.
Qed.
Lemma nx_add_edge_adj : forall a b g u,
  adj (nx_add_edge (a, b) g) u = if node_eqb u a then (if mem b (adj g a) then adj g a else adj g a ++ [b]) else adj g u.
Proof.
  intros a b g u. unfold nx_add_edge; cbn [fst snd]. rewrite !nx_add_node_adj.
  destruct (mem b (adj g a)) eqn:E.
  - rewrite !nx_add_node_adj. destruct (node_eqb u a) eqn:Eu; [|reflexivity].
    apply node_eqb_spec in Eu; subst u; reflexivity.
  - rewrite set_adj_adj, !nx_add_node_adj. reflexivity.
Qed.
Lemma nx_add_edge_wf : forall a b g, wf g -> wf (nx_add_edge (a, b) g).
Proof.
  intros a b g Hw.
  assert (Hw2 : wf (nx_add_node b (nx_add_node a g))) by (apply nx_add_node_wf, nx_add_node_wf; assumption).
  pose proof (nx_add_edge_nodes a b g) as Hn.
  unfold nx_add_edge in *; cbn [fst snd] in *.
  set (g2 := nx_add_node b (nx_add_node a g)) in *.
  assert (Hn2 : nodes g2 = add_id b (add_id a (nodes g))) by (unfold g2; rewrite !nx_add_node_nodes; reflexivity).
  destruct (mem b (adj g2 a)) eqn:E; [assumption|].
  assert (Ha : In a (nodes g2)) by (rewrite Hn2, !add_id_In; left; right; reflexivity).
  assert (Hb : In b (nodes g2)) by (rewrite Hn2, add_id_In; right; reflexivity).
  split.
  - rewrite set_adj_nodes by assumption. exact (proj1 Hw2).
  - intros v l H. rewrite set_adj_nodes by assumption.
    apply set_adj_In in H; [|exact (proj1 Hw2)|assumption].
    destruct H as [[-> ->]|[_ H]]; [|exact (proj2 Hw2 v l H)].
    destruct (adj_wf g2 a Hw2) as [H1 H2]. apply mem_notIn in E. split.
    + apply (Permutation_NoDup (l := b :: adj g2 a)).
      * change (b :: adj g2 a) with ([b] ++ adj g2 a). apply Permutation_app_comm.
      * constructor; assumption.
    + intros x Hx. apply in_app_iff in Hx. destruct Hx as [Hx|[<-|[]]]; [apply H2; assumption|assumption].
Qed.
Lemma nx_add_edge_edge : forall a b g u v, edge (nx_add_edge (a, b) g) u v <-> edge g u v \/ (u = a /\ v = b).
Proof.
  intros a b g u v; unfold edge. rewrite nx_add_edge_adj.
  destruct (node_eqb u a) eqn:E.
  - apply node_eqb_spec in E; subst u. destruct (mem b (adj g a)) eqn:Em.
    + apply mem_In in Em. split; [tauto|]. intros [H|[_ ->]]; assumption.
    + rewrite in_app_iff. cbn. intuition congruence.
  - apply node_eqb_neq in E. intuition congruence.
Qed.

Lemma fold_nodes_wf : forall vs g, wf g -> wf (fold_left (fun r v => nx_add_node v r) vs g).
Proof. induction vs as [|v vs IH]; intros g H; cbn; [assumption|]. apply IH, nx_add_node_wf, H. Qed.
Lemma fold_edges_wf : forall es g, wf g -> wf (fold_left (fun r e => nx_add_edge e r) es g).
Proof. induction es as [|[a b] es IH]; intros g H; cbn; [assumption|]. apply IH, nx_add_edge_wf, H. Qed.
Lemma wf_empty : wf [].
Proof. split; [constructor|]. intros v l []. Qed.
Lemma nx_compose_wf : forall g h, wf (nx_compose g h).
Proof. intros g h. unfold nx_compose. apply fold_edges_wf, fold_nodes_wf, fold_edges_wf, fold_nodes_wf, wf_empty. Qed.

Lemma made_wf : forall g, made g -> wf (gr_graph g).
Proof.
  intros g H. induction H as [|g v H IH|g u v g' H IH E|g h H IH H' IH'].
  - exact wf_empty.
  - apply nx_add_node_wf, IH.
  - unfold add_edge in E. destruct (orb _ _); [discriminate|]. injection E as <-. apply nx_add_edge_wf, IH.
  - apply nx_compose_wf.
Qed.

(** ** Topological sort *)
Definition targets (g : digraph) (vs : list node_id) : list node_id := flat_map (adj g) vs.
Notation count := (count_occ node_eq_dec).

Lemma preds_length : forall g v, wf g -> length (preds g v) = count (targets g (nodes g)) v.
Proof.
  intros g v Hw. unfold preds, targets. induction (nodes g) as [|u us IH]; [reflexivity|].
  cbn [filter flat_map]. rewrite count_occ_app. destruct (mem v (adj g u)) eqn:E.
  - apply mem_In in E. cbn [length]. rewrite IH.
    rewrite (proj1 (NoDup_count_occ' node_eq_dec (adj g u)) (proj1 (adj_wf g u Hw)) v E). reflexivity.
  - apply mem_notIn in E. rewrite (proj1 (count_occ_not_In node_eq_dec _ _) E). exact IH.
Qed.

(** [rem ind v]: the number of unprocessed predecessors according to the map *)
Definition rem (ind : list (node_id * nat)) (v : node_id) : nat :=
  match dict_get node_eqb v ind with Some d => d | None => 0 end.

Lemma dict_get_filter_keys : forall (V : Type) (ks : list node_id) (f : node_id -> V) (p : V -> bool) v,
  dict_get node_eqb v (filter (fun q => p (snd q)) (map (fun k => (k, f k)) ks)) =
  if mem v ks then (if p (f v) then Some (f v) else None) else None.
Proof.
  intros V ks f p v. induction ks as [|k ks IH]; [reflexivity|].
  cbn [map filter snd]. unfold mem in *. cbn [existsb].
  destruct (node_eqb v k) eqn:E.
  - apply node_eqb_spec in E; subst k. cbn [orb]. destruct (p (f v)) eqn:Ep.
    + cbn [dict_get]. rewrite node_eqb_refl. reflexivity.
    + rewrite IH. destruct (existsb (node_eqb v) ks); reflexivity.
  - cbn [orb]. destruct (p (f k)); [cbn [dict_get]; rewrite E|]; exact IH.
Qed.

Lemma dict_get_del : forall (V : Type) k v (d : list (node_id * V)),
  dict_get node_eqb v (del_key k d) = if node_eqb v k then None else dict_get node_eqb v d.
Proof.
  intros V k v d. unfold del_key. induction d as [|[a x] d IH]; cbn [filter dict_get fst].
  - destruct (node_eqb v k); reflexivity.
  - destruct (node_eqb k a) eqn:E; cbn [negb].
    + rewrite IH. apply node_eqb_spec in E; subst a. destruct (node_eqb v k) eqn:Ev; reflexivity.
    + cbn [dict_get]. destruct (node_eqb v a) eqn:Ea.
      * apply node_eqb_spec in Ea; subst a. apply node_eqb_neq in E.
        destruct (node_eqb v k) eqn:Ev; [apply node_eqb_spec in Ev; congruence|reflexivity].
      * exact IH.
Qed.

(** the map of in-degrees: positive entries, each key once *)
Definition positive (ind : list (node_id * nat)) : Prop :=
  forall v d, dict_get node_eqb v ind = Some d -> 0 < d.

(** Invariant: [done] have been processed, [pend] are released and not yet
    processed, [part] are the children of the current node processed so far. *)
Definition inv (g : digraph) (done pend part : list node_id) (ind : list (node_id * nat)) : Prop :=
  NoDup (done ++ pend) /\ incl (done ++ pend) (nodes g) /\ positive ind /\
  (forall v, rem ind v + count (targets g done ++ part) v = count (targets g (nodes g)) v) /\
  (forall v, In v (nodes g) -> In v (done ++ pend) \/ exists d, dict_get node_eqb v ind = Some d) /\
  (forall v, In v (done ++ pend) -> dict_get node_eqb v ind = None) /\
  (forall v d, dict_get node_eqb v ind = Some d -> In v (nodes g)).

Lemma NoDup_app_snoc : forall (l : list node_id) x, NoDup l -> ~ In x l -> NoDup (l ++ [x]).
Proof.
  intros l x Hl Hx. apply (Permutation_NoDup (l := x :: l)).
  - change (x :: l) with ([x] ++ l). apply Permutation_app_comm.
  - constructor; assumption.
Qed.

Lemma release_children_inv : forall g children done pend part ind,
  wf g ->
  inv g done pend part ind ->
  (forall v, count (targets g done ++ part ++ children) v <= count (targets g (nodes g)) v) ->
  exists ind' new, release_children children ind pend = Ok (ind', pend ++ new) /\
    inv g done (pend ++ new) (part ++ children) ind'.
Proof.
  intros g children; induction children as [|c cs IH]; intros done pend part ind Hw Hinv Hle; cbn [release_children].
  - exists ind, []. rewrite !app_nil_r. split; [reflexivity|assumption].
  - destruct Hinv as [Hnd [Hinc [Hpos [Hcnt [Hall [Hrel Hkeys]]]]]].
    assert (Hc : 0 < rem ind c).
    { specialize (Hcnt c). specialize (Hle c). rewrite !count_occ_app in *. cbn [count_occ] in Hle.
      destruct (node_eq_dec c c); [lia|congruence]. }
    unfold rem in Hc. destruct (dict_get node_eqb c ind) as [d|] eqn:Ec; [|lia].
    assert (Hcn : In c (nodes g)) by (apply (Hkeys c d Ec)).
    assert (Hcnot : ~ In c (done ++ pend)) by (intros H; apply Hrel in H; congruence).
    assert (Hle' : forall v, count (targets g done ++ (part ++ [c]) ++ cs) v <= count (targets g (nodes g)) v).
    { intros v. specialize (Hle v). rewrite <- app_assoc. exact Hle. }
    destruct (Nat.eqb (d - 1) 0) eqn:Ed.
    + apply Nat.eqb_eq in Ed. assert (d = 1) by lia. subst d.
      destruct (IH done (pend ++ [c]) (part ++ [c]) (del_key c ind) Hw) as [ind' [new [E Hi]]].
      * split; [rewrite app_assoc; apply NoDup_app_snoc; assumption|].
        split; [intros x Hx; rewrite app_assoc in Hx; apply in_app_iff in Hx; destruct Hx as [Hx|[<-|[]]]; auto|].
        split; [intros v d H; rewrite dict_get_del in H; destruct (node_eqb v c); [discriminate|]; eapply Hpos; eassumption|].
        split.
        { intros v. specialize (Hcnt v). rewrite !count_occ_app in *. unfold rem in *. rewrite dict_get_del.
          cbn [count_occ]. destruct (node_eqb v c) eqn:Ev.
          - apply node_eqb_spec in Ev; subst v. rewrite Ec in Hcnt. destruct (node_eq_dec c c); [lia|congruence].
          - apply node_eqb_neq in Ev. destruct (node_eq_dec c v); [congruence|]. lia. }
        split.
        { intros v Hv. rewrite dict_get_del. destruct (node_eqb v c) eqn:Ev.
          - apply node_eqb_spec in Ev; subst v. left. rewrite app_assoc. apply in_app_iff; right; left; reflexivity.
          - destruct (Hall v Hv) as [H|H]; [left|right; assumption].
            rewrite app_assoc. apply in_app_iff; left; assumption. }
        split.
        { intros v Hv. rewrite app_assoc in Hv. rewrite dict_get_del. destruct (node_eqb v c) eqn:Ev; [reflexivity|].
          apply in_app_iff in Hv. destruct Hv as [Hv|[<-|[]]]; [apply Hrel; assumption|].
          rewrite node_eqb_refl in Ev; discriminate. }
        intros v d H. rewrite dict_get_del in H. destruct (node_eqb v c); [discriminate|]. eapply Hkeys; eassumption.
      * exact Hle'.
      * exists ind', (c :: new). rewrite <- !app_assoc in *. cbn [app] in *. split; assumption.
    + apply Nat.eqb_neq in Ed.
      destruct (IH done pend (part ++ [c]) (dict_set node_eqb c (d - 1) ind) Hw) as [ind' [new [E Hi]]].
      * split; [assumption|]. split; [assumption|].
        split.
        { intros v x H. rewrite dict_get_set in H by apply node_eqb_spec.
          destruct (node_eqb v c); [injection H as <-; lia | eapply Hpos; eassumption]. }
        split.
        { intros v. specialize (Hcnt v). rewrite !count_occ_app in *. unfold rem in *.
          rewrite dict_get_set by apply node_eqb_spec. cbn [count_occ].
          destruct (node_eqb v c) eqn:Ev.
          - apply node_eqb_spec in Ev; subst v. rewrite Ec in Hcnt. destruct (node_eq_dec c c); [lia|congruence].
          - apply node_eqb_neq in Ev. destruct (node_eq_dec c v); [congruence|]. lia. }
        split.
        { intros v Hv. rewrite dict_get_set by apply node_eqb_spec. destruct (node_eqb v c); [right; eexists; reflexivity|].
          apply Hall; assumption. }
        split.
        { intros v Hv. rewrite dict_get_set by apply node_eqb_spec. destruct (node_eqb v c) eqn:Ev.
          - apply node_eqb_spec in Ev; subst v. contradiction.
          - apply Hrel; assumption. }
        intros v x H. rewrite dict_get_set in H by apply node_eqb_spec. destruct (node_eqb v c) eqn:Ev.
        -- apply node_eqb_spec in Ev; subst v. assumption.
        -- eapply Hkeys; eassumption.
      * exact Hle'.
      * exists ind', new. rewrite <- !app_assoc in Hi. cbn [app] in Hi. split; assumption.
Qed.

Lemma count_sub : forall g vs ws v, NoDup (vs ++ ws) -> incl (vs ++ ws) (nodes g) -> wf g ->
  count (targets g (vs ++ ws)) v <= count (targets g (nodes g)) v.
Proof.
  intros g vs ws v Hnd Hinc Hw.
  assert (Hgen : forall l m, NoDup l -> NoDup m -> incl l m -> count (targets g l) v <= count (targets g m) v).
  { induction l as [|x l IH]; intros m Hl Hm Hi; cbn [targets flat_map]; [cbn; lia|].
    inversion Hl as [|? ? Hx Hl']; subst.
    assert (Hxm : In x m) by (apply Hi; left; reflexivity).
    apply in_split in Hxm. destruct Hxm as [m1 [m2 ->]].
    assert (Hp : Permutation (m1 ++ x :: m2) (x :: m1 ++ m2)) by (symmetry; apply Permutation_middle).
    assert (Hm' : NoDup (m1 ++ m2)) by (apply NoDup_remove_1 in Hm; assumption).
    specialize (IH (m1 ++ m2) Hl' Hm').
    assert (Hi' : incl l (m1 ++ m2)).
    { intros y Hy. assert (Hy' : In y (m1 ++ x :: m2)) by (apply Hi; right; assumption).
      apply in_app_iff in Hy'. apply in_app_iff. destruct Hy' as [|[->|]]; [left; assumption|contradiction|right; assumption]. }
    specialize (IH Hi'). unfold targets in *. rewrite !flat_map_app, !count_occ_app in *. cbn [flat_map].
    rewrite !count_occ_app. lia. }
  apply Hgen; [assumption | exact (proj1 Hw) | assumption].
Qed.

Lemma inv_step : forall g done pend u ind, inv g done (u :: pend) (adj g u) ind -> inv g (done ++ [u]) pend [] ind.
Proof.
  intros g done pend u ind [H1 [H2 [H3 [H4 [H5 [H6 H7]]]]]].
  assert (E : (done ++ [u]) ++ pend = done ++ u :: pend) by (rewrite <- app_assoc; reflexivity).
  unfold inv. rewrite E. repeat (split; [assumption|]).
  split; [|repeat (split; [assumption|]); assumption].
  intros v. rewrite app_nil_r. unfold targets in *. rewrite flat_map_app. cbn [flat_map]. rewrite app_nil_r. apply H4.
Qed.

(** releasing a generation: [pend] is the rest of the generation, [zero] the next one *)
Lemma release_generation_inv : forall g generation done zero ind,
  wf g -> inv g done (generation ++ zero) [] ind ->
  exists ind' new, release_generation g generation ind zero = Ok (ind', zero ++ new) /\
    inv g (done ++ generation) (zero ++ new) [] ind'.
Proof.
  intros g generation; induction generation as [|u us IH]; intros done zero ind Hw Hinv; cbn [release_generation].
  - exists ind, []. rewrite !app_nil_r. split; [reflexivity|assumption].
  - (* the next generation list is processed with [pend] split; use the general lemma with a
       different accumulator *)
    assert (Hacc : forall children pend1 z part ind0,
      (forall v, count (targets g done ++ part ++ children) v <= count (targets g (nodes g)) v) ->
      inv g done (pend1 ++ z) part ind0 ->
      exists ind' new, release_children children ind0 z = Ok (ind', z ++ new) /\
        inv g done (pend1 ++ z ++ new) (part ++ children) ind').
    { intros children pend1 z part ind0 Hle Hi.
      destruct (release_children_inv g children done (pend1 ++ z) part ind0 Hw Hi Hle) as [ind' [new [E Hi']]].
      exists ind', new. split.
      - assert (Hgen : forall cs p i w r n, release_children cs i (p ++ w) = Ok (r, (p ++ w) ++ n) ->
          release_children cs i w = Ok (r, w ++ n)).
        { induction cs as [|c cs IHc]; intros p i w r n Hr; cbn [release_children] in *.
          - injection Hr as <- Hn. assert (n = []).
            { apply (f_equal (@length node_id)) in Hn. rewrite !app_length in Hn. destruct n; [reflexivity|cbn in Hn; lia]. }
            subst n. rewrite app_nil_r. reflexivity.
          - destruct (dict_get node_eqb c i) as [d|]; [|discriminate].
            destruct (Nat.eqb (d - 1) 0).
            + rewrite <- app_assoc in Hr.
              (* the result extends p ++ w ++ [c] *)
              assert (Hext : forall cs' i' z' r' n', release_children cs' i' z' = Ok (r', n') -> exists m, n' = z' ++ m).
              { clear. induction cs' as [|c' cs' IHc']; intros i' z' r' n' H; cbn [release_children] in H.
                - injection H as <- <-. exists []. rewrite app_nil_r. reflexivity.
                - destruct (dict_get node_eqb c' i') as [d'|]; [|discriminate].
                  destruct (Nat.eqb (d' - 1) 0).
                  + apply IHc' in H. destruct H as [m ->]. exists (c' :: m). rewrite <- app_assoc. reflexivity.
                  + apply IHc' in H. exact H. }
              destruct (Hext _ _ _ _ _ Hr) as [m Hm].
              rewrite Hm in Hr. replace (p ++ w ++ [c]) with (p ++ (w ++ [c])) in Hr by reflexivity.
              apply IHc in Hr. rewrite Hr. f_equal. f_equal.
              rewrite <- !app_assoc in Hm. apply app_inv_head in Hm. apply app_inv_head in Hm. rewrite Hm, <- app_assoc. reflexivity.
            + apply IHc in Hr. exact Hr. }
        eapply Hgen. exact E.
      - rewrite app_assoc. exact Hi'. }
    destruct (Hacc (adj g u) (u :: us) zero [] ind) as [ind' [new [E Hi]]].
    + intros v. cbn [app]. destruct Hinv as [Hnd [Hinc _]].
      assert (Hs : count (targets g (done ++ [u])) v <= count (targets g (nodes g)) v).
      { apply count_sub; [| |assumption].
        - apply NoDup_remove_1 in Hnd as Hnd'. cbn [app] in Hnd.
          assert (Hp : NoDup ((done ++ [u]) ++ us ++ zero)) by (rewrite <- app_assoc; exact Hnd).
          clear -Hp. revert Hp. generalize (done ++ [u]), (us ++ zero). induction l as [|x l IHl]; intros m Hm; [constructor|].
          inversion Hm; subst. constructor; [intros Hx; apply H1; apply in_app_iff; left; assumption|]. eapply IHl; eassumption.
        - intros x Hx. apply Hinc. apply in_app_iff in Hx. apply in_app_iff. destruct Hx as [Hx|[<-|[]]];
            [left; assumption | right; left; reflexivity]. }
      unfold targets in Hs |- *. rewrite flat_map_app in Hs. cbn [flat_map] in Hs. rewrite app_nil_r in Hs. exact Hs.
    + exact Hinv.
    + rewrite E. cbn [bind fst snd]. cbn [app] in Hi. apply inv_step in Hi.
      destruct (IH (done ++ [u]) (zero ++ new) ind' Hw Hi) as [ind'' [new' [E' Hi']]].
      exists ind'', (new ++ new'). rewrite E', <- !app_assoc. split; [reflexivity|].
      rewrite <- !app_assoc in Hi'. exact Hi'.
Qed.

(** every released node has all its predecessors processed *)
Lemma inv_preds : forall g done pend ind v u, wf g -> inv g done pend [] ind ->
  dict_get node_eqb v ind = None -> edge g u v -> In u done.
Proof.
  intros g done pend ind v u Hw [Hnd [Hinc [_ [Hcnt _]]]] Hv He.
  destruct (mem u done) eqn:E; [apply mem_In; assumption|]. apply mem_notIn in E. exfalso.
  assert (Hu : In u (nodes g)) by (exact (proj1 (edge_nodes g u v Hw He))).
  assert (Hle : count (targets g (done ++ [u])) v <= count (targets g (nodes g)) v).
  { apply count_sub; [| |assumption].
    - apply NoDup_app_snoc; [|assumption].
      clear -Hnd. revert Hnd. generalize done at 1 2. induction done0 as [|x l IHl]; intros Hm; [constructor|].
      inversion Hm; subst. constructor; [intros Hx; apply H1; apply in_app_iff; left; assumption|]. eapply IHl; eassumption.
    - intros x Hx. apply in_app_iff in Hx. destruct Hx as [Hx|[<-|[]]]; [|assumption].
      apply Hinc. apply in_app_iff; left; assumption. }
  specialize (Hcnt v). unfold rem in Hcnt. rewrite Hv, app_nil_r in Hcnt.
  unfold targets in Hle, Hcnt. rewrite flat_map_app, count_occ_app in Hle. cbn [flat_map] in Hle. rewrite app_nil_r in Hle.
  assert (Hone : 0 < count (adj g u) v) by (apply count_occ_In; exact He). lia.
Qed.

Lemma inv_initial : forall g, wf g -> inv g [] (zero_indegree g) [] (indegrees g).
Proof.
  intros g Hw.
  assert (Hget : forall v, dict_get node_eqb v (indegrees g) =
    if mem v (nodes g) then (if Nat.eqb (length (preds g v)) 0 then None else Some (length (preds g v))) else None).
  { intros v. unfold indegrees.
    rewrite (dict_get_filter_keys nat (nodes g) (fun v => length (preds g v)) (fun n => negb (Nat.eqb n 0))).
    destruct (mem v (nodes g)); [|reflexivity]. destruct (Nat.eqb (length (preds g v)) 0); reflexivity. }
  unfold inv. cbn [app targets flat_map].
  split; [apply NoDup_filter; exact (proj1 Hw)|].
  split; [intros v Hv; unfold zero_indegree in Hv; apply filter_In in Hv; tauto|].
  split.
  { intros v d H. rewrite Hget in H. destruct (mem v (nodes g)); [|discriminate].
    destruct (Nat.eqb (length (preds g v)) 0) eqn:E; [discriminate|]. injection H as <-. apply Nat.eqb_neq in E. lia. }
  split.
  { intros v. unfold rem. rewrite Hget. fold (targets g (nodes g)). rewrite <- (preds_length g v Hw).
    destruct (mem v (nodes g)) eqn:Em.
    - destruct (Nat.eqb (length (preds g v)) 0) eqn:E; [apply Nat.eqb_eq in E; rewrite E; reflexivity|]. cbn. lia.
    - apply mem_notIn in Em. cbn.
      destruct (preds g v) as [|u us] eqn:Ep; [reflexivity|]. exfalso. apply Em.
      assert (Hu : In u (preds g v)) by (rewrite Ep; left; reflexivity).
      apply preds_spec in Hu; [|assumption]. exact (proj2 (edge_nodes g u v Hw Hu)). }
  split.
  { intros v Hv. rewrite Hget. apply mem_In in Hv as Hm. rewrite Hm. unfold zero_indegree.
    destruct (Nat.eqb (length (preds g v)) 0) eqn:E; [left; apply filter_In; split; assumption | right; eexists; reflexivity]. }
  split.
  { intros v Hv. unfold zero_indegree in Hv. apply filter_In in Hv. destruct Hv as [_ Hv]. rewrite Hget, Hv.
    destruct (mem v (nodes g)); reflexivity. }
  intros v d H. rewrite Hget in H. destruct (mem v (nodes g)) eqn:E; [apply mem_In; assumption|discriminate].
Qed.

(** the whole loop *)
Lemma generations_spec : forall g fuel done zero ind,
  wf g -> inv g done zero [] ind -> length (nodes g) < length done + fuel ->
  match generations g fuel zero ind with
  | Ok rest =>
      NoDup (done ++ rest) /\ incl (done ++ rest) (nodes g) /\ incl (nodes g) (done ++ rest) /\
      (forall a v b, rest = a ++ v :: b -> forall u, edge g u v -> In u (done ++ a))
  | Err e => e = ValueError /\
      exists stuck, stuck <> [] /\ incl stuck (nodes g) /\ forall v, In v stuck -> exists u, In u stuck /\ edge g u v
  end.
Proof.
  intros g fuel; induction fuel as [|fuel IH]; intros done zero ind Hw Hinv Hf.
  - exfalso. destruct Hinv as [Hnd [Hinc _]].
    pose proof (NoDup_incl_length Hnd Hinc) as Hl. rewrite app_length in Hl. lia.
  - destruct zero as [|z zs] eqn:Ez; cbn [generations].
    + destruct ind as [|p ind'] eqn:Ei.
      * destruct Hinv as [Hnd [Hinc [_ [_ [Hall _]]]]]. rewrite !app_nil_r in *.
        split; [assumption|]. split; [assumption|]. split.
        -- intros v Hv. destruct (Hall v Hv) as [H|[d H]]; [assumption|discriminate].
        -- intros a v b E. destruct a; discriminate.
      * split; [reflexivity|].
        exists (filter (fun v => negb (mem v done)) (nodes g)).
        assert (Hstuck : forall v, In v (nodes g) -> ~ In v done -> exists d, dict_get node_eqb v ind = Some d).
        { intros v Hv Hd. destruct Hinv as [_ [_ [_ [_ [Hall _]]]]]. rewrite app_nil_r in Hall.
          destruct (Hall v Hv) as [H|[d H]]; [contradiction|]. exists d. subst ind. exact H. }
        assert (Hkey : exists v, In v (nodes g) /\ ~ In v done).
        { destruct p as [k d]. exists k. destruct Hinv as [_ [_ [_ [_ [_ [Hrel Hkeys]]]]]].
          assert (Hk : dict_get node_eqb k ((k, d) :: ind') = Some d) by (cbn; rewrite node_eqb_refl; reflexivity).
          split; [apply (Hkeys k d); exact Hk|]. intros H. rewrite app_nil_r in Hrel. apply Hrel in H. congruence. }
        split; [|split].
        -- intros E. destruct Hkey as [v [Hv Hd]].
           assert (Hin : In v (filter (fun v => negb (mem v done)) (nodes g))).
           { apply filter_In. split; [assumption|]. apply mem_notIn in Hd. rewrite Hd. reflexivity. }
           rewrite E in Hin. destruct Hin.
        -- intros v Hv. apply filter_In in Hv. tauto.
        -- intros v Hv. apply filter_In in Hv. destruct Hv as [Hv Hd]. apply negb_true_iff, mem_notIn in Hd.
           destruct (Hstuck v Hv Hd) as [d Hdv].
           (* some predecessor is not done *)
           destruct Hinv as [Hnd [Hinc [Hpos [Hcnt _]]]]. rewrite app_nil_r in Hnd, Hinc.
           subst ind. specialize (Hpos v d Hdv). specialize (Hcnt v). unfold rem in Hcnt. rewrite Hdv, app_nil_r in Hcnt.
           destruct (existsb (fun u => andb (negb (mem u done)) (mem v (adj g u))) (nodes g)) eqn:Ex.
           ++ apply existsb_exists in Ex. destruct Ex as [u [Hu Hb]]. apply andb_true_iff in Hb.
              exists u. split; [apply filter_In; split; [assumption|tauto]|]. apply mem_In. tauto.
           ++ exfalso.
              assert (Hno : forall u, In u (nodes g) -> ~ In u done -> ~ In v (adj g u)).
              { intros u Hu Hud Hva. assert (Hf2 : existsb (fun u => andb (negb (mem u done)) (mem v (adj g u))) (nodes g) = true).
                { apply existsb_exists. exists u. split; [assumption|]. apply mem_notIn in Hud. apply mem_In in Hva. rewrite Hud, Hva. reflexivity. }
                congruence. }
              assert (Hle : forall l, NoDup l -> incl l (nodes g) -> count (targets g l) v <= count (targets g done) v).
              { intros l Hl Hli.
                assert (Hgen : forall l m, NoDup l -> incl l (nodes g) ->
                   (forall x, In x l -> ~ In x m -> ~ In v (adj g x)) -> NoDup m -> count (targets g l) v <= count (targets g m) v).
                { clear -Hno. induction l as [|x l IHl]; intros m Hl Hli Hx Hm; cbn [targets flat_map]; [cbn; lia|].
                  inversion Hl as [|? ? Hxl Hl']; subst. rewrite count_occ_app.
                  destruct (in_dec node_eq_dec x m) as [Hin|Hnin].
                  - apply in_split in Hin. destruct Hin as [m1 [m2 ->]].
                    assert (Hm' : NoDup (m1 ++ m2)) by (apply NoDup_remove_1 in Hm; assumption).
                    specialize (IHl (m1 ++ m2) Hl').
                    assert (Hle : count (targets g l) v <= count (targets g (m1 ++ m2)) v).
                    { apply IHl; [intros y Hy; apply Hli; right; assumption| |assumption].
                      intros y Hy Hny. apply Hx; [right; assumption|]. intros Hy2. apply Hny.
                      apply in_app_iff in Hy2. apply in_app_iff. destruct Hy2 as [|[->|]]; [left; assumption|contradiction|right; assumption]. }
                    unfold targets in *. rewrite !flat_map_app, !count_occ_app in *. cbn [flat_map]. rewrite count_occ_app. lia.
                  - assert (H0 : count (adj g x) v = 0) by (apply count_occ_not_In, Hx; [left; reflexivity|assumption]).
                    rewrite H0. cbn. apply IHl; [assumption|intros y Hy; apply Hli; right; assumption| |assumption].
                    intros y Hy. apply Hx. right; assumption. }
                apply Hgen; [assumption|assumption| |assumption].
                intros x Hxl Hxm. apply Hno; [apply Hli; assumption|assumption]. }
              specialize (Hle (nodes g) (proj1 Hw) (fun x H => H)). lia.
    + destruct (release_generation_inv g (z :: zs) done [] ind Hw) as [ind' [new [E Hi]]].
      { rewrite app_nil_r. exact Hinv. }
      rewrite E. cbn [bind fst snd app]. cbn [app] in Hi.
      assert (Hf' : length (nodes g) < length (done ++ z :: zs) + fuel) by (rewrite app_length; cbn [length]; lia).
      specialize (IH (done ++ z :: zs) new ind' Hw Hi Hf').
      destruct (generations g fuel new ind') as [rest|e].
      * cbn [bind]. rewrite <- app_assoc in IH. cbn [app] in IH. destruct IH as [H1 [H2 [H3 H4]]].
        split; [assumption|]. split; [assumption|]. split; [assumption|].
        intros a v b Ea u Hu.
        assert (Hsplit : (exists c, z :: zs = a ++ v :: c) \/ exists a', a = (z :: zs) ++ a' /\ rest = a' ++ v :: b).
        { clear -Ea. change (z :: zs ++ rest) with ((z :: zs) ++ rest) in Ea. revert Ea.
          generalize (z :: zs). clear. intros l; revert a. induction l as [|x l IH]; intros a Ea.
          - right. exists a. split; [reflexivity|exact Ea].
          - destruct a as [|y a].
            + cbn in Ea. injection Ea as -> _. left. exists l. reflexivity.
            + cbn in Ea. injection Ea as -> Ea. destruct (IH a Ea) as [[c Hc]|[a' [Ha Hr]]].
              * left. exists c. rewrite Hc. reflexivity.
              * right. exists a'. rewrite Ha. split; [reflexivity|assumption]. }
        destruct Hsplit as [[c Hc]|[a' [-> Hr]]].
        -- apply in_app_iff. left. eapply (inv_preds g done (z :: zs) ind v u Hw Hinv); [|assumption].
           destruct Hinv as [_ [_ [_ [_ [_ [Hrel _]]]]]]. apply Hrel. apply in_app_iff; right. rewrite Hc.
           apply in_app_iff; right; left; reflexivity.
        -- specialize (H4 a' v b Hr u Hu). rewrite <- app_assoc in H4. exact H4.
      * exact IH.
Qed.

Lemma stuck_cycle : forall g (stuck : list node_id), wf g -> stuck <> [] ->
  (forall v, In v stuck -> exists u, In u stuck /\ edge g u v) -> cyclic g.
Proof.
  intros g stuck Hw Hne Hpred.
  (* a walk backwards of any length inside [stuck] *)
  assert (Hwalk : forall n, exists l, length l = S n /\ incl l stuck /\
            forall i u v, nth_error l i = Some u -> nth_error l (S i) = Some v -> edge g u v).
  { induction n as [|n [l [Hl [Hi He]]]].
    - destruct stuck as [|x xs]; [congruence|]. exists [x]. split; [reflexivity|].
      split; [intros y [<-|[]]; left; reflexivity|]. intros i u v Hu Hv. destruct i; cbn in Hv; [discriminate|destruct i; discriminate].
    - destruct l as [|x l]; [discriminate|].
      destruct (Hpred x) as [u [Hu Hux]]; [apply Hi; left; reflexivity|].
      exists (u :: x :: l). split; [cbn [length] in *; lia|].
      split; [intros y [<-|Hy]; [assumption | apply Hi; assumption]|].
      intros [|i] a b Ha Hb; [cbn in Ha, Hb; injection Ha as <-; injection Hb as <-; assumption|].
      cbn in Ha, Hb. eapply He; eassumption. }
  destruct (Hwalk (length stuck)) as [l [Hl [Hi He]]].
  assert (Hdup : ~ NoDup l).
  { intros Hn. pose proof (NoDup_incl_length Hn Hi). lia. }
  assert (Hrep : exists i j v, i < j /\ nth_error l i = Some v /\ nth_error l j = Some v).
  { clear -Hdup. induction l as [|x l IH]; [exfalso; apply Hdup; constructor|].
    destruct (in_dec node_eq_dec x l) as [Hin|Hnin].
    - apply In_nth_error in Hin. destruct Hin as [j Hj]. exists 0, (S j), x. split; [lia|]. split; [reflexivity|assumption].
    - destruct IH as [i [j [v [Hij [H1 H2]]]]]; [intros Hn; apply Hdup; constructor; assumption|].
      exists (S i), (S j), v. split; [lia|]. split; assumption. }
  destruct Hrep as [i [j [v [Hij [H1 H2]]]]].
  assert (Hp : forall k u, nth_error l (i + k) = Some u -> path g k v u).
  { induction k as [|k IH]; intros u Hu.
    - rewrite Nat.add_0_r in Hu. rewrite H1 in Hu. injection Hu as <-. constructor.
    - destruct (nth_error l (i + k)) as [w|] eqn:Ew.
      + econstructor; [apply IH; reflexivity|]. eapply He; [exact Ew|]. rewrite <- Hu. f_equal. lia.
      + exfalso. apply nth_error_None in Ew. assert (Hlt : nth_error l (i + S k) <> None) by congruence.
        apply nth_error_Some in Hlt. lia. }
  exists v, (j - i - 1). replace (S (j - i - 1)) with (j - i) by lia.
  apply Hp. replace (i + (j - i)) with j by lia. exact H2.
Qed.

Lemma order_path : forall g l, (forall u v, edge g u v -> before l u v) -> NoDup l ->
  forall n u v, path g (S n) u v -> before l u v.
Proof.
  intros g l He Hn n. induction n as [|n IH]; intros u v H; inversion H as [|? ? w ? Hp Hew]; subst.
  - inversion Hp; subst. apply He; assumption.
  - apply IH in Hp. apply He in Hew. destruct Hp as [i [j [Hij [Hi Hj]]]]. destruct Hew as [j' [k [Hjk [Hj' Hk]]]].
    assert (j = j').
    { apply (proj1 (NoDup_nth_error l) Hn); [apply nth_error_Some; congruence|congruence]. }
    subst j'. exists i, k. split; [lia|]. split; assumption.
Qed.

Lemma topological_core : forall g, wf g ->
  match topological_sort g with
  | Ok order => Permutation order (nodes g) /\ (forall u v, edge g u v -> before order u v)
  | Err e => e = ValueError /\ cyclic g
  end.
Proof.
  intros g Hw. unfold topological_sort.
  pose proof (generations_spec g (S (length g)) [] (zero_indegree g) (indegrees g) Hw (inv_initial g Hw)) as H.
  assert (Hlen : length (nodes g) = length g) by (unfold nodes; apply map_length).
  assert (Hf : length (nodes g) < length (@nil node_id) + S (length g)) by (cbn; lia).
  specialize (H Hf). destruct (generations g (S (length g)) (zero_indegree g) (indegrees g)) as [order|e].
  - cbn [app] in H. destruct H as [Hnd [Hi1 [Hi2 Ho]]]. split.
    + apply NoDup_Permutation; [assumption | exact (proj1 Hw)|]. intros x; split; [apply Hi1 | apply Hi2].
    + intros u v He. assert (Hv : In v order) by (apply Hi2; exact (proj2 (edge_nodes g u v Hw He))).
      apply in_split in Hv. destruct Hv as [a [b E]].
      pose proof (Ho a v b E u He) as Hu. apply In_nth_error in Hu. destruct Hu as [i Hi].
      assert (Hil : i < length a) by (apply nth_error_Some; congruence).
      exists i, (length a). split; [assumption|]. rewrite E. split.
      * rewrite nth_error_app1 by assumption. assumption.
      * rewrite nth_error_app2 by lia. rewrite Nat.sub_diag. reflexivity.
  - destruct H as [He [stuck [Hne [_ Hp]]]]. split; [assumption|]. eapply stuck_cycle; eassumption.
Qed.

Lemma topological_proof : forall g, made g ->
  match sorted_node_ids g with
  | Ok order => Permutation order (nodes (gr_graph g)) /\ (forall u v, edge (gr_graph g) u v -> before order u v)
                /\ ~ cyclic (gr_graph g)
  | Err e => e = ValueError /\ cyclic (gr_graph g)
  end.
Proof.
  intros g Hm. pose proof (made_wf g Hm) as Hw. pose proof (topological_core (gr_graph g) Hw) as H.
  unfold sorted_node_ids. destruct (topological_sort (gr_graph g)) as [order|e]; [|assumption].
  destruct H as [Hp Ho]. split; [assumption|]. split; [assumption|].
  intros [v [n Hpath]].
  assert (Hnd : NoDup order) by (eapply Permutation_NoDup; [symmetry; exact Hp | exact (proj1 Hw)]).
  pose proof (order_path _ order Ho Hnd n v v Hpath) as [i [j [Hij [Hi Hj]]]].
  assert (i = j) by (apply (proj1 (NoDup_nth_error order) Hnd); [apply nth_error_Some; congruence|congruence]). lia.
Qed.

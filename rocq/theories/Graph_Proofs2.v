(** Breadth first and depth first traversals. *)
From Coq Require Import PeanoNat String Sorting.Sorted.
From Verif Require Import Base BaseLemmas Graph_Model Graph_Spec Graph_Proofs.
Local Open Scope list_scope.
Local Open Scope nat_scope.

(** ** Breadth first *)
Lemma new_children_spec : forall cs seen,
  NoDup (new_children cs seen) /\ forall x, In x (new_children cs seen) <-> In x cs /\ ~ In x seen.
Proof.
  induction cs as [|c cs IH]; intros seen; cbn [new_children].
  - split; [constructor|]. intros x; cbn; tauto.
  - destruct (mem c seen) eqn:E.
    + apply mem_In in E. destruct (IH seen) as [H1 H2]. split; [assumption|]. intros x; rewrite H2. cbn.
      split; [tauto|]. intros [[->|H] H']; [contradiction|tauto].
    + apply mem_notIn in E. destruct (IH (c :: seen)) as [H1 H2]. split.
      * constructor; [|assumption]. rewrite H2. cbn. tauto.
      * intros x. cbn [In]. rewrite H2. cbn [In]. split.
        -- intros [->|[H H']]; [tauto|tauto].
        -- intros [[->|H] H']; [tauto|]. destruct (node_eq_dec c x) as [->|Hne]; [tauto|]. right. split; [assumption|]. tauto.
Qed.

Lemma NoDup_app_intro : forall (l m : list node_id), NoDup l -> NoDup m -> (forall x, In x l -> ~ In x m) -> NoDup (l ++ m).
Proof.
  induction l as [|x l IH]; intros m Hl Hm Hd; [assumption|]. inversion Hl; subst. cbn. constructor.
  - rewrite in_app_iff. intros [H|H]; [contradiction|]. apply (Hd x); [left; reflexivity|assumption].
  - apply IH; [assumption|assumption|]. intros y Hy. apply Hd. right; assumption.
Qed.

Lemma next_level_spec : forall g level seen,
  NoDup (next_level g level seen) /\
  forall x, In x (next_level g level seen) <-> ~ In x seen /\ exists u, In u level /\ edge g u x.
Proof.
  intros g level; induction level as [|u us IH]; intros seen; cbn [next_level].
  - split; [constructor|]. intros x; cbn; split; [tauto|]. intros [_ [u [[] _]]].
  - destruct (new_children_spec (adj g u) seen) as [N1 N2].
    set (new := new_children (adj g u) seen) in *.
    destruct (IH (new ++ seen)) as [H1 H2]. split.
    + apply NoDup_app_intro; [assumption|assumption|]. intros x Hx Hx'. apply H2 in Hx'. destruct Hx' as [Hx' _].
      apply Hx'. apply in_app_iff; left; assumption.
    + intros x. rewrite in_app_iff, H2, N2, in_app_iff, N2. split.
      * intros [[Ha Hs]|[Hs [w [Hw He]]]].
        -- split; [assumption|]. exists u. split; [left; reflexivity|assumption].
        -- split; [tauto|]. exists w. split; [right; assumption|assumption].
      * intros [Hs [w [[<-|Hw] He]]]; [left; split; assumption|].
        destruct (in_dec node_eq_dec x (adj g u)) as [Hin|Hnin]; [left; tauto|].
        right. split; [tauto|]. exists w. split; assumption.
Qed.

Definition no_later (g : digraph) (s u v : node_id) : Prop :=
  forall a b, distance g s u a -> distance g s v b -> a <= b.

Lemma distance_unique : forall g s v a b, distance g s v a -> distance g s v b -> a = b.
Proof. intros g s v a b [Ha Ha'] [Hb Hb']. specialize (Ha' b Hb). specialize (Hb' a Ha). lia. Qed.

Lemma path_snoc_inv : forall g n s v, path g (S n) s v -> exists u, path g n s u /\ edge g u v.
Proof. intros g n s v H. inversion H; subst. eexists; split; eassumption. Qed.

(** what is known after [k] generations *)
Definition generation_at (g : digraph) (s : node_id) (k : nat) (level seen : list node_id) : Prop :=
  NoDup level /\ NoDup seen /\ incl seen (nodes g) /\
  (forall v, In v level <-> distance g s v k) /\
  (forall v, In v seen <-> exists n, n <= k /\ path g n s v).

Lemma generation_next : forall g s k level seen, wf g -> generation_at g s k level seen ->
  generation_at g s (S k) (next_level g level seen) (next_level g level seen ++ seen).
Proof.
  intros g s k level seen Hw [Hl [Hs [Hinc [Hlev Hseen]]]].
  destruct (next_level_spec g level seen) as [N1 N2].
  assert (Hback : forall v, distance g s v (S k) -> exists u, distance g s u k /\ edge g u v).
  { intros v [Hp Hmin]. apply path_snoc_inv in Hp. destruct Hp as [u [Hu He]]. exists u. split; [|assumption].
    split; [assumption|]. intros m Hm. assert (Hm' : path g (S m) s v) by (econstructor; eassumption).
    apply Hmin in Hm'. lia. }
  split; [assumption|]. split.
  { apply NoDup_app_intro; [assumption|assumption|]. intros x Hx. apply N2 in Hx. tauto. }
  split.
  { intros x Hx. apply in_app_iff in Hx. destruct Hx as [Hx|Hx]; [|apply Hinc; assumption].
    apply N2 in Hx. destruct Hx as [_ [u [_ He]]]. exact (proj2 (edge_nodes g u x Hw He)). }
  assert (Hnext : forall v, In v (next_level g level seen) <-> distance g s v (S k)).
  { intros v. rewrite N2. split.
    - intros [Hns [u [Hu He]]]. apply Hlev in Hu. destruct Hu as [Hu _]. split; [econstructor; eassumption|].
      intros m Hm. destruct (le_gt_dec (S k) m); [assumption|]. exfalso. apply Hns, Hseen. exists m. split; [lia|assumption].
    - intros Hd. split.
      + intros H. apply Hseen in H. destruct H as [n [Hn Hp]]. apply Hd in Hp. lia.
      + destruct (Hback v Hd) as [u [Hu He]]. exists u. split; [apply Hlev; assumption|assumption]. }
  split; [assumption|].
  intros v. rewrite in_app_iff, Hnext, Hseen. split.
  - intros [[Hp _]|[n [Hn Hp]]]; [exists (S k); split; [lia|assumption] | exists n; split; [lia|assumption]].
  - intros [n [Hn Hp]].
    assert (Hlook : In v seen \/ ~ In v seen) by (destruct (in_dec node_eq_dec v seen); tauto).
    destruct Hlook as [H|H]; [right; apply Hseen; assumption|]. left.
    assert (n = S k).
    { destruct (le_gt_dec n k) as [Hle|Hgt]; [|lia]. exfalso. apply H, Hseen. exists n. split; [lia|assumption]. }
    subst n. split; [assumption|]. intros m Hm. destruct (le_gt_dec (S k) m); [assumption|].
    exfalso. apply H, Hseen. exists m. split; [lia|assumption].
Qed.

Lemma path_at_least : forall g s k, (forall v, ~ distance g s v k) ->
  (forall v n, n <= k -> path g n s v -> exists m, m < k /\ path g m s v) ->
  forall n v, path g n s v -> exists m, m < k /\ path g m s v.
Proof.
  intros g s k Hno Hsmall n. induction n as [|n IH]; intros v Hp.
  - apply (Hsmall v 0); [lia|assumption].
  - apply path_snoc_inv in Hp. destruct Hp as [u [Hu He]]. destruct (IH u Hu) as [m [Hm Hp]].
    apply (Hsmall v (S m)); [lia|]. econstructor; eassumption.
Qed.

(** nothing lies further away than an empty generation *)
Lemma generation_empty : forall g s k seen, generation_at g s k [] seen ->
  forall v n, path g n s v -> In v seen.
Proof.
  intros g s k seen [_ [_ [_ [Hlev Hseen]]]] v n Hp. apply Hseen.
  assert (Hno : forall w, ~ distance g s w k) by (intros w Hd; apply Hlev in Hd; destruct Hd).
  destruct (path_at_least g s k Hno) with (n := n) (v := v) as [m [Hm Hpm]]; [|assumption|exists m; split; [lia|assumption]].
  intros w m Hm Hpw.
  destruct (le_gt_dec k m) as [Hge|Hlt]; [|exists m; split; [lia|assumption]].
  assert (m = k) by lia. subst m.
  (* w is seen at k but not at distance exactly k; decide by search over smaller lengths *)
  assert (Hdec : forall j, (exists m, m < j /\ path g m s w) \/ (forall m, m < j -> ~ path g m s w)).
  { assert (Hpd : forall m x, path g m s x \/ ~ path g m s x).
    { clear. intros m. induction m as [|m IH]; intros x.
      - destruct (node_eq_dec s x) as [->|Hne]; [left; constructor|right; intros H; inversion H; congruence].
      - assert (Hex : forall l, (exists u, In u l /\ path g m s u /\ edge g u x) \/
                                 ~ (exists u, In u l /\ path g m s u /\ edge g u x)).
        { induction l as [|u l IHl]; [right; intros [u [[] _]]|].
          destruct IHl as [[u' [H1 H2]]|Hn]; [left; exists u'; split; [right; assumption|assumption]|].
          destruct (IH u) as [Hp|Hp].
          - destruct (in_dec node_eq_dec x (adj g u)) as [He|He].
            + left. exists u. split; [left; reflexivity|]. split; assumption.
            + right. intros [u' [[<-|H1] [H2 H3]]]; [contradiction|]. apply Hn. exists u'. tauto.
          - right. intros [u' [[<-|H1] [H2 H3]]]; [contradiction|]. apply Hn. exists u'. tauto. }
        destruct (Hex (nodes g)) as [[u [_ [H1 H2]]]|Hn].
        + left. econstructor; eassumption.
        + right. intros H. apply path_snoc_inv in H. destruct H as [u [H1 H2]]. apply Hn. exists u.
          split; [|split; assumption]. destruct (in_dec node_eq_dec u (nodes g)) as [|Hnin]; [assumption|].
          unfold edge in H2. rewrite (adj_notIn _ _ Hnin) in H2. destruct H2. }
    induction j as [|j IHj]; [right; intros m Hm0; lia|].
    destruct IHj as [[m [H1 H2]]|Hn]; [left; exists m; split; [lia|assumption]|].
    destruct (Hpd j w) as [H|H]; [left; exists j; split; [lia|assumption]|].
    right. intros m Hm'. destruct (Nat.eq_dec m j) as [->|]; [assumption|apply Hn; lia]. }
  destruct (Hdec k) as [H|H]; [assumption|]. exfalso. apply (Hno w). split; [assumption|].
  intros m Hm'. destruct (le_gt_dec k m); [assumption|]. exfalso. apply (H m); assumption.
Qed.

Lemma StronglySorted_app : forall (A : Type) (R : A -> A -> Prop) l m,
  StronglySorted R l -> StronglySorted R m -> (forall x y, In x l -> In y m -> R x y) -> StronglySorted R (l ++ m).
Proof.
  intros A R l m Hl Hm Hx. induction Hl as [|a l Hl IH Ha]; [assumption|]. cbn. constructor.
  - apply IH. intros x y H1 H2. apply Hx; [right; assumption|assumption].
  - rewrite Forall_forall in *. intros y Hy. apply in_app_iff in Hy. destruct Hy as [Hy|Hy]; [apply Ha; assumption|].
    apply Hx; [left; reflexivity|assumption].
Qed.
Lemma StronglySorted_all : forall (A : Type) (R : A -> A -> Prop) l,
  (forall x y, In x l -> In y l -> R x y) -> StronglySorted R l.
Proof.
  intros A R l H. induction l as [|a l IH]; constructor.
  - apply IH. intros x y Hx Hy. apply H; right; assumption.
  - apply Forall_forall. intros y Hy. apply H; [left; reflexivity|right; assumption].
Qed.

Lemma bfs_levels_spec : forall g s depth k level seen,
  wf g -> generation_at g s k level seen -> length (nodes g) <= length seen + depth ->
  let rest := concat (bfs_levels g depth level seen) in
  NoDup (seen ++ rest) /\ (forall v, In v (seen ++ rest) <-> exists n, path g n s v) /\
  (forall v, In v rest -> exists n, k < n /\ distance g s v n) /\
  StronglySorted (no_later g s) rest.
Proof.
  intros g s depth; induction depth as [|depth IH]; intros k level seen Hw Hg Hlen.
  - cbn [bfs_levels concat]. cbv zeta. rewrite app_nil_r.
    destruct Hg as [Hl [Hs [Hinc [Hlev Hseen]]]]. split; [assumption|]. split; [|split; [intros v []|constructor]].
    intros v. split; [intros H; apply Hseen in H; destruct H as [n [_ H]]; exists n; assumption|].
    intros [n Hp].
    assert (Hall : incl (nodes g) seen) by (apply NoDup_length_incl; [assumption|lia|assumption]).
    destruct n as [|n]; [apply Hseen; exists 0; split; [lia|assumption]|].
    apply Hall. apply path_snoc_inv in Hp. destruct Hp as [u [_ He]]. exact (proj2 (edge_nodes g u v Hw He)).
  - destruct level as [|x xs] eqn:El.
    + cbn [bfs_levels concat]. cbv zeta. rewrite app_nil_r.
      pose proof (generation_empty g s k seen Hg) as Hempty.
      destruct Hg as [Hl [Hs [Hinc [Hlev Hseen]]]]. split; [assumption|]. split; [|split; [intros v []|constructor]].
      intros v. split; [intros H; apply Hseen in H; destruct H as [n [_ H]]; exists n; assumption|].
      intros [n Hp]. eapply Hempty; eassumption.
    + rewrite <- El in *. assert (Hb : bfs_levels g (S depth) level seen =
        next_level g level seen :: bfs_levels g depth (next_level g level seen) (next_level g level seen ++ seen))
        by (rewrite El; reflexivity).
      rewrite Hb. cbn [concat]. cbv zeta. clear Hb El x xs.
      pose proof (generation_next g s k level seen Hw Hg) as Hn.
      set (next := next_level g level seen) in *.
      destruct next as [|y ys] eqn:En.
      * (* the next generation is empty: so is the rest *)
        assert (Hb : bfs_levels g depth [] ([] ++ seen) = []) by (destruct depth; reflexivity).
        rewrite Hb. cbn [concat app]. rewrite app_nil_r.
        pose proof (generation_empty g s (S k) ([] ++ seen) Hn) as Hempty. cbn [app] in Hempty.
        destruct Hg as [Hl [Hs [Hinc [Hlev Hseen]]]]. split; [assumption|]. split; [|split; [intros v []|constructor]].
        intros v. split; [intros H; apply Hseen in H; destruct H as [n [_ H]]; exists n; assumption|].
        intros [n Hp]. eapply Hempty; eassumption.
      * rewrite <- En in *.
        assert (Hlen' : length (nodes g) <= length (next ++ seen) + depth).
        { rewrite app_length. rewrite En at 1. cbn [length]. lia. }
        specialize (IH (S k) next (next ++ seen) Hw Hn Hlen'). cbv zeta in IH.
        set (rest := concat (bfs_levels g depth next (next ++ seen))) in *.
        destruct IH as [H1 [H2 [H3 H4]]].
        assert (Hperm : Permutation ((next ++ seen) ++ rest) (seen ++ next ++ rest)).
        { rewrite (app_assoc seen). apply Permutation_app_tail, Permutation_app_comm. }
        split; [eapply Permutation_NoDup; eassumption|]. split.
        { intros v. rewrite <- H2. split; intros H; [eapply Permutation_in; [symmetry; exact Hperm|exact H] | eapply Permutation_in; eassumption]. }
        destruct Hn as [_ [_ [_ [Hlev' _]]]].
        split.
        { intros v Hv. apply in_app_iff in Hv. destruct Hv as [Hv|Hv].
          - apply Hlev' in Hv. exists (S k). split; [lia|assumption].
          - apply H3 in Hv. destruct Hv as [n [Hk Hd]]. exists n. split; [lia|assumption]. }
        apply StronglySorted_app; [|assumption|].
        { apply StronglySorted_all. intros a b Ha Hb x z Hx Hz. apply Hlev' in Ha, Hb.
          rewrite (distance_unique g s a x (S k) Hx Ha), (distance_unique g s b z (S k) Hz Hb). lia. }
        intros a b Ha Hb x z Hx Hz. apply Hlev' in Ha. apply H3 in Hb. destruct Hb as [n [Hk Hd]].
        rewrite (distance_unique g s a x (S k) Hx Ha), (distance_unique g s b z n Hz Hd). lia.
Qed.

Lemma StronglySorted_nth : forall (A : Type) (R : A -> A -> Prop) l, StronglySorted R l ->
  forall i j x y, i < j -> nth_error l i = Some x -> nth_error l j = Some y -> R x y.
Proof.
  intros A R l H. induction H as [|a l Hl IH Ha]; intros i j x y Hij Hi Hj; [destruct i; discriminate|].
  destruct j as [|j]; [lia|]. cbn in Hj. destruct i as [|i].
  - cbn in Hi. injection Hi as <-. rewrite Forall_forall in Ha. apply Ha. eapply nth_error_In; eassumption.
  - cbn in Hi. apply (IH i j); [lia|assumption|assumption].
Qed.

Lemma breadth_first_proof : forall g s, made g ->
  match breadth_first_search_tree g s with
  | Ok l => In s (nodes (gr_graph g)) /\ nth_error l 0 = Some s /\ NoDup l /\
      (forall v, In v l <-> reachable (gr_graph g) s v) /\
      (forall i j u v a b, i < j -> nth_error l i = Some u -> nth_error l j = Some v ->
         distance (gr_graph g) s u a -> distance (gr_graph g) s v b -> a <= b)
  | Err e => e = KeyError /\ ~ In s (nodes (gr_graph g))
  end.
Proof.
  intros g s Hm. pose proof (made_wf g Hm) as Hw. unfold breadth_first_search_tree, bfs_tree, has_node.
  destruct (mem s (nodes (gr_graph g))) eqn:E.
  - apply mem_In in E. set (h := gr_graph g) in *.
    assert (Hg0 : generation_at h s 0 [s] [s]).
    { split; [constructor; [intros []|constructor]|]. split; [constructor; [intros []|constructor]|].
      split; [intros x [<-|[]]; assumption|]. split.
      - intros v; cbn. split.
        + intros [<-|[]]. split; [constructor|]. intros m _; lia.
        + intros [Hp _]. inversion Hp; left; reflexivity.
      - intros v; cbn. split.
        + intros [<-|[]]. exists 0. split; [lia|constructor].
        + intros [n [Hn Hp]]. assert (n = 0) by lia. subst n. inversion Hp; left; reflexivity. }
    assert (Hlen : length (nodes h) <= length [s] + length h) by (unfold nodes; rewrite map_length; cbn; lia).
    pose proof (bfs_levels_spec h s (length h) 0 [s] [s] Hw Hg0 Hlen) as H. cbv zeta in H.
    set (rest := concat (bfs_levels h (length h) [s] [s])) in *. cbn [app] in H.
    destruct H as [H1 [H2 [H3 H4]]].
    split; [assumption|]. split; [reflexivity|]. split; [assumption|]. split; [exact H2|].
    intros i j u v a b Hij Hi Hj Ha Hb.
    assert (Hs : StronglySorted (no_later h s) (s :: rest)).
    { constructor; [assumption|]. apply Forall_forall. intros y Hy x z Hx Hz.
      assert (x = 0) by (apply (distance_unique h s s x 0 Hx); split; [constructor|intros; lia]). lia. }
    exact (StronglySorted_nth _ _ _ Hs i j u v Hij Hi Hj a b Ha Hb).
  - apply mem_notIn in E. split; [reflexivity|assumption].
Qed.

(** ** Depth first *)
Definition weight (g : digraph) (vs : list node_id) : nat := fold_right (fun v n => S (length (adj g v)) + n) 0 vs.
Definition stack_weight (st : list (list node_id)) : nat := fold_right (fun l n => S (length l) + n) 0 st.
Definition unvisited (g : digraph) (visited : list node_id) : list node_id :=
  filter (fun v => negb (mem v visited)) (nodes g).

Lemma weight_visit : forall g c visited, wf g -> In c (nodes g) -> ~ In c visited ->
  weight g (unvisited g visited) = S (length (adj g c)) + weight g (unvisited g (c :: visited)).
Proof.
  intros g c visited [Hn _] Hc Hv. unfold unvisited. revert Hn Hc. generalize (nodes g) as vs.
  induction vs as [|x xs IH]; intros Hn Hc; [destruct Hc|]. inversion Hn as [|? ? Hx Hn']; subst.
  cbn [filter]. destruct (node_eq_dec x c) as [->|Hne].
  - assert (E1 : mem c visited = false) by (apply mem_notIn; assumption).
    assert (E2 : mem c (c :: visited) = true) by (apply mem_In; left; reflexivity).
    rewrite E1, E2. cbn [negb weight fold_right]. f_equal. f_equal. clear -Hx.
    induction xs as [|y ys IHy]; [reflexivity|]. cbn [filter].
    assert (Hy : y <> c) by (intros ->; apply Hx; left; reflexivity).
    assert (E : mem y (c :: visited) = mem y visited).
    { unfold mem. cbn [existsb]. rewrite (proj2 (node_eqb_neq y c) Hy). reflexivity. }
    rewrite E. destruct (mem y visited); cbn [negb]; [|f_equal]; apply IHy;
      intros H; apply Hx; right; assumption.
  - destruct Hc as [Hc|Hc]; [congruence|]. specialize (IH Hn' Hc).
    assert (E : mem x (c :: visited) = mem x visited).
    { unfold mem. cbn [existsb]. rewrite (proj2 (node_eqb_neq x c) Hne). reflexivity. }
    rewrite E. destruct (mem x visited); cbn [negb]; [assumption|]. cbn [weight fold_right]. unfold weight in IH. lia.
Qed.

Lemma dfs_loop_spec : forall g fuel stack visited,
  wf g -> incl (concat stack) (nodes g) ->
  stack_weight stack + weight g (unvisited g visited) <= fuel ->
  exists rest, dfs_loop g fuel stack visited = Ok rest /\
    NoDup rest /\ (forall v, In v rest -> ~ In v visited) /\
    (forall v, In v rest -> exists u, In u (concat stack) /\ reachable g u v) /\
    incl (concat stack) (visited ++ rest) /\
    (forall v w, In v rest -> edge g v w -> In w (visited ++ rest)).
Proof.
  intros g fuel; induction fuel as [|fuel IH]; intros stack visited Hw Hinc Hf.
  - destruct stack as [|l st]; [|cbn in Hf; lia]. exists []. cbn. repeat split; try (intros; contradiction); [constructor|intros x []].
  - destruct stack as [|[|c cs] st]; cbn [dfs_loop].
    + exists []. cbn. repeat split; try (intros; contradiction); [constructor|intros x []].
    + destruct (IH st visited Hw) as [rest H]; [exact Hinc|cbn [stack_weight fold_right length] in Hf; unfold stack_weight; lia|].
      exists rest. exact H.
    + cbn [concat app] in Hinc.
      destruct (mem c visited) eqn:E.
      * apply mem_In in E.
        destruct (IH (cs :: st) visited Hw) as [rest [H1 [H2 [H3 [H4 [H5 H6]]]]]].
        { intros x Hx. apply Hinc. right; exact Hx. }
        { cbn [stack_weight fold_right length] in *. unfold stack_weight in *. lia. }
        exists rest. split; [assumption|]. split; [assumption|]. split; [assumption|]. split.
        { intros v Hv. destruct (H4 v Hv) as [u [Hu Hr]]. exists u. split; [right; exact Hu|assumption]. }
        split; [|assumption]. intros x Hx. cbn [concat app] in Hx. destruct Hx as [<-|Hx].
        -- apply in_app_iff; left; assumption.
        -- apply H5. exact Hx.
      * apply mem_notIn in E. assert (Hc : In c (nodes g)) by (apply Hinc; left; reflexivity).
        pose proof (weight_visit g c visited Hw Hc E) as Hwt.
        destruct (IH (adj g c :: cs :: st) (c :: visited) Hw) as [rest [H1 [H2 [H3 [H4 [H5 H6]]]]]].
        { intros x Hx. cbn [concat] in Hx. apply in_app_iff in Hx. destruct Hx as [Hx|Hx].
          - exact (proj2 (adj_wf g c Hw) x Hx).
          - apply Hinc. right; exact Hx. }
        { cbn [stack_weight fold_right length] in *. unfold stack_weight in *. lia. }
        rewrite H1. cbn [bind]. exists (c :: rest). split; [reflexivity|].
        assert (Hcr : ~ In c rest) by (intros H; apply H3 in H; apply H; left; reflexivity).
        assert (Hmove : forall x, In x ((c :: visited) ++ rest) -> In x (visited ++ c :: rest)).
        { intros x Hx. cbn in Hx. rewrite in_app_iff in *. cbn. tauto. }
        split; [constructor; assumption|]. split.
        { intros v [<-|Hv]; [assumption|]. intros Hvv. apply (H3 v Hv). right; assumption. }
        split.
        { intros v [<-|Hv].
          - exists c. split; [left; reflexivity|]. exists 0; constructor.
          - destruct (H4 v Hv) as [u [Hu [n Hn]]]. cbn [concat] in Hu. apply in_app_iff in Hu. destruct Hu as [Hu|Hu].
            + exists c. split; [left; reflexivity|]. exists (S n).
              clear -Hu Hn. induction Hn as [u|n u w x Hp IHp He].
              * econstructor; [constructor|exact Hu].
              * econstructor; [apply IHp; assumption|assumption].
            + exists u. split; [right; exact Hu|]. exists n; assumption. }
        split.
        { intros x Hx. cbn [concat app] in Hx. apply Hmove. destruct Hx as [<-|Hx]; [left; reflexivity|].
          apply H5. cbn [concat]. apply in_app_iff; right. exact Hx. }
        intros v w [<-|Hv] He; apply Hmove.
        -- apply H5. cbn [concat]. apply in_app_iff; left. exact He.
        -- eapply H6; eassumption.
Qed.

Lemma dfs_fuel_weight : forall g, wf g -> dfs_fuel g = weight g (nodes g).
Proof.
  intros g Hw. unfold dfs_fuel, weight, nodes.
  assert (H : forall l, incl l g -> fold_right (fun p n => S (length (snd p)) + n) 0 l =
    fold_right (fun v n => S (length (adj g v)) + n) 0 (map fst l)).
  { induction l as [|[v a] l IH]; intros Hi; [reflexivity|]. cbn [fold_right map fst snd].
    rewrite (adj_of_In g v a Hw) by (apply Hi; left; reflexivity). rewrite IH; [reflexivity|].
    intros x Hx. apply Hi. right; assumption. }
  apply H. intros x Hx; exact Hx.
Qed.

Lemma dfs_tree_spec : forall g s, wf g ->
  match dfs_tree g s with
  | Ok l => In s (nodes g) /\ NoDup l /\ forall v, In v l <-> reachable g s v
  | Err e => e = KeyError /\ ~ In s (nodes g)
  end.
Proof.
  intros g s Hw. unfold dfs_tree, has_node. destruct (mem s (nodes g)) eqn:E.
  - apply mem_In in E.
    destruct (dfs_loop_spec g (dfs_fuel g) [adj g s] [s] Hw) as [rest [H1 [H2 [H3 [H4 [H5 H6]]]]]].
    + cbn [concat]. rewrite app_nil_r. exact (proj2 (adj_wf g s Hw)).
    + assert (Hnil : unvisited g [] = nodes g).
      { unfold unvisited. generalize (nodes g). induction l as [|x xs IH]; [reflexivity|]. cbn [filter]. replace (mem x []) with false by reflexivity. cbn [negb]. f_equal. exact IH. }
      rewrite (dfs_fuel_weight g Hw), <- Hnil.
      rewrite (weight_visit g s [] Hw E (fun H => H)). cbn [stack_weight fold_right]. lia.
    + rewrite H1. cbn [bind]. split; [assumption|]. split.
      * constructor; [|assumption]. intros H. apply (H3 s H). left; reflexivity.
      * intros v; split.
        -- intros [<-|Hv]; [exists 0; constructor|]. destruct (H4 v Hv) as [u [Hu [n Hn]]].
           cbn [concat] in Hu. rewrite app_nil_r in Hu. exists (S n).
           clear -Hu Hn. induction Hn as [u|n u w x Hp IHp He].
           ++ econstructor; [constructor|exact Hu].
           ++ econstructor; [apply IHp; assumption|assumption].
        -- intros [n Hn]. induction Hn as [u|n u w x Hp IHp He]; [left; reflexivity|].
           specialize (IHp E H1 H3 H4 H5 H6). destruct IHp as [<-|Hw'].
           ++ apply (H5 x). cbn [concat]. rewrite app_nil_r. exact He.
           ++ exact (H6 w x Hw' He).
  - apply mem_notIn in E. split; [reflexivity|assumption].
Qed.

Lemma successors_proof : forall g s, made g ->
  match get_successors g s true with
  | Ok l => In s (nodes (gr_graph g)) /\ NoDup l /\ forall v, In v l <-> reachable (gr_graph g) s v /\ v <> s
  | Err e => e = KeyError /\ ~ In s (nodes (gr_graph g))
  end.
Proof.
  intros g s Hm. pose proof (dfs_tree_spec (gr_graph g) s (made_wf g Hm)) as H. unfold get_successors.
  destruct (dfs_tree (gr_graph g) s) as [l|e]; [|assumption]. cbn [bind].
  destruct H as [H1 [H2 H3]]. split; [assumption|]. split; [apply NoDup_filter; assumption|].
  intros v. rewrite filter_In, H3. rewrite negb_true_iff, node_eqb_neq. tauto.
Qed.

Lemma direct_successors_proof : forall g s, made g ->
  match get_successors g s false with
  | Ok l => In s (nodes (gr_graph g)) /\ NoDup l /\ forall v, In v l <-> edge (gr_graph g) s v
  | Err e => e = KeyError /\ ~ In s (nodes (gr_graph g))
  end.
Proof.
  intros g s Hm. pose proof (made_wf g Hm) as Hw. unfold get_successors, has_node.
  destruct (mem s (nodes (gr_graph g))) eqn:E.
  - apply mem_In in E. split; [assumption|]. split; [exact (proj1 (adj_wf _ s Hw))|]. intros v; reflexivity.
  - apply mem_notIn in E. split; [reflexivity|assumption].
Qed.

(** Own shares; success; priorities. *)
From Coq Require Import List Bool ZArith Lia Permutation PeanoNat String.
From Verif Require Import System_Proofs2 Rates_Proofs QcTac Num Base BaseLemmas Search_Model Stream_Model Stream_Spec Stream_Proofs Graph_Model Graph_Spec
  Graph_Proofs Graph_Proofs2 Graph_Proofs3 Distribution_Model Distribution_Spec Distribution_Proofs.
Import ListNotations.
Local Open Scope list_scope.
Local Open Scope Qc_scope.

(** ** Without excess, the shares are dealt out in topological order *)

Lemma received_zero : forall ov ex b l q, (forall a, In a l -> ex a = 0) -> received ov ex b l q -> q = 0.
Proof.
  intros ov ex b l q Hz H. induction H as [|a l q Hp H IH|a l q Hp H IH]; [reflexivity| |].
  - rewrite (Hz a (or_introl eq_refl)), IH by (intros x Hx; apply Hz; right; assumption). ring.
  - apply IH. intros x Hx; apply Hz; right; assumption.
Qed.

Lemma no_excess_shares : forall sv inlet items fractions overflows d streams order,
  consistent_service sv -> NoDup (map fst items) -> List.length fractions = List.length items -> no_excess items ->
  new_distribution inlet items fractions overflows = Return d ->
  get_streams sv d = Return streams -> topological_sort (d_graph d) = Ok order ->
  Permutation order (map fst items) /\
  forall i j k s fraction, nth_error (map fst items) i = Some k -> nth_error streams i = Some s ->
    nth_error order j = Some k -> nth_error fractions j = Some fraction ->
    standard_rate s = standard_rate inlet * fraction.
Proof.
  intros sv inlet items fractions overflows d streams order Hsv Hnd Hlen Hno Hnew Hget Htop.
  destruct (balanced_proof sv inlet items fractions overflows d streams Hnd Hlen Hnew Hget) as [order' [cur [ex [Htop' Hbal]]]].
  assert (order' = order) by congruence. subst order'.
  pose proof (constructor_proof inlet items fractions overflows) as Hcon. rewrite Hnew in Hcon. destruct Hcon as [H1 [H2 [H3 [H4 _]]]].
  destruct Hbal as [Hp [_ [Hc [He Hs]]]]. rewrite H1, H2 in *. split; [assumption|].
  intros i j k s fraction Hi Hsi Hj Hf.
  assert (Hz : forall a, In a (map fst items) -> ex a = 0).
  { intros a Ha. apply in_map_iff in Ha. destruct Ha as [[a' f] [Ea Ha]]. cbn in Ea. subst a'.
    destruct (He a f Ha) as [[_ H]|[b [s' [_ [_ H]]]]]; [assumption|]. eapply Hno; eassumption. }
  destruct (Hc j k Hj) as [share [Hshare [q [Hq Hcur]]]]. apply (received_zero _ _ _ _ _ Hz) in Hq. subst q.
  rewrite H4, nth_error_map, Hf in Hshare. cbn in Hshare. injection Hshare as <-.
  rewrite nth_error_map in Hi. destruct (nth_error items i) as [[k' f]|] eqn:Ei; [|discriminate]. cbn in Hi. injection Hi as ->.
  assert (Hst : stream_at sv inlet (cur k - ex k) = Return s).
  { clear - Hs Ei Hsi. revert i Ei Hsi. induction Hs as [|it t its strs Ha Hb IH]; intros [|i] Ei Hsi; cbn in *; try discriminate.
    - injection Ei as ->. injection Hsi as ->. exact Ha.
    - eapply IH; eassumption. }
  assert (Hk : In k (map fst items)) by (apply in_map_iff; exists (k, f); split; [reflexivity|eapply nth_error_In; eassumption]).
  pose proof (standard_rate_proof sv (s_model inlet) (s_pressure inlet) (s_temperature inlet) (cur k - ex k) Hsv) as H.
  unfold stream_at in Hst. rewrite Hst in H. destruct H as [H _]. rewrite H, Hcur, (Hz k Hk). ring.
Qed.

(** [own_share]: stream [i] carries fraction [i]. *)
Lemma own_share_of_order : forall sv inlet items fractions overflows d streams,
  consistent_service sv -> NoDup (map fst items) -> List.length fractions = List.length items -> no_excess items ->
  new_distribution inlet items fractions overflows = Return d ->
  get_streams sv d = Return streams -> topological_sort (d_graph d) = Ok (map fst items) ->
  map standard_rate streams = map (fun fraction => standard_rate inlet * fraction) fractions.
Proof.
  intros sv inlet items fractions overflows d streams Hsv Hnd Hlen Hno Hnew Hget Htop.
  destruct (no_excess_shares _ _ _ _ _ _ _ _ Hsv Hnd Hlen Hno Hnew Hget Htop) as [_ H].
  destruct (distribution_sum_proof _ _ _ _ _ _ _ Hsv Hnd Hlen Hnew Hget) as [Hl _].
  apply list_ext_nth. intros i. rewrite !nth_error_map.
  destruct (nth_error streams i) as [s|] eqn:Es.
  - assert (Hi : (i < List.length items)%nat) by (rewrite <- Hl; apply nth_error_Some; congruence).
    destruct (nth_error fractions i) as [fr|] eqn:Ef; [|apply nth_error_None in Ef; lia].
    destruct (nth_error (map fst items) i) as [k|] eqn:Ek; [|apply nth_error_None in Ek; rewrite map_length in Ek; lia].
    cbn. f_equal. eapply H; eassumption.
  - apply nth_error_None in Es. rewrite (proj2 (nth_error_None fractions i)) by lia. reflexivity.
Qed.

(** Equal fractions: the order does not matter. *)
Lemma equal_shares_proof : forall sv inlet items fractions overflows d streams fraction,
  consistent_service sv -> NoDup (map fst items) -> List.length fractions = List.length items -> no_excess items ->
  (forall x, In x fractions -> x = fraction) ->
  new_distribution inlet items fractions overflows = Return d ->
  get_streams sv d = Return streams ->
  map standard_rate streams = map (fun fraction => standard_rate inlet * fraction) fractions.
Proof.
  intros sv inlet items fractions overflows d streams fraction Hsv Hnd Hlen Hno Heq Hnew Hget.
  destruct (balanced_proof sv inlet items fractions overflows d streams Hnd Hlen Hnew Hget) as [order [_ [_ [Htop _]]]].
  destruct (no_excess_shares _ _ _ _ _ _ _ _ Hsv Hnd Hlen Hno Hnew Hget Htop) as [Hp H].
  destruct (distribution_sum_proof _ _ _ _ _ _ _ Hsv Hnd Hlen Hnew Hget) as [Hl _].
  apply list_ext_nth. intros i. rewrite !nth_error_map.
  destruct (nth_error streams i) as [s|] eqn:Es.
  - assert (Hi : (i < List.length items)%nat) by (rewrite <- Hl; apply nth_error_Some; congruence).
    destruct (nth_error fractions i) as [fr|] eqn:Ef; [|apply nth_error_None in Ef; lia].
    destruct (nth_error (map fst items) i) as [k|] eqn:Ek; [|apply nth_error_None in Ek; rewrite map_length in Ek; lia].
    assert (Hk : In k order) by (eapply Permutation_in; [symmetry; exact Hp|eapply nth_error_In; eassumption]).
    apply In_nth_error in Hk. destruct Hk as [j Hj].
    assert (Hjl : (j < List.length fractions)%nat).
    { rewrite Hlen. apply Permutation_length in Hp. rewrite map_length in Hp. rewrite <- Hp. apply nth_error_Some. congruence. }
    destruct (nth_error fractions j) as [fr'|] eqn:Ef'; [|apply nth_error_None in Ef'; lia].
    cbn. f_equal. rewrite (H i j k s fr' Ek Es Hj Ef').
    rewrite (Heq fr (nth_error_In _ _ Ef)), (Heq fr' (nth_error_In _ _ Ef')). reflexivity.
  - apply nth_error_None in Es. rewrite (proj2 (nth_error_None fractions i)) by lia. reflexivity.
Qed.

(** When every overflow goes to the item declared last, the topological order is the order of declaration. *)
Lemma add_nodes_fresh : forall ids g, NoDup ids -> (forall x, In x ids -> ~ In x (nodes g)) ->
  nodes (fold_left (fun r v => nx_add_node v r) ids g) = nodes g ++ ids.
Proof.
  induction ids as [|x ids IH]; intros g Hnd Hf; cbn [fold_left]; [rewrite app_nil_r; reflexivity|]. inversion Hnd; subst.
  assert (E : nodes (nx_add_node x g) = nodes g ++ [x]).
  { rewrite nx_add_node_nodes. unfold add_id. rewrite (proj2 (mem_notIn x (nodes g))) by (apply Hf; left; reflexivity). reflexivity. }
  rewrite IH; [rewrite E, <- app_assoc; reflexivity|assumption|].
  intros y Hy Hin. rewrite E in Hin. apply in_app_or in Hin. destruct Hin as [Hin|[->|[]]]; [|contradiction].
  apply (Hf y); [right; assumption|assumption].
Qed.
Lemma add_edges_nodes : forall es g, (forall a b, In (a, b) es -> In a (nodes g) /\ In b (nodes g)) ->
  nodes (fold_left (fun r e => nx_add_edge e r) es g) = nodes g.
Proof.
  induction es as [|[a b] es IH]; intros g H; cbn [fold_left]; [reflexivity|].
  destruct (H a b (or_introl eq_refl)) as [Ha Hb].
  assert (E : nodes (nx_add_edge (a, b) g) = nodes g).
  { rewrite nx_add_edge_nodes. unfold add_id at 2. rewrite (proj2 (mem_In a _) Ha). unfold add_id. rewrite (proj2 (mem_In b _) Hb). reflexivity. }
  rewrite IH; [assumption|]. intros x y Hxy. rewrite E. apply H. right; assumption.
Qed.
Lemma overflow_nodes : forall ids ov, NoDup ids -> (forall a b, In (a, b) ov -> In a ids /\ In b ids) -> nodes (overflow_graph ids ov) = ids.
Proof.
  intros ids ov Hnd H. unfold overflow_graph.
  assert (E : nodes (fold_left (fun r v => nx_add_node v r) ids []) = ids) by (rewrite add_nodes_fresh; [reflexivity|assumption|intros x _ []]).
  rewrite add_edges_nodes; [assumption|]. rewrite E. assumption.
Qed.

Lemma filter_all : forall A (p : A -> bool) l, (forall x, In x l -> p x = true) -> filter p l = l.
Proof.
  intros A p l H. induction l as [|x l IH]; cbn; [reflexivity|]. rewrite (H x (or_introl eq_refl)). f_equal. apply IH. intros y Hy. apply H; right; assumption.
Qed.
Lemma last_order_proof : forall ids last ov order,
  NoDup (ids ++ [last]) -> (forall a b, In (a, b) ov -> In a ids /\ b = last) ->
  topological_sort (overflow_graph (ids ++ [last]) ov) = Ok order -> order = ids ++ [last].
Proof.
  intros ids last ov order Hnd Hov Htop.
  assert (Hn : nodes (overflow_graph (ids ++ [last]) ov) = ids ++ [last]).
  { apply overflow_nodes; [assumption|]. intros a b Hab. destruct (Hov a b Hab) as [Ha ->]. split; apply in_or_app; [left; assumption|right; left; reflexivity]. }
  pose proof (overflow_graph_wf (ids ++ [last]) ov) as Hw. pose proof (topological_core _ Hw) as Hc. rewrite Htop in Hc. destruct Hc as [Hp _].
  rewrite Hn in Hp. destruct (topological_head _ _ Htop) as [rest Hr].
  assert (Hz : exists tl, zero_indegree (overflow_graph (ids ++ [last]) ov) = ids ++ tl).
  { unfold zero_indegree. rewrite Hn, filter_app. eexists. f_equal.
    rewrite <- (app_nil_r ids) at 2. clear Hr Htop Hp rest order.
    assert (Hlast : ~ In last ids). { apply NoDup_remove_2 in Hnd. rewrite app_nil_r in Hnd. assumption. }
    assert (Hall : forall v, In v ids -> Nat.eqb (List.length (preds (overflow_graph (ids ++ [last]) ov) v)) 0 = true).
    { intros v Hv. destruct (preds (overflow_graph (ids ++ [last]) ov) v) as [|u l] eqn:E; [reflexivity|]. exfalso.
      assert (Hu : In u (preds (overflow_graph (ids ++ [last]) ov) v)) by (rewrite E; left; reflexivity).
      apply preds_spec in Hu; [|assumption]. apply overflow_graph_edge in Hu. destruct (Hov u v Hu) as [_ ->]. contradiction. }
    rewrite app_nil_r. apply filter_all. exact Hall. }
  destruct Hz as [tl Hz]. rewrite Hz in Hr. subst order. rewrite <- app_assoc in Hp |- *.
  apply Permutation_app_inv_l in Hp. symmetry in Hp. apply Permutation_length_1_inv in Hp. rewrite Hp. reflexivity.
Qed.

Lemma own_share_proof : forall sv inlet items last overflows fractions d streams,
  consistent_service sv -> NoDup (map fst (items ++ [last])) -> List.length fractions = List.length (items ++ [last]) ->
  no_excess (items ++ [last]) ->
  (forall a b, In (a, b) overflows -> In a (map fst items) /\ b = fst last) ->
  new_distribution inlet (items ++ [last]) fractions overflows = Return d ->
  get_streams sv d = Return streams ->
  map standard_rate streams = map (fun fraction => standard_rate inlet * fraction) fractions.
Proof.
  intros sv inlet items last overflows fractions d streams Hsv Hnd Hlen Hno Hov Hnew Hget.
  apply (own_share_of_order sv inlet (items ++ [last]) fractions overflows d streams); try assumption.
  destruct (balanced_proof sv inlet (items ++ [last]) fractions overflows d streams Hnd Hlen Hnew Hget) as [order [_ [_ [Htop _]]]].
  rewrite Htop. f_equal. rewrite map_app in *. cbn [map] in *.
  assert (Hg : d_graph d = overflow_graph (map fst items ++ [fst last]) overflows).
  { unfold new_distribution in Hnew. destruct (negb _) in Hnew; [discriminate|]. injection Hnew as <-. cbn [d_graph]. rewrite map_app. reflexivity. }
  rewrite Hg in Htop. apply (last_order_proof _ _ overflows); assumption.
Qed.

(** ** The distribution succeeds when every capacity is proper *)
Lemma mapO_total : forall A B (f : A -> outcome B) l, (forall x, In x l -> exists y, f x = Return y) -> exists ys, mapO f l = Return ys.
Proof.
  induction l as [|x l IH]; intros H; cbn [mapO]; [eexists; reflexivity|].
  destruct (H x (or_introl eq_refl)) as [y ->]. cbn [obind]. destruct IH as [ys ->]; [intros z Hz; apply H; right; assumption|]. eexists; reflexivity.
Qed.


Lemma stream_at_total : forall sv inlet props rate, consistent_service sv ->
  flash_pt sv (s_model inlet) (s_pressure inlet) (s_temperature inlet) = Return props -> 0 <= rate ->
  exists s, stream_at sv inlet rate = Return s /\ standard_rate s = rate.
Proof.
  intros sv inlet props rate Hsv Hf Hr. pose proof (standard_rate_proof sv (s_model inlet) (s_pressure inlet) (s_temperature inlet) rate Hsv) as H.
  unfold stream_at. destruct (create_stream_from_standard_rate _ _ _ _ _) as [s|e]; [exists s; split; [reflexivity|apply H]|].
  destruct H as [H|[_ H]]; [congruence|qc_lra].
Qed.

Lemma adjust_total : forall sv d props,
  consistent_service sv -> flash_pt sv (s_model (d_inlet d)) (s_pressure (d_inlet d)) (s_temperature (d_inlet d)) = Return props ->
  (forall k f, In (k, f) (d_items d) -> proper_capacity f) ->
  forall order rates om adjusted,
  List.length rates = List.length order -> (forall k, In k order -> In k (map fst (d_items d))) -> (forall r, In r rates -> 0 <= r) ->
  (forall k x, In x (overflow_into k om) -> 0 <= x) -> (forall k r, In (k, r) adjusted -> 0 <= r) ->
  exists A, adjust sv d order rates om adjusted = Return A /\ (forall k r, In (k, r) A -> 0 <= r) /\
    (forall k, In k (map fst adjusted) \/ In k order -> In k (map fst A)).
Proof.
  intros sv d props Hsv Hfl Hcap. induction order as [|x order IH]; intros rates om adjusted Hlen Hin Hr Hom Hadj; destruct rates as [|r rates]; try discriminate.
  - exists adjusted. split; [reflexivity|]. split; [assumption|]. intros k [H|[]]; assumption.
  - cbn [adjust].
    assert (Hcur : 0 <= r + qsum (overflow_into x om)).
    { pose proof (Hr r (or_introl eq_refl)). pose proof (qsum_nonneg _ (Hom x)). qc_lra. }
    assert (Hset : forall v, 0 <= v -> forall k q, In (k, q) (dict_set node_eqb x v adjusted) -> 0 <= q).
    { intros v Hv. clear - Hv Hadj. induction adjusted as [|[k' q'] l IHl]; intros k q; cbn.
      - intros [H|[]]. congruence.
      - destruct (node_eqb x k').
        + intros [H|H]; [congruence|]. eapply Hadj. right; exact H.
        + intros [H|H]; [eapply Hadj; left; exact H|]. eapply IHl; [|exact H]. intros k2 r2 H2. eapply Hadj. right; exact H2. }
    assert (Hkeys : forall (v : Qc) k, In k (map fst adjusted) \/ In k (x :: order) -> In k (map fst (dict_set node_eqb x v adjusted)) \/ In k order).
    { intros v k. assert (Hk : forall l : list (node_id * Qc), In k (map fst l) \/ x = k -> In k (map fst (dict_set node_eqb x v l))).
      { induction l as [|[k' q'] l IHl]; cbn; [tauto|]. destruct (node_eqb x k') eqn:E; cbn; [apply node_eqb_spec in E; subst k'; tauto|]. intuition. }
      cbn. specialize (Hk adjusted). tauto. }
    destruct (get_overflow_out (d_overflows d) x) as [to|].
    + assert (Hx : In x (map fst (d_items d))) by (apply Hin; left; reflexivity).
      destruct (dict_get node_eqb x (d_items d)) as [f|] eqn:Ef.
      2:{ exfalso. clear - Ef Hx. induction (d_items d) as [|[k' f'] l IHl]; [destruct Hx|]. cbn in *. destruct (node_eqb x k') eqn:E; [discriminate|].
          destruct Hx as [->|Hx]; [rewrite node_eqb_refl in E; discriminate|]. tauto. }
      destruct (stream_at_total sv (d_inlet d) props _ Hsv Hfl Hcur) as [s [Es Ers]]. rewrite Es. cbn [obind].
      assert (Hf : proper_capacity f).
      { apply (Hcap x). clear - Ef. induction (d_items d) as [|[k' f'] l IHl]; [discriminate|]. cbn in Ef. destruct (node_eqb x k') eqn:E.
        - apply node_eqb_spec in E. subst k'. injection Ef as ->. left; reflexivity.
        - right. apply IHl; assumption. }
      destruct (Hf s) as [e [Ee [He1 He2]]]; [rewrite Ers; assumption|]. rewrite Ee. cbn [obind]. rewrite Ers in He2.
      destruct (IH rates (dict_set node_eqb to (overflow_into to om ++ [e]) om) (dict_set node_eqb x (r + qsum (overflow_into x om) - e) adjusted)) as [A [E1 [E2 E3]]].
      * cbn in Hlen. lia.
      * intros k Hk. apply Hin. right; assumption.
      * intros q Hq. apply Hr. right; assumption.
      * intros k q Hq. rewrite overflow_into_set in Hq. destruct (node_eqb k to); [|eapply Hom; eassumption].
        apply in_app_or in Hq. destruct Hq as [Hq|[<-|[]]]; [eapply Hom; eassumption|assumption].
      * apply Hset. qc_lra.
      * exists A. split; [assumption|]. split; [assumption|]. intros k Hk. apply E3. apply Hkeys. assumption.
    + destruct (IH rates om (dict_set node_eqb x (r + qsum (overflow_into x om)) adjusted)) as [A [E1 [E2 E3]]].
      * cbn in Hlen. lia.
      * intros k Hk. apply Hin. right; assumption.
      * intros q Hq. apply Hr. right; assumption.
      * assumption.
      * apply Hset. assumption.
      * exists A. split; [assumption|]. split; [assumption|]. intros k Hk. apply E3. apply Hkeys. assumption.
Qed.

Lemma distribution_total_proof : forall sv inlet items fractions overflows props,
  consistent_service sv -> NoDup (map fst items) -> List.length fractions = List.length items ->
  flash_pt sv (s_model inlet) (s_pressure inlet) (s_temperature inlet) = Return props ->
  0 <= standard_rate inlet -> (forall x, In x fractions -> 0 <= x) ->
  (forall k f, In (k, f) items -> proper_capacity f) ->
  (forall a b, In (a, b) overflows -> In a (map fst items) /\ In b (map fst items)) ->
  (forall a, ~ leads_to overflows a a) ->
  exists d streams, new_distribution inlet items fractions overflows = Return d /\ get_streams sv d = Return streams.
Proof.
  intros sv inlet items fractions overflows props Hsv Hnd Hlen Hfl Hr Hfr Hcap Hov Hac.
  unfold new_distribution. rewrite (proj2 (is_dag_spec (map fst items) overflows) Hac). cbn [negb].
  set (d := mk_distribution inlet items (map (fun fraction => standard_rate inlet * fraction) fractions) overflows (overflow_graph (map fst items) overflows)).
  exists d. unfold get_streams, adjust_for_overflow. change (d_graph d) with (overflow_graph (map fst items) overflows).
  pose proof (proj2 (is_dag_spec (map fst items) overflows) Hac) as Hdag. unfold is_directed_acyclic_graph in Hdag.
  pose proof (overflow_graph_wf (map fst items) overflows) as Hw. pose proof (topological_core _ Hw) as Hc.
  destruct (topological_sort (overflow_graph (map fst items) overflows)) as [order|e]; [|discriminate].
  destruct Hc as [Hp _]. rewrite (overflow_nodes _ _ Hnd Hov) in Hp.
  destruct (adjust_total sv d props Hsv Hfl Hcap order (d_rates d) [] []) as [A [EA [Hpos Hkeys]]].
  - cbn. rewrite map_length. apply Permutation_length in Hp. rewrite map_length in Hp. congruence.
  - intros k Hk. eapply Permutation_in; eassumption.
  - intros r Hin. cbn in Hin. apply in_map_iff in Hin. destruct Hin as [x [<- Hx]]. specialize (Hfr x Hx). qc_nra.
  - intros k x [].
  - intros k x [].
  - rewrite EA. cbn [obind]. change (d_inlet d) with inlet. change (d_items d) with items.
    destruct (mapO_total _ _ (fun p : node_id * Qc => let! s := stream_at sv inlet (snd p) in Return (fst p, s)) A) as [ss Ess].
    { intros [k r] Hin. destruct (stream_at_total sv inlet props r Hsv Hfl (Hpos k r Hin)) as [s [Es _]]. cbn [snd fst]. rewrite Es. eexists; reflexivity. }
    rewrite Ess. cbn [obind]. 
    destruct (mapO_total _ _ (fun item : node_id * excess_function => match dict_get node_eqb (fst item) ss with Some s => Return s | None => Raise KeyErr end) items) as [out Eout].
    { intros it Hit. assert (Hk : In (fst it) (map fst ss)).
      { apply mapO_Return in Ess. assert (Ekeys : map fst ss = map fst A).
        { clear - Ess. induction Ess as [|[k r] [k' s] A ss H1 H2 IH]; [reflexivity|]. cbn in *. destruct (stream_at sv inlet r); cbn in H1; [|discriminate]. congruence. }
        rewrite Ekeys. apply Hkeys. right. eapply Permutation_in; [symmetry; exact Hp|]. apply in_map; assumption. }
      destruct (dict_get node_eqb (fst it) ss) as [s|] eqn:E; [eexists; reflexivity|]. exfalso.
      clear - E Hk. induction ss as [|[k' f'] l IHl]; [destruct Hk|]. cbn in *. destruct (node_eqb (fst it) k') eqn:E2; [discriminate|].
      destruct Hk as [Hk|Hk]; [subst k'; rewrite node_eqb_refl in E2; discriminate|]. tauto. }
    exists out. split; [reflexivity|exact Eout].
Qed.

(** ** Priorities *)
Lemma all_items_valid_spec : forall items streams,
  match all_items_valid items streams with
  | Return true => accepted items streams
  | Return false => refused items streams
  | Raise e => exists i, (forall j item s, (j < i)%nat -> nth_error items j = Some item -> nth_error streams j = Some s -> item s = Return true) /\
      ((exists item s, nth_error items i = Some item /\ nth_error streams i = Some s /\ item s = Raise e) \/
       (e = ValueErr /\ i = Nat.min (List.length items) (List.length streams) /\ List.length items <> List.length streams))
  end.
Proof.
  induction items as [|f items IH]; intros [|s streams]; cbn [all_items_valid].
  - constructor.
  - exists O. split; [intros j item t H; lia|]. right. cbn. auto.
  - exists O. split; [intros j item t H; lia|]. right. cbn. auto.
  - destruct (f s) as [[|]|e] eqn:E; cbn [obind].
    + specialize (IH streams). destruct (all_items_valid items streams) as [[|]|e].
      * constructor; assumption.
      * destruct IH as [i [item [t [H1 [H2 [H3 H4]]]]]]. exists (S i), item, t. cbn. repeat split; try assumption.
        intros [|j] item' s' Hj H5 H6; cbn in *; [congruence|]. eapply H4; [|eassumption|eassumption]. lia.
      * destruct IH as [i [H1 H2]]. exists (S i). split.
        -- intros [|j] item t Hj H5 H6; cbn in *; [congruence|]. eapply H1; [|eassumption|eassumption]. lia.
        -- destruct H2 as [[item [t [H3 [H4 H5]]]]|[He [Hi Hl]]]; [left; exists item, t; auto|]. right. cbn. repeat split; [assumption|congruence|lia].
    + exists O, f, s. cbn. repeat split; auto. intros j item' s' Hj; lia.
    + exists O. split; [intros j item t H; lia|]. left. exists f, s. auto.
Qed.

Lemma first_valid_loop_spec : forall dists items init,
  match first_valid_loop dists items init with
  | Return out =>
      (dists = [] /\ out = init) \/
      exists i, nth_error dists i = Some (Return out) /\
        (forall j, (j < i)%nat -> exists streams, nth_error dists j = Some (Return streams) /\ refused items streams) /\
        (accepted items out \/ (refused items out /\ S i = List.length dists))
  | Raise e =>
      exists i, (forall j, (j < i)%nat -> exists streams, nth_error dists j = Some (Return streams) /\ refused items streams) /\
        (nth_error dists i = Some (Raise e) \/ exists streams, nth_error dists i = Some (Return streams) /\ all_items_valid items streams = Raise e)
  end.
Proof.
  induction dists as [|d dists IH]; intros items init; cbn [first_valid_loop]; [left; auto|].
  destruct d as [streams|e]; cbn [obind].
  2:{ exists O. split; [intros j Hj; lia|]. left; reflexivity. }
  pose proof (all_items_valid_spec items streams) as Hv. destruct (all_items_valid items streams) as [[|]|e] eqn:Ev; cbn [obind].
  - right. exists O. split; [reflexivity|]. split; [intros j Hj; lia|]. left; assumption.
  - specialize (IH items streams). destruct (first_valid_loop dists items streams) as [out|e].
    + right. destruct IH as [[-> ->]|[i [H1 [H2 H3]]]].
      * exists O. split; [reflexivity|]. split; [intros j Hj; lia|]. right. split; [assumption|reflexivity].
      * exists (S i). split; [assumption|]. split.
        -- intros [|j] Hj; [exists streams; split; [reflexivity|assumption]|]. cbn. apply H2. lia.
        -- destruct H3 as [H3|[H3 H4]]; [left; assumption|right; split; [assumption|cbn; congruence]].
    + destruct IH as [i [H1 H2]]. exists (S i). split; [|assumption].
      intros [|j] Hj; [exists streams; split; [reflexivity|assumption]|]. cbn. apply H1. lia.
  - exists O. split; [intros j Hj; lia|]. right. exists streams. split; [reflexivity|assumption].
Qed.

Lemma priorities_proof : forall dists items,
  match priorities_get_streams dists items with
  | Return out =>
      exists i, nth_error dists i = Some (Return out) /\
        (forall j, (j < i)%nat -> exists streams, nth_error dists j = Some (Return streams) /\ refused items streams) /\
        (accepted items out \/ (refused items out /\ S i = List.length dists))
  | Raise e =>
      (dists = [] /\ e = AssertionErr) \/
      exists i, (forall j, (j < i)%nat -> exists streams, nth_error dists j = Some (Return streams) /\ refused items streams) /\
        (nth_error dists i = Some (Raise e) \/
         exists streams, nth_error dists i = Some (Return streams) /\
           exists n, (forall j item s, (j < n)%nat -> nth_error items j = Some item -> nth_error streams j = Some s -> item s = Return true) /\
           ((exists item s, nth_error items n = Some item /\ nth_error streams n = Some s /\ item s = Raise e) \/
            (e = ValueErr /\ n = Nat.min (List.length items) (List.length streams) /\ List.length items <> List.length streams)))
  end.
Proof.
  intros dists items. unfold priorities_get_streams, find_first_valid. destruct dists as [|d dists]; [left; auto|].
  pose proof (first_valid_loop_spec (d :: dists) items []) as H. destruct (first_valid_loop (d :: dists) items []) as [out|e].
  - destruct H as [[H _]|H]; [discriminate|assumption].
  - right. destruct H as [i [H1 H2]]. exists i. split; [assumption|]. destruct H2 as [H2|[streams [H2 H3]]]; [left; assumption|].
    right. exists streams. split; [assumption|]. pose proof (all_items_valid_spec items streams) as Hv. rewrite H3 in Hv. exact Hv.
Qed.
Lemma refused_not_accepted_proof : forall items streams, refused items streams -> ~ accepted items streams.
Proof.
  intros items streams [i [item [s [H1 [H2 [H3 _]]]]]] Ha. unfold accepted in Ha. revert i H1 H2. induction Ha as [|f t fs ts Hf Hr IH]; intros [|i] H1 H2; cbn in *; try discriminate.
  - congruence.
  - eapply IH; eassumption.
Qed.

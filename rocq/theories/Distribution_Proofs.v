(** Distribution of a common stream. *)
From Coq Require Import List Bool ZArith Lia Permutation PeanoNat.
From Verif Require Import System_Proofs2 Rates_Proofs QcTac Num Base BaseLemmas Search_Model Stream_Model Stream_Spec Stream_Proofs Graph_Model Graph_Spec
  Graph_Proofs Graph_Proofs2 Graph_Proofs3 Distribution_Model Distribution_Spec.
Import ListNotations.
Local Open Scope list_scope.
Local Open Scope Qc_scope.

Definition passes (overflows : list overflow) (b a : node_id) : bool :=
  match get_overflow_out overflows a with Some c => node_eqb c b | None => false end.

Lemma overflow_out_spec : forall ov a,
  match get_overflow_out ov a with Some b => passes_on ov a b | None => keeps_excess ov a end.
Proof.
  induction ov as [|[x y] ov IH]; intros a; cbn [get_overflow_out]; [intros b []|].
  destruct (node_eqb x a) eqn:E.
  - apply node_eqb_spec in E. subst x. exists [], ov. split; [reflexivity|]. intros c [].
  - apply node_eqb_neq in E. specialize (IH a). destruct (get_overflow_out ov a) as [b|].
    + destruct IH as [l1 [l2 [-> Hn]]]. exists ((x, y) :: l1), l2. split; [reflexivity|].
      intros c [H|H]; [injection H; intros; congruence|]. exact (Hn c H).
    + intros b [H|H]; [injection H; intros; congruence|]. exact (IH b H).
Qed.
Lemma passes_on_out : forall ov a b, passes_on ov a b -> get_overflow_out ov a = Some b.
Proof.
  intros ov a b [l1 [l2 [-> Hn]]]. induction l1 as [|[x y] l1 IH]; cbn [get_overflow_out app].
  - rewrite node_eqb_refl. reflexivity.
  - destruct (node_eqb x a) eqn:E; [apply node_eqb_spec in E; subst x; exfalso; apply (Hn y); left; reflexivity|].
    apply IH. intros c Hc. apply (Hn c). right; assumption.
Qed.
Lemma passes_spec : forall ov b a, passes ov b a = true <-> passes_on ov a b.
Proof.
  intros ov b a. unfold passes. pose proof (overflow_out_spec ov a) as H. destruct (get_overflow_out ov a) as [c|] eqn:E.
  - rewrite node_eqb_spec. split; [intros ->; assumption|]. intros Hp. apply passes_on_out in Hp. congruence.
  - split; [discriminate|]. intros Hp. apply passes_on_out in Hp. congruence.
Qed.
Lemma passes_on_In : forall ov a b, passes_on ov a b -> In (a, b) ov.
Proof. intros ov a b [l1 [l2 [-> _]]]. apply in_or_app. right; left; reflexivity. Qed.

Lemma received_spec : forall ov ex b l q, received ov ex b l q <-> q = qsum (map ex (filter (passes ov b) l)).
Proof.
  intros ov ex b l q; split.
  - intros H. induction H as [|a l q Hp H IH|a l q Hp H IH]; [reflexivity| |]; cbn [filter].
    + rewrite (proj2 (passes_spec ov b a) Hp). cbn. rewrite IH. reflexivity.
    + destruct (passes ov b a) eqn:E; [apply passes_spec in E; contradiction|]. assumption.
  - intros ->. induction l as [|a l IH]; cbn [filter]; [constructor|].
    destruct (passes ov b a) eqn:E.
    + cbn. apply received_from; [apply passes_spec; assumption|assumption].
    + apply received_not; [intros H; apply passes_spec in H; congruence|assumption].
Qed.

(** ** The loop *)
Lemma overflow_into_set : forall k l m b, overflow_into b (dict_set node_eqb k l m) = if node_eqb b k then l else overflow_into b m.
Proof.
  intros k l m b. unfold overflow_into.
  rewrite dict_get_set by apply node_eqb_spec. destruct (node_eqb b k); reflexivity.
Qed.
Lemma dict_set_fresh : forall V k (v : V) d, ~ In k (map fst d) -> dict_set node_eqb k v d = d ++ [(k, v)].
Proof.
  induction d as [|[k' v'] d IH]; intros H; cbn in *; [reflexivity|].
  destruct (node_eqb k k') eqn:E; [apply node_eqb_spec in E; subst; tauto|]. rewrite IH; tauto.
Qed.

Section Loop.
Variables (sv : service) (d : distribution).
Let ov := d_overflows d.

Definition excess_of_item (k : node_id) (current excess : Qc) : Prop :=
  match get_overflow_out ov k with
  | None => excess = 0
  | Some _ => exists f s, dict_get node_eqb k (d_items d) = Some f /\ stream_at sv (d_inlet d) current = Return s /\ f s = Return excess
  end.

Lemma adjust_ok : forall order rates om adjusted A,
  NoDup order -> (forall x, In x order -> ~ In x (map fst adjusted)) ->
  adjust sv d order rates om adjusted = Return A ->
  length rates = length order /\
  exists cur ex : node_id -> Qc,
    A = adjusted ++ map (fun k => (k, cur k - ex k)) order /\
    (forall k, In k order -> excess_of_item k (cur k) (ex k)) /\
    (forall j k, nth_error order j = Some k -> exists r, nth_error rates j = Some r /\
       cur k = r + qsum (overflow_into k om ++ map ex (filter (passes ov k) (firstn j order)))).
Proof.
  induction order as [|x order IH]; intros rates om adjusted A Hnd Hfresh Hrun.
  - destruct rates as [|r rates]; cbn in Hrun; [|discriminate]. injection Hrun as <-. split; [reflexivity|].
    exists (fun _ => 0), (fun _ => 0). split; [cbn; rewrite app_nil_r; reflexivity|]. split; [intros k []|].
    intros j k H. destruct j; discriminate.
  - destruct rates as [|r rates]; cbn in Hrun; [discriminate|].
    inversion Hnd as [|? ? Hx Hnd']; subst.
    assert (Hgen : forall om' e, 
      (forall b, overflow_into b om' = overflow_into b om ++ (if passes ov b x then [e] else [])) ->
      excess_of_item x (r + qsum (overflow_into x om)) e ->
      adjust sv d order rates om' (dict_set node_eqb x (r + qsum (overflow_into x om) - e) adjusted) = Return A ->
      length rates = length order /\
      exists cur ex : node_id -> Qc,
        A = adjusted ++ map (fun k => (k, cur k - ex k)) (x :: order) /\
        (forall k, In k (x :: order) -> excess_of_item k (cur k) (ex k)) /\
        (forall j k, nth_error (x :: order) j = Some k -> exists r', nth_error (r :: rates) j = Some r' /\
           cur k = r' + qsum (overflow_into k om ++ map ex (filter (passes ov k) (firstn j (x :: order)))))).
    { intros om' e Hom He Hrun'. rewrite dict_set_fresh in Hrun' by (apply Hfresh; left; reflexivity).
      apply IH in Hrun'; [|assumption|].
      2:{ intros y Hy Hin. rewrite map_app in Hin. apply in_app_or in Hin. destruct Hin as [Hin|[Hin|[]]].
          - apply (Hfresh y); [right; assumption|assumption].
          - cbn in Hin. subst y. contradiction. }
      destruct Hrun' as [Hlen [cur [ex [HA [Hex Hcur]]]]]. split; [assumption|].
      exists (fun k => if node_eqb k x then r + qsum (overflow_into x om) else cur k), (fun k => if node_eqb k x then e else ex k).
      assert (Hother : forall k, In k order -> node_eqb k x = false) by (intros k Hk; apply node_eqb_neq; intros ->; contradiction).
      split; [|split].
      - rewrite HA, <- app_assoc. cbn [map app]. rewrite node_eqb_refl. f_equal. f_equal.
        apply map_ext_in. intros k Hk. rewrite (Hother k Hk). reflexivity.
      - intros k [<-|Hk]; [rewrite node_eqb_refl; assumption|]. rewrite (Hother k Hk). apply Hex; assumption.
      - intros [|j] k Hj.
        + cbn in Hj. injection Hj as <-. exists r. split; [reflexivity|]. rewrite node_eqb_refl. cbn. rewrite app_nil_r. reflexivity.
        + cbn in Hj. assert (Hk : In k order) by (eapply nth_error_In; eassumption).
          destruct (Hcur j k Hj) as [r' [Hr' Hc]]. exists r'. split; [assumption|]. rewrite (Hother k Hk), Hc. f_equal. f_equal.
          rewrite Hom, <- app_assoc. f_equal. cbn [firstn filter].
          assert (Emap : map (fun k0 => if node_eqb k0 x then e else ex k0) (filter (passes ov k) (firstn j order)) = map ex (filter (passes ov k) (firstn j order))).
          { apply map_ext_in. intros z Hz. apply filter_In in Hz. destruct Hz as [Hz _].
            rewrite (Hother z); [reflexivity|]. rewrite <- (firstn_skipn j order). apply in_or_app. left; assumption. }
          destruct (passes ov k x) eqn:Ep; cbn [map app]; [rewrite node_eqb_refl|]; rewrite Emap; reflexivity. }
    destruct (get_overflow_out (d_overflows d) x) as [to|] eqn:Eo.
    + destruct (dict_get node_eqb x (d_items d)) as [f|] eqn:Ef; [|discriminate].
      destruct (stream_at sv (d_inlet d) (r + qsum (overflow_into x om))) as [s|] eqn:Es; cbn [obind] in Hrun; [|discriminate].
      destruct (f s) as [e|] eqn:Ee; cbn [obind] in Hrun; [|discriminate].
      destruct (Hgen (dict_set node_eqb to (overflow_into to om ++ [e]) om) e) as [Hlen H]; [| |exact Hrun|split; [cbn; congruence|exact H]].
      * intros b. rewrite overflow_into_set. unfold passes. fold ov in Eo. rewrite Eo.
        assert (Esym : node_eqb to b = node_eqb b to).
        { destruct (node_eqb to b) eqn:E1; destruct (node_eqb b to) eqn:E2; try reflexivity.
          - apply node_eqb_spec in E1. subst. rewrite node_eqb_refl in E2. discriminate.
          - apply node_eqb_spec in E2. subst. rewrite node_eqb_refl in E1. discriminate. }
        rewrite Esym. destruct (node_eqb b to) eqn:E; [apply node_eqb_spec in E; subst; reflexivity|]. rewrite app_nil_r. reflexivity.
      * unfold excess_of_item. fold ov in Eo. rewrite Eo. exists f, s. auto.
    + destruct (Hgen om 0) as [Hlen H]; [| | |split; [cbn; congruence|exact H]].
      * intros b. unfold passes. fold ov in Eo. rewrite Eo, app_nil_r. reflexivity.
      * unfold excess_of_item. fold ov in Eo. rewrite Eo. reflexivity.
      * rewrite <- Hrun. f_equal. f_equal. ring.
Qed.
End Loop.

(** ** The constructor *)
Lemma overflow_graph_wf : forall ids ov, wf (overflow_graph ids ov).
Proof. intros ids ov. unfold overflow_graph. apply fold_edges_wf, fold_nodes_wf, wf_empty. Qed.
Lemma overflow_graph_edge : forall ids ov u v, edge (overflow_graph ids ov) u v <-> In (u, v) ov.
Proof.
  intros ids ov u v. unfold overflow_graph. rewrite fold_edges_edge. unfold edge. rewrite fold_nodes_adj. cbn. tauto.
Qed.
Lemma overflow_graph_nodes : forall ids ov x, In x (nodes (overflow_graph ids ov)) <-> In x ids \/ In x (map fst ov) \/ In x (map snd ov).
Proof. intros ids ov x. unfold overflow_graph. rewrite fold_edges_In, fold_nodes_In. cbn. tauto. Qed.

Lemma leads_path : forall ids ov a b, leads_to ov a b <-> exists n, path (overflow_graph ids ov) (S n) a b.
Proof.
  intros ids ov a b; split.
  - intros H. induction H as [a b H|a b c H IH Hin].
    + exists O. econstructor; [constructor|]. apply overflow_graph_edge; assumption.
    + destruct IH as [n Hn]. exists (S n). econstructor; [exact Hn|]. apply overflow_graph_edge; assumption.
  - intros [n H]. revert b H. induction n as [|n IH]; intros b H.
    + inversion H as [|? ? v ? Hp He]; subst. inversion Hp; subst. apply leads_one. apply (overflow_graph_edge ids). assumption.
    + inversion H as [|? ? v ? Hp He]; subst. apply IH in Hp. eapply leads_more; [exact Hp|]. apply (overflow_graph_edge ids). assumption.
Qed.

Lemma is_dag_spec : forall ids ov,
  is_directed_acyclic_graph (overflow_graph ids ov) = true <-> forall a, ~ leads_to ov a a.
Proof.
  intros ids ov. unfold is_directed_acyclic_graph. pose proof (overflow_graph_wf ids ov) as Hw.
  pose proof (topological_core _ Hw) as H. destruct (topological_sort (overflow_graph ids ov)) as [order|e]; cbn [is_ok].
  - split; [|reflexivity]. intros _ a Ha. apply (leads_path ids) in Ha. destruct Ha as [n Hn]. destruct H as [Hp Ho].
    assert (Hnd : NoDup order) by (eapply Permutation_NoDup; [symmetry; exact Hp | exact (proj1 Hw)]).
    pose proof (order_path _ order Ho Hnd n a a Hn) as [i [j [Hij [Hi Hj]]]].
    assert (i = j) by (apply (proj1 (NoDup_nth_error order) Hnd); [apply nth_error_Some; congruence|congruence]). lia.
  - split; [discriminate|]. intros Ha. destruct H as [_ [v [n Hn]]]. exfalso. apply (Ha v). apply (leads_path ids). exists n; assumption.
Qed.

Lemma constructor_proof : forall inlet items fractions overflows,
  match new_distribution inlet items fractions overflows with
  | Return d => d_inlet d = inlet /\ d_items d = items /\ d_overflows d = overflows /\
                d_rates d = map (fun fraction => standard_rate inlet * fraction) fractions /\
                get_number_of_streams d = length fractions /\ forall a, ~ leads_to overflows a a
  | Raise e => e = ValidationErr /\ exists a, leads_to overflows a a
  end.
Proof.
  intros inlet items fractions overflows. unfold new_distribution.
  destruct (is_directed_acyclic_graph (overflow_graph (map fst items) overflows)) eqn:E; cbn [negb].
  - pose proof (proj1 (is_dag_spec _ _) E) as H. unfold get_number_of_streams. cbn. rewrite map_length. auto 8.
  - split; [reflexivity|]. unfold is_directed_acyclic_graph in E. pose proof (overflow_graph_wf (map fst items) overflows) as Hw.
    pose proof (topological_core _ Hw) as H. destruct (topological_sort (overflow_graph (map fst items) overflows)) as [o|e]; [discriminate|].
    destruct H as [_ [v [n Hn]]]. exists v. apply (leads_path (map fst items)). exists n; assumption.
Qed.

(** ** The streams *)
Lemma mapO_Return : forall A B (f : A -> outcome B) l ys, mapO f l = Return ys <-> Forall2 (fun x y => f x = Return y) l ys.
Proof.
  induction l as [|x l IH]; intros ys; cbn [mapO].
  - split; [intros [= <-]; constructor|]. intros H; inversion H; reflexivity.
  - destruct (f x) as [y|e] eqn:E; cbn [obind].
    + destruct (mapO f l) as [ys'|e] eqn:E2; cbn [obind].
      * split.
        -- intros [= <-]. constructor; [assumption|]. apply IH; reflexivity.
        -- intros H. inversion H as [|? ? ? ? H1 H2]; subst. apply IH in H2. congruence.
      * split; [discriminate|]. intros H. inversion H as [|? ? ? ? H1 H2]; subst. apply IH in H2. congruence.
    + split; [discriminate|]. intros H. inversion H; subst. congruence.
Qed.

Lemma filter_late : forall ov order j k, NoDup order -> (forall a b, In (a, b) ov -> before order a b) ->
  nth_error order j = Some k -> filter (passes ov k) (firstn j order) = filter (passes ov k) order.
Proof.
  intros ov order j k Hnd Hb Hj. rewrite <- (firstn_skipn j order) at 2. rewrite filter_app.
  assert (E : filter (passes ov k) (skipn j order) = []).
  { destruct (filter (passes ov k) (skipn j order)) as [|y l] eqn:E; [reflexivity|]. exfalso.
    assert (Hy : In y (filter (passes ov k) (skipn j order))) by (rewrite E; left; reflexivity).
    apply filter_In in Hy. destruct Hy as [Hy Hp]. apply passes_spec, passes_on_In, Hb in Hp.
    destruct Hp as [i [j' [Hij [Hi Hj']]]].
    assert (j' = j) by (apply (proj1 (NoDup_nth_error order) Hnd); [apply nth_error_Some; congruence|congruence]). subst j'.
    apply In_nth_error in Hy. destruct Hy as [m Hm]. rewrite nth_error_skipn in Hm.
    assert (i = (j + m)%nat) by (apply (proj1 (NoDup_nth_error order) Hnd); [apply nth_error_Some; congruence|congruence]). lia. }
  rewrite E, app_nil_r. reflexivity.
Qed.

Lemma filter_perm : forall A (p : A -> bool) l m, Permutation l m -> Permutation (filter p l) (filter p m).
Proof.
  intros A p l m H. induction H as [|x l m H IH|x y l|l m n H1 IH1 H2 IH2]; cbn.
  - constructor.
  - destruct (p x); [constructor|]; assumption.
  - destruct (p x), (p y); try constructor; reflexivity.
  - etransitivity; eassumption.
Qed.

Lemma Forall2_map_l : forall A B C (f : A -> B) (R : B -> C -> Prop) l m, Forall2 R (map f l) m <-> Forall2 (fun a c => R (f a) c) l m.
Proof.
  intros A B C f R l. induction l as [|x l IH]; intros m; cbn; split; intros H; inversion H; subst; constructor; auto; apply IH; assumption.
Qed.

Lemma dict_get_pairs : forall V (l : list (node_id * V)) k v, NoDup (map fst l) -> In (k, v) l -> dict_get node_eqb k l = Some v.
Proof.
  induction l as [|[k' v'] l IH]; intros k v Hnd Hin; [destruct Hin|]. cbn in *. inversion Hnd; subst.
  destruct (node_eqb k k') eqn:E.
  - apply node_eqb_spec in E. subst k'. destruct Hin as [Hin|Hin]; [congruence|]. exfalso. apply H1. apply in_map_iff. exists (k, v); auto.
  - destruct Hin as [Hin|Hin]; [injection Hin; intros; subst; rewrite node_eqb_refl in E; discriminate|]. apply IH; assumption.
Qed.

Lemma balanced_proof : forall sv inlet items fractions overflows d streams,
  NoDup (map fst items) -> length fractions = length items ->
  new_distribution inlet items fractions overflows = Return d ->
  get_streams sv d = Return streams ->
  exists order current excess, topological_sort (d_graph d) = Ok order /\ balanced sv d order streams current excess.
Proof.
  intros sv inlet items fractions overflows d streams Hnd Hlen Hnew Hget.
  unfold new_distribution in Hnew. destruct (negb (is_directed_acyclic_graph (overflow_graph (map fst items) overflows))) eqn:Edag; [discriminate|].
  apply negb_false_iff in Edag. injection Hnew as <-.
  unfold get_streams, adjust_for_overflow in Hget. cbn [d_graph d_rates d_inlet d_items d_overflows] in *.
  pose proof (overflow_graph_wf (map fst items) overflows) as Hw. pose proof (topological_core _ Hw) as Htop.
  destruct (topological_sort (overflow_graph (map fst items) overflows)) as [order|e] eqn:Etop; [|discriminate].
  destruct Htop as [Hperm Hbefore].
  set (d := mk_distribution inlet items (map (fun fraction => standard_rate inlet * fraction) fractions) overflows (overflow_graph (map fst items) overflows)) in *.
  assert (Hndo : NoDup order) by (eapply Permutation_NoDup; [symmetry; exact Hperm | exact (proj1 Hw)]).
  destruct (adjust sv d order (map (fun fraction => standard_rate inlet * fraction) fractions) [] []) as [A|e] eqn:Ead; cbn [obind] in Hget; [|discriminate].
  destruct (adjust_ok sv d order _ [] [] A Hndo (fun x _ H => H) Ead) as [Hl [cur [ex [HA [Hex Hcur]]]]].
  cbn [app] in HA. rewrite map_length in Hl.
  assert (Hpo : Permutation order (map fst items)).
  { symmetry. apply NoDup_Permutation_bis; [assumption|rewrite map_length; lia|].
    intros x Hx. eapply Permutation_in; [symmetry; exact Hperm|]. apply overflow_graph_nodes. left; assumption. }
  destruct (mapO _ A) as [ss|e] eqn:Ess in Hget; cbn [obind] in Hget; [|discriminate].
  apply mapO_Return in Ess. apply mapO_Return in Hget.
  exists order, cur, ex. split; [reflexivity|]. split; [assumption|]. split; [|split; [|split]].
  - intros a b Hab. apply Hbefore. apply overflow_graph_edge. assumption.
  - intros j k Hj. destruct (Hcur j k Hj) as [r [Hr Hc]]. exists r. split; [assumption|].
    exists (qsum (map ex (filter (passes overflows k) (map fst items)))). split; [apply received_spec; reflexivity|].
    rewrite Hc. f_equal. cbn [overflow_into dict_get app]. change (d_overflows d) with overflows.
    rewrite filter_late; [|assumption|intros a b Hab; apply Hbefore, overflow_graph_edge; assumption|assumption].
    apply qsum_map_perm. apply filter_perm. assumption.
  - intros k f Hin. specialize (Hex k). assert (Hk : In k order).
    { eapply Permutation_in; [symmetry; exact Hpo|]. apply in_map_iff. exists (k, f); auto. }
    specialize (Hex Hk). unfold excess_of_item in Hex. change (d_overflows d) with overflows in *.
    pose proof (overflow_out_spec overflows k) as Ho. destruct (get_overflow_out overflows k) as [b|].
    + right. destruct Hex as [f' [s [Hf [Hs He]]]]. exists b, s. change (d_items d) with items in Hf.
      rewrite (dict_get_pairs _ items k f Hnd Hin) in Hf. injection Hf as <-. auto.
    + left. auto.
  - change (d_items d) with items. change (d_inlet d) with inlet. change (d_inlet d) with inlet in Ess.
    assert (Hss : map fst ss = order /\ forall k, In k order -> exists s, In (k, s) ss /\ stream_at sv inlet (cur k - ex k) = Return s).
    { subst A. clear - Ess. revert ss Ess. induction order as [|k order IH]; intros ss Ess; cbn [map] in Ess; inversion Ess as [|? ? ? ss' H1 H2]; subst.
      - split; [reflexivity|]. intros k [].
      - cbn [fst snd] in H1. destruct (stream_at sv inlet (cur k - ex k)) as [s|] eqn:E; cbn [obind] in H1; [|discriminate]. injection H1 as <-.
        destruct (IH ss' H2) as [I1 I2]. split; [cbn; congruence|]. intros k' [<-|Hk']; [exists s; split; [left; reflexivity|assumption]|].
        destruct (I2 k' Hk') as [s' [Hs' E']]. exists s'. split; [right; assumption|assumption]. }
    destruct Hss as [Hkeys Hstr].
    revert Hget. generalize streams.
    assert (Hsub : forall it, In it items -> In (fst it) order) by (intros it Hit; eapply Permutation_in; [symmetry; exact Hpo|apply in_map; assumption]).
    revert Hsub. generalize items. intros its Hsub strs HF. induction HF as [|it s its strs H1 H2 IH]; constructor.
    + destruct (Hstr (fst it) (Hsub it (or_introl eq_refl))) as [s' [Hs' E]].
      rewrite (dict_get_pairs _ ss (fst it) s') in H1; [|rewrite Hkeys; assumption|assumption]. injection H1 as <-. assumption.
    + apply IH. intros y Hy. apply Hsub. right; assumption.
Qed.

(** ** The sum *)
Lemma qsum_filter_indicator : forall A (f : A -> Qc) p (l : list A), qsum (map f (filter p l)) = qsum (map (fun x => if p x then f x else 0) l).
Proof.
  intros A f p l. induction l as [|x l IH]; [reflexivity|]. cbn [filter map]. unfold qsum in *. destruct (p x); cbn; rewrite IH; [reflexivity|ring].
Qed.
Lemma qsum_once : forall (l : list node_id) (b : node_id) v, NoDup l -> In b l ->
  qsum (map (fun k => if node_eqb b k then v else 0) l) = v.
Proof.
  induction l as [|x l IH]; intros b v Hnd Hin; [destruct Hin|]. inversion Hnd; subst. unfold qsum in *. cbn.
  destruct (node_eqb b x) eqn:E.
  - apply node_eqb_spec in E. subst x.
    assert (Z : fold_right Qcplus 0 (map (fun k => if node_eqb b k then v else 0) l) = 0).
    { clear IH Hin Hnd H2. induction l as [|y l IHl]; [reflexivity|]. cbn. destruct (node_eqb b y) eqn:E.
      - apply node_eqb_spec in E. subst y. exfalso. apply H1. left; reflexivity.
      - rewrite IHl; [ring|]. intros H. apply H1. right; assumption. }
    rewrite Z. ring.
  - destruct Hin as [->|Hin]; [rewrite node_eqb_refl in E; discriminate|]. rewrite IH by assumption. ring.
Qed.

Lemma qsum_nth_error : forall (order : list node_id) (rates : list Qc) (g : node_id -> Qc),
  length rates = length order ->
  (forall j k r, nth_error order j = Some k -> nth_error rates j = Some r -> g k = r) ->
  qsum (map g order) = qsum rates.
Proof.
  intros order rates g Hlen H. f_equal. apply list_ext_nth. intros j. rewrite nth_error_map.
  destruct (nth_error order j) as [k|] eqn:E.
  - destruct (nth_error rates j) as [r|] eqn:Er; [cbn; f_equal; eapply H; eassumption|].
    apply nth_error_None in Er. assert (j < length order)%nat by (apply nth_error_Some; congruence). lia.
  - cbn. symmetry. apply nth_error_None. apply nth_error_None in E. lia.
Qed.

Lemma sum_balanced : forall sv d order streams current excess,
  consistent_service sv -> NoDup (map fst (d_items d)) -> length (d_rates d) = length (d_items d) ->
  balanced sv d order streams current excess ->
  qsum (map standard_rate streams) = qsum (d_rates d).
Proof.
  intros sv d order streams current excess Hsv Hnd Hlen [Hp [Hb [Hc [He Hs]]]].
  set (ks := map fst (d_items d)) in *. set (ov := d_overflows d) in *.
  assert (E1 : map standard_rate streams = map (fun k => current k - excess k) ks).
  { unfold ks. rewrite map_map. clear - Hs Hsv. induction Hs as [|it s its strs H1 H2 IH]; [reflexivity|]. cbn. f_equal; [|assumption].
    pose proof (standard_rate_proof sv (s_model (d_inlet d)) (s_pressure (d_inlet d)) (s_temperature (d_inlet d)) (current (fst it) - excess (fst it)) Hsv) as H.
    unfold stream_at in H1. rewrite H1 in H. apply H. }
  rewrite E1.
  assert (Hin : forall a b, In (a, b) ov -> In a ks /\ In b ks).
  { intros a b Hab. destruct (Hb a b Hab) as [i [j [_ [Hi Hj]]]]. split; eapply Permutation_in; try exact Hp; eapply nth_error_In; eassumption. }
  assert (Hndo : NoDup order) by (eapply Permutation_NoDup; [symmetry; exact Hp|assumption]).
  assert (E2 : qsum (map (fun k => current k - qsum (map excess (filter (passes ov k) ks))) order) = qsum (d_rates d)).
  { apply qsum_nth_error.
    - rewrite Hlen. apply Permutation_length in Hp. unfold ks in Hp. rewrite map_length in Hp. congruence.
    - intros j k r Hj Hr. destruct (Hc j k Hj) as [r' [Hr' [q [Hq Hcur]]]]. apply received_spec in Hq. fold ks ov in Hq. rewrite Hcur, Hq.
      assert (r' = r) by congruence. subst r'. ring. }
  rewrite <- E2. rewrite (qsum_map_perm _ _ _ _ Hp).
  assert (E3 : qsum (map (fun k => qsum (map excess (filter (passes ov k) ks))) ks) = qsum (map excess ks)).
  { transitivity (qsum (map (fun k => qsum (map (fun a => if passes ov k a then excess a else 0) ks)) ks)).
    { apply qsum_ext_in. intros k _. apply qsum_filter_indicator. }
    rewrite (qsum_swap node_id node_id (fun k a => if passes ov k a then excess a else 0)).
    apply qsum_ext_in. intros a Ha. unfold passes. destruct (get_overflow_out ov a) as [b|] eqn:Eo.
    - apply (qsum_once ks b (excess a)); [assumption|]. pose proof (overflow_out_spec ov a) as Ho. rewrite Eo in Ho.
      apply passes_on_In in Ho. apply (Hin a b Ho).
    - rewrite qsum_allzero; [|intros x Hx; apply in_map_iff in Hx; destruct Hx as [y [<- _]]; reflexivity].
      unfold ks in Ha. apply in_map_iff in Ha. destruct Ha as [[a' f] [Ea Ha]]. cbn in Ea. subst a'.
      destruct (He a f Ha) as [[_ H0]|[b [s [Hpo _]]]]; [symmetry; assumption|]. apply passes_on_out in Hpo. fold ov in Hpo. congruence. }
  assert (E4 : forall (f g : node_id -> Qc) l, qsum (map (fun k => f k - g k) l) = qsum (map f l) - qsum (map g l)).
  { intros f g l. induction l as [|x l IH]; unfold qsum in *; cbn; [ring|]. rewrite IH. ring. }
  rewrite !E4, E3. reflexivity.
Qed.

Lemma distribution_sum_proof : forall sv inlet items fractions overflows d streams,
  consistent_service sv -> NoDup (map fst items) -> length fractions = length items ->
  new_distribution inlet items fractions overflows = Return d ->
  get_streams sv d = Return streams ->
  length streams = length items /\
  qsum (map standard_rate streams) = standard_rate inlet * qsum fractions /\
  Forall (fun s => s_model s = s_model inlet /\ s_pressure s = s_pressure inlet /\ s_temperature s = s_temperature inlet /\ 0 <= standard_rate s) streams.
Proof.
  intros sv inlet items fractions overflows d streams Hsv Hnd Hlen Hnew Hget.
  destruct (balanced_proof sv inlet items fractions overflows d streams Hnd Hlen Hnew Hget) as [order [cur [ex [_ Hbal]]]].
  pose proof (constructor_proof inlet items fractions overflows) as Hcon. rewrite Hnew in Hcon. destruct Hcon as [H1 [H2 [H3 [H4 _]]]].
  assert (Hlr : length (d_rates d) = length (d_items d)) by (rewrite H4, H2, map_length; assumption).
  assert (Hnd' : NoDup (map fst (d_items d))) by (rewrite H2; assumption).
  split; [|split].
  - destruct Hbal as [_ [_ [_ [_ Hs]]]]. rewrite <- H2. clear - Hs. induction Hs; cbn; congruence.
  - rewrite (sum_balanced sv d order streams cur ex Hsv Hnd' Hlr Hbal), H4.
    rewrite (qsum_scale Qc (fun f => f) (standard_rate inlet) fractions). rewrite map_id. reflexivity.
  - destruct Hbal as [_ [_ [_ [_ Hs]]]]. rewrite H1 in Hs. clear - Hs Hsv. induction Hs as [|it s its strs Ha Hb IH]; constructor; [|assumption].
    pose proof (standard_rate_proof sv (s_model inlet) (s_pressure inlet) (s_temperature inlet) (cur (fst it) - ex (fst it)) Hsv) as H.
    unfold stream_at in Ha. rewrite Ha in H. destruct H as [Hr [Hp [Ht [Hm [_ Hpos]]]]]. rewrite Hr. auto.
Qed.

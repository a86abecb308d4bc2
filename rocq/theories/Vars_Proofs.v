(** Proofs about variables maps and temporal expressions. *)
From Coq Require Import Ascii String PeanoNat.
From Verif Require Import QcTac Base BaseLemmas Time_Model Time_Spec Time_Proofs Time_Proofs2
  Expr_Model Expr_Spec Expr_Proofs Vars_Model.
Local Open Scope list_scope.
Local Open Scope Z_scope.

(** *** slices *)
Lemma slice_map2 : forall A B C (f : A -> B -> C) l m i j,
  slice i j (map2 f l m) = map2 f (slice i j l) (slice i j m).
Proof.
  intros. apply list_ext_nth. intros k. rewrite nth_error_slice, !nth_error_map2, !nth_error_slice.
  destruct (_ <? _)%nat; reflexivity.
Qed.
Lemma slice_repeat : forall A (x : A) n i j, (j <= n)%nat -> slice i j (repeat x n) = repeat x (j - i).
Proof.
  intros A x n i j L. unfold slice. rewrite <- (firstn_skipn i (repeat x n)) at 1.
  assert (forall n i, skipn i (repeat x n) = repeat x (n - i)) as Hs.
  { induction n0 as [|m IH]; intros [|k]; cbn; auto. }
  assert (forall n i, (i <= n)%nat -> firstn i (repeat x n) = repeat x i) as Hf.
  { induction n0 as [|m IH]; intros [|k] H; cbn; auto; [lia|]. f_equal. apply IH; lia. }
  rewrite firstn_skipn. rewrite Hs. apply Hf. lia.
Qed.

Lemma dict_get_map : forall K V W (eqb : K -> K -> bool) (f : V -> W) k (d : list (K * V)),
  dict_get eqb k (map (fun kv => (fst kv, f (snd kv))) d) = option_map f (dict_get eqb k d).
Proof. induction d as [|[a v] d IH]; cbn; auto. destruct (eqb k a); auto. Qed.

Definition uniform (vars : variables_dict) (n : nat) : Prop :=
  forall r l, dict_get String.eqb r vars = Some l -> length l = n.

Section Pow.
  Variable pow : Qc -> Qc -> Qc.

  Lemma eval_node_slice : forall vars n i j t v,
    uniform vars n -> (i <= j)%nat -> (j <= n)%nat ->
    eval_node pow t vars n = Ok v ->
    eval_node pow t (map (fun kv => (fst kv, slice i j (snd kv))) vars) (j - i) = Ok (slice i j v).
  Proof.
    intros vars n i j t; induction t as [t|s a IHa b IHb]; intros v Hu Hij Hj E; cbn in E.
    - destruct t as [x|s|r|s]; cbn in E; try discriminate.
      + injection E as <-. cbn. now rewrite slice_repeat.
      + cbn. rewrite dict_get_map. destruct (dict_get _ _ _) as [l|]; cbn in *; [|discriminate]. congruence.
    - destruct (get_operator s) as [o|] eqn:Eo; cbn in E; [|discriminate].
      destruct (eval_node pow a vars n) as [va|] eqn:Ea; cbn in E; [|discriminate].
      destruct (eval_node pow b vars n) as [vb|] eqn:Eb; cbn in E; [|discriminate].
      pose proof (eval_node_length _ _ _ _ _ Hu Ea) as La. pose proof (eval_node_length _ _ _ _ _ Hu Eb) as Lb.
      rewrite broadcast_eq_length in E by congruence. injection E as <-.
      cbn [eval_node]. rewrite Eo. cbn [bind]. rewrite (IHa va), (IHb vb) by auto. cbn [bind].
      rewrite broadcast_eq_length by (rewrite !slice_length; lia). now rewrite slice_map2.
  Qed.

  Lemma evaluate_slice : forall ts vars n i j v,
    uniform vars n -> (i <= j)%nat -> (j <= n)%nat ->
    evaluate pow ts vars n = Ok v ->
    evaluate pow ts (map (fun kv => (fst kv, slice i j (snd kv))) vars) (j - i) = Ok (slice i j v).
  Proof.
    intros ts vars n i j v Hu Hij Hj E. unfold evaluate in *.
    destruct (make_expression ts) as [t|]; cbn in *; [|discriminate].
    destruct (existsb _ _) eqn:Ex in E; [discriminate|].
    assert (existsb (fun r => match dict_get String.eqb r (map (fun kv => (fst kv, slice i j (snd kv))) vars) with
                              | None => true | _ => false end) (token_references ts) = false) as ->.
    { etransitivity; [|exact Ex]. apply existsb_ext. intros r. rewrite dict_get_map. destruct (dict_get _ _ _); reflexivity. }
    now apply eval_node_slice with (n := n).
  Qed.

  (** *** indices *)
  Definition whole_of (first : period) (rest : list period) : period :=
    mkPeriod (p_start first) (p_end (last rest first)).

  Definition on_grid (ps : list period) (first lastp q : period) : Prop :=
    is_boundary ps (Z.max (p_start q) (p_start first)) /\ is_boundary ps (Z.min (p_end q) (p_end lastp)).

  Lemma dates_of_all : forall first rest, all_dates (first :: rest) = Ok (dates_of (first :: rest)).
  Proof.
    intros. rewrite dates_of_eq, last_shift. reflexivity.
  Qed.

  Lemma dates_of_length : forall first rest, length (dates_of (first :: rest)) = S (length (first :: rest)).
  Proof. intros. rewrite dates_of_eq, app_length. unfold start_dates. rewrite map_length. cbn. lia. Qed.

  Lemma whole_nonempty : forall first rest, contiguous (first :: rest) -> nonempty (whole_of first rest).
  Proof.
    intros first rest Hc. destruct (dates_of_nth _ 0%nat first Hc eq_refl) as [E3 _].
    destruct (dates_of_nth _ _ _ Hc (nth_error_last _ rest first)) as [_ E4].
    rewrite last_shift in E4. unfold nonempty, whole_of; cbn.
    apply (increasing_nth_lt _ _ _ _ _ (dates_of_increasing _ Hc) E3 E4). lia.
  Qed.

  Lemma period_indices_spec : forall first rest q,
    contiguous (first :: rest) -> nonempty q -> intersects q (whole_of first rest) = true ->
    on_grid (first :: rest) first (last rest first) q ->
    exists i j, get_period_indices q (first :: rest) = Ok (i, j) /\ (i < j)%nat /\ (j <= length (first :: rest))%nat /\
      nth_error (dates_of (first :: rest)) i = Some (Z.max (p_start q) (p_start first)) /\
      nth_error (dates_of (first :: rest)) j = Some (Z.min (p_end q) (p_end (last rest first))).
  Proof.
    intros first rest q Hc Hq Hi [G1 G2].
    pose proof (whole_nonempty _ _ Hc) as Hw.
    rewrite intersects_bounds in Hi by assumption. cbn [whole_of p_start p_end] in Hi.
    apply (dates_of_In _ _ Hc) in G1, G2. rewrite dates_of_eq, last_shift in G1, G2.
    unfold get_period_indices. cbn [last_opt].
    destruct (index_of Z.eqb (Z.max _ _) _) as [i|] eqn:E1.
    2:{ exfalso. apply index_of_None in E1; [|apply Zeqb_spec].
        apply in_app_or in G1 as [G1|[G1|[]]]; [contradiction|]. lia. }
    destruct (index_of Z.eqb (Z.min _ _) _) as [j|] eqn:E2.
    2:{ exfalso. apply index_of_None in E2; [|apply Zeqb_spec]. contradiction. }
    exists i, j. split; [reflexivity|].
    apply index_of_Some in E1 as [E1 _]; [|apply Zeqb_spec]. apply index_of_Some in E2 as [E2 _]; [|apply Zeqb_spec].
    assert (nth_error (dates_of (first :: rest)) i = Some (Z.max (p_start q) (p_start first))) as E1'.
    { rewrite dates_of_eq, nth_error_app1; auto. apply nth_error_Some. congruence. }
    assert (nth_error (dates_of (first :: rest)) j = Some (Z.min (p_end q) (p_end (last rest first)))) as E2'.
    { rewrite dates_of_eq, last_shift. exact E2. }
    split; [|split; [|split; assumption]].
    - destruct (Nat.le_gt_cases j i) as [L|L]; auto. exfalso.
      pose proof (proj1 (increasing_nth_le _ _ _ _ _ (dates_of_increasing _ Hc) E2' E1') L). lia.
    - assert (j < length (dates_of (first :: rest)))%nat by (apply nth_error_Some; congruence).
      rewrite dates_of_length in H. lia.
  Qed.

  (** the periods with an index in [i, j) are those inside the query *)
  Lemma period_indices_inside : forall first rest q i j,
    contiguous (first :: rest) ->
    nth_error (dates_of (first :: rest)) i = Some (Z.max (p_start q) (p_start first)) ->
    nth_error (dates_of (first :: rest)) j = Some (Z.min (p_end q) (p_end (last rest first))) ->
    forall k p, nth_error (first :: rest) k = Some p ->
      ((i <= k < j)%nat -> forall d, In_period d p -> In_period d q) /\
      (forall d, In_period d p -> In_period d q -> (i <= k < j)%nat).
  Proof.
    intros first rest q i j Hc Ei Ej k p Hk.
    destruct (dates_of_nth _ _ _ Hc Hk) as [E1 E2].
    pose proof (dates_of_increasing _ Hc) as Hinc. split.
    - intros [L1 L2] d [H1 H2].
      pose proof (proj1 (increasing_nth_le _ _ _ _ _ Hinc Ei E1) L1).
      assert (S k <= j)%nat as L3 by lia.
      pose proof (proj1 (increasing_nth_le _ _ _ _ _ Hinc E2 Ej) L3). unfold In_period. lia.
    - intros d Hd [H1 H2]. pose proof (contiguous_bounds _ _ _ _ _ Hc Hk Hd) as B. rewrite last_shift in B.
      destruct Hd as [H3 H4]. split.
      + destruct (Nat.le_gt_cases i k) as [L|L]; auto. exfalso.
        pose proof (proj1 (increasing_nth_le _ _ _ _ _ Hinc E2 Ei) L). lia.
      + destruct (Nat.le_gt_cases j k) as [L|L]; auto. exfalso.
        pose proof (proj1 (increasing_nth_le _ _ _ _ _ Hinc Ej E1) L). lia.
  Qed.

  (** *** subsets *)
  Lemma slice_cons2 : forall A (l : list A) i x, nth_error l i = Some x ->
    forall j, (i < j)%nat -> slice i j l = x :: slice (S i) j l.
  Proof.
    intros A l i x Hi j L. apply list_ext_nth. intros [|k].
    - rewrite nth_error_slice. destruct (Nat.ltb_spec 0 (j - i)); [|lia]. now rewrite Nat.add_0_r.
    - change (nth_error (x :: slice (S i) j l) (S k)) with (nth_error (slice (S i) j l) k).
      rewrite !nth_error_slice. replace (i + S k)%nat with (S i + k)%nat by lia.
      destruct (Nat.ltb_spec (S k) (j - i)), (Nat.ltb_spec k (j - S i)); auto; lia.
  Qed.

  Lemma consecutive_slice : forall ps i j, contiguous ps -> (i < j)%nat -> (j <= length ps)%nat ->
    consecutive (slice i (j + 1) (dates_of ps)) = slice i j ps.
  Proof.
    intros ps i j Hc Hij Hj. remember (j - i)%nat as n eqn:En. revert i Hij En.
    induction n as [|n IH]; intros i Hij En; [lia|].
    destruct (nth_error ps i) as [p|] eqn:Ep; [|apply nth_error_None in Ep; lia].
    destruct (dates_of_nth _ _ _ Hc Ep) as [E1 E2].
    rewrite (slice_cons2 _ _ _ _ E1) by lia. rewrite (slice_cons2 _ _ _ _ E2) by lia.
    rewrite consecutive_cons2. rewrite (slice_cons2 _ _ _ _ Ep) by lia. f_equal; [now destruct p|].
    destruct (Nat.eq_dec n 0) as [->|Hn].
    - assert (j = S i) by lia. subst j. unfold slice. replace (S i + 1 - S (S i))%nat with 0%nat by lia.
      replace (S i - S i)%nat with 0%nat by lia. reflexivity.
    - rewrite <- (slice_cons2 _ _ _ _ E2) by lia. apply IH; lia.
  Qed.

  Lemma create_periods_ff : forall ts, create_periods ts false false = consecutive ts.
  Proof. intros [|a ts]; [reflexivity|]. cbn [create_periods app]. now rewrite app_nil_r. Qed.

  Lemma get_subset_spec : forall first rest vars vm i j,
    contiguous (first :: rest) -> make_variables_map (first :: rest) vars = Ok vm ->
    (i < j)%nat -> (j <= length (first :: rest))%nat ->
    exists sub, get_subset vm i j = Ok sub /\ vm_periods sub = slice i j (first :: rest) /\
      vm_variables sub = map (fun kv => (fst kv, slice i j (snd kv))) vars.
  Proof.
    intros first rest vars vm i j Hc E Hij Hj. unfold make_variables_map in E. rewrite dates_of_all in E.
    assert (vm = mkVM (first :: rest) (dates_of (first :: rest)) vars) as -> by (cbn [bind] in E; congruence).
    unfold get_subset. cbn [vm_time_vector vm_variables]. rewrite create_periods_ff.
    rewrite consecutive_slice by assumption.
    unfold make_variables_map. destruct (nth_error (first :: rest) i) as [p|] eqn:Ep; [|apply nth_error_None in Ep; lia].
    rewrite (slice_cons2 _ _ _ _ Ep) by assumption. rewrite dates_of_all. cbn [bind].
    eexists. split; [reflexivity|]. split; reflexivity.
  Qed.

  Lemma vm_period_spec : forall first rest vars vm,
    make_variables_map (first :: rest) vars = Ok vm -> vm_period vm = Ok (whole_of first rest).
  Proof.
    intros first rest vars vm E. unfold make_variables_map in E. rewrite dates_of_all in E.
    assert (vm = mkVM (first :: rest) (dates_of (first :: rest)) vars) as -> by (cbn [bind] in E; congruence).
    unfold vm_period. cbn [vm_time_vector].
    rewrite dates_of_eq, last_shift. cbn [start_dates map app last_opt]. rewrite last_app_one. reflexivity.
  Qed.

  (** *** C07 *)
  Lemma evaluate_temporal_core : forall first rest vars vm tm,
    let ps := first :: rest in
    let n := length ps in
    make_variables_map ps vars = Ok vm -> contiguous ps ->
    (forall r l, dict_get String.eqb r vars = Some l -> length l = n) ->
    pdisj tm -> (forall e, In e tm -> nonempty (fst e)) ->
    (forall q ts, In (q, ts) tm -> (exists d, In_period d q /\ In_period d (whole_of first rest)) ->
       on_grid ps first (last rest first) q /\ exists v, evaluate pow ts vars n = Ok v) ->
    exists vec, evaluate_temporal pow vm tm = Ok vec /\ length vec = n /\
      forall k p, nth_error ps k = Some p ->
        (forall d ts, In_period d p -> in_force tm d ts ->
           exists v, evaluate pow ts vars n = Ok v /\ nth_error vec k = nth_error v k) /\
        ((forall d ts, In_period d p -> ~ in_force tm d ts) -> nth_error vec k = Some 0%Qc).
  Proof.
    intros first rest vars vm tm. cbv zeta. intros Evm Hc Hu Hdis Hne Hok.
    set (ps := first :: rest) in *.
    assert (vm_periods vm = ps) as Eps.
    { unfold make_variables_map in Evm. destruct (all_dates ps); cbn in Evm; [|discriminate]. now injection Evm as <-. }
    pose proof (vm_period_spec _ _ _ _ Evm) as Ew.
    pose proof (whole_nonempty _ _ Hc) as Hw.
    unfold evaluate_temporal. rewrite Eps.
    assert (forall tm vec0, pdisj tm -> (forall e, In e tm -> nonempty (fst e)) ->
      (forall q ts, In (q, ts) tm -> (exists d, In_period d q /\ In_period d (whole_of first rest)) ->
       on_grid ps first (last rest first) q /\ exists v, evaluate pow ts vars (length ps) = Ok v) ->
      length vec0 = length ps ->
      exists vec, fold_left (evaluate_temporal_step pow vm) tm (Ok vec0) = Ok vec /\ length vec = length ps /\
      forall k p, nth_error ps k = Some p ->
        (forall d ts, In_period d p -> in_force tm d ts ->
           exists v, evaluate pow ts vars (length ps) = Ok v /\ nth_error vec k = nth_error v k) /\
        ((forall d ts, In_period d p -> ~ in_force tm d ts) -> nth_error vec k = nth_error vec0 k)) as Main.
    { clear tm Hdis Hne Hok. induction tm as [|[q ts] tm IH]; intros vec0 Hdis Hne Hok Hlen.
      - exists vec0. split; [reflexivity|]. split; [assumption|]. intros k p Hk. split; auto.
        intros d ts _ (q & [] & _).
      - cbn [fold_left]. unfold evaluate_temporal_step at 2. cbn [bind fst snd]. rewrite Ew. cbn [bind].
        inversion Hdis as [|? ? Hdis' Hd]; subst.
        assert (nonempty q) as Hq by (apply (Hne (q, ts)); now left).
        destruct (intersects q (whole_of first rest)) eqn:Ei.
        + destruct (Hok q ts (or_introl eq_refl)) as [Hg [v Ev]]; [now apply intersects_iff|].
          destruct (period_indices_spec _ _ _ Hc Hq Ei Hg) as (i & j & Eij & Hij & Hj & Di & Dj).
          rewrite Eps. fold ps in Eij. rewrite Eij. cbn [bind fst snd].
          destruct (get_subset_spec _ _ _ _ i j Hc Evm Hij Hj) as (sub & Es & Esp & Esv).
          rewrite Es. cbn [bind]. unfold vm_evaluate. rewrite Esp, Esv.
          rewrite slice_length by assumption.
          assert ((i <= j)%nat) as Hij' by lia.
          rewrite (evaluate_slice ts vars (length ps) i j v Hu Hij' Hj Ev). cbn [bind].
          assert (length v = length ps) as Lv.
          { apply evaluate_Ok in Ev as (t & _ & Ev). eapply eval_node_length; eauto. }
          destruct (IH (splice i j (slice i j v) vec0)) as (vec & Evec & Lvec & Hvec); auto.
          { intros e He; apply Hne; now right. }
          { intros q' ts' H'; apply Hok; now right. }
          { rewrite splice_length; auto; try (fold ps in Hj; lia). rewrite slice_length; [reflexivity|]. fold ps in Hj. lia. }
          exists vec. split; [assumption|]. split; [assumption|]. intros k p Hk.
          destruct (period_indices_inside _ _ _ _ _ Hc Di Dj k p Hk) as [In1 In2].
          assert (nth_error (splice i j (slice i j v) vec0) k =
                  if ((i <=? k) && (k <? j))%nat%bool then nth_error v k else nth_error vec0 k) as Esplice.
          { rewrite nth_error_splice; try (fold ps in Hj; lia). 2:{ rewrite slice_length; fold ps in Hj; lia. }
            rewrite nth_error_slice.
            destruct (Nat.ltb_spec k i), (Nat.leb_spec i k); try lia; cbn [andb]; auto.
            destruct (Nat.ltb_spec k j); auto. destruct (Nat.ltb_spec (k - i) (j - i)); [|lia].
            f_equal. lia. }
          split.
          * intros d ts' Hd1 (q' & [[= -> ->]|Hq'] & Hd2).
            -- exists v. split; [assumption|].
               destruct (Hvec k p Hk) as [_ Hz]. rewrite Hz.
               ++ rewrite Esplice. specialize (In2 d Hd1 Hd2).
                  destruct (Nat.leb_spec i k), (Nat.ltb_spec k j); cbn; auto; lia.
               ++ intros d' ts2 Hd' (q2 & Hq2 & Hd2'). specialize (In2 d Hd1 Hd2).
                  apply (Hd (q2, ts2) d' Hq2); cbn; auto.
            -- apply (proj1 (Hvec k p Hk) d ts' Hd1). exists q'; auto.
          * intros Hno. destruct (Hvec k p Hk) as [_ Hz]. rewrite Hz.
            -- rewrite Esplice. destruct (Nat.leb_spec i k), (Nat.ltb_spec k j); cbn; auto.
               exfalso. pose proof (contiguous_nonempty _ _ Hc (nth_error_In _ _ Hk)) as Hp. unfold nonempty in Hp.
               apply (Hno (p_start p) ts); [unfold In_period; lia|]. exists q. split; [now left|].
               apply In1; [lia|unfold In_period; lia].
            -- intros d ts2 Hd2 (q2 & Hq2 & Hin). apply (Hno d ts2 Hd2). exists q2; split; auto. now right.
        + destruct (IH vec0) as (vec & Evec & Lvec & Hvec); auto.
          { intros e He; apply Hne; now right. }
          { intros q' ts' H'; apply Hok; now right. }
          exists vec. split; [assumption|]. split; [assumption|]. intros k p Hk. split.
          * intros d ts' Hd1 (q' & [[= -> ->]|Hq'] & Hd2).
            -- exfalso. assert (intersects q' (whole_of first rest) = true); [|congruence].
               apply intersects_iff; auto. exists d. split; auto.
               pose proof (contiguous_bounds _ _ _ _ _ Hc Hk Hd1) as B. rewrite last_shift in B. exact B.
            -- apply (proj1 (Hvec k p Hk) d ts' Hd1). exists q'; auto.
          * intros Hno. apply (proj2 (Hvec k p Hk)). intros d ts2 Hd2 (q2 & Hq2 & Hin).
            apply (Hno d ts2 Hd2). exists q2; split; auto. now right. }
    destruct (Main tm (repeat 0%Qc (length ps)) Hdis Hne Hok (repeat_length _ _)) as (vec & E & L & H).
    exists vec. split; [assumption|]. split; [assumption|]. intros k p Hk.
    destruct (H k p Hk) as [H1 H2]. split; auto. intros Hno. rewrite (H2 Hno).
    rewrite (nth_error_nth' _ 0%Qc). - f_equal. apply nth_repeat_lt. apply nth_error_Some; congruence.
    - rewrite repeat_length. apply nth_error_Some; congruence.
  Qed.

  Lemma no_cut_boundary : forall first rest t, contiguous (first :: rest) ->
    p_start first <= t <= p_end (last rest first) ->
    (forall p, In p (first :: rest) -> ~ (p_start p < t < p_end p)) -> is_boundary (first :: rest) t.
  Proof.
    intros first rest t Hc Ht Hno.
    assert (t < p_end (last rest first) \/ t = p_end (last rest first)) as [L| ->] by lia.
    - destruct (contiguous_cover rest first t Hc) as (i & q & Hi & Hq); [rewrite last_shift; lia|].
      exists q. split; [now apply nth_error_In in Hi|]. left.
      specialize (Hno q (nth_error_In _ _ Hi)). destruct Hq. lia.
    - exists (last rest first). split; [apply last_In'|now right].
  Qed.

  Theorem evaluate_temporal_proof : forall first rest vars vm tm,
    let ps := first :: rest in
    let n := length ps in
    make_variables_map ps vars = Ok vm -> contiguous ps ->
    (forall r l, dict_get String.eqb r vars = Some l -> length l = n) ->
    disjoint_entries tm -> (forall e, In e tm -> nonempty (fst e)) ->
    (* dates of the temporal expression do not cut a period of the time grid *)
    (forall q ts t p, In (q, ts) tm -> t = p_start q \/ t = p_end q -> In p ps -> ~ (p_start p < t < p_end p)) ->
    (forall q ts, In (q, ts) tm -> exists v, evaluate pow ts vars n = Ok v) ->
    exists vec, evaluate_temporal pow vm tm = Ok vec /\ length vec = n /\
      forall k p, nth_error ps k = Some p ->
        (forall d ts, In_period d p -> in_force tm d ts ->
           exists v, evaluate pow ts vars n = Ok v /\ nth_error vec k = nth_error v k) /\
        ((forall d ts, In_period d p -> ~ in_force tm d ts) -> nth_error vec k = Some 0%Qc).
  Proof.
    intros first rest vars vm tm ps n Evm Hc Hu Hdis Hne Hcut Hev.
    apply evaluate_temporal_core; auto; [now apply disjoint_pdisj|].
    intros q ts Hq (d & Hd1 & Hd2). split; [|eauto].
    pose proof (whole_nonempty _ _ Hc) as Hw. unfold nonempty, whole_of, In_period in Hd1, Hd2, Hw. cbn [p_start p_end] in Hd1, Hd2, Hw.
    split; apply no_cut_boundary; auto; try lia.
    - intros p Hp [L1 L2]. assert (p_start first <= p_start p) as L3.
      { apply In_nth_error in Hp as [k Hk]. pose proof (contiguous_nonempty _ _ Hc (nth_error_In _ _ Hk)) as Hn. unfold nonempty in Hn.
        pose proof (contiguous_bounds _ _ _ (p_start p) _ Hc Hk ltac:(unfold In_period; lia)). lia. }
      apply (Hcut q ts (p_start q) p); auto. lia.
    - intros p Hp [L1 L2]. assert (p_end p <= p_end (last rest first)) as L3.
      { apply In_nth_error in Hp as [k Hk]. pose proof (contiguous_nonempty _ _ Hc (nth_error_In _ _ Hk)) as Hn. unfold nonempty in Hn.
        pose proof (contiguous_bounds _ _ _ (p_end p - 1) _ Hc Hk ltac:(unfold In_period; lia)) as B. rewrite last_shift in B. lia. }
      apply (Hcut q ts (p_end q) p); auto. lia.
  Qed.

  (** the dates a user writes: the dates of the data and the ends of the target period *)
  Theorem temporal_expression_proof : forall first rest vars vm (data : temporal_data (list token)) target,
    let ps := first :: rest in
    let n := length ps in
    make_variables_map ps vars = Ok vm -> contiguous ps ->
    (forall r l, dict_get String.eqb r vars = Some l -> length l = n) ->
    data_well_formed data -> data_ordered data -> nonempty target -> p_end target <= DT_MAX ->
    (forall t p, t = p_start target \/ t = p_end target \/ In t (data_dates data) -> In p ps ->
       ~ (p_start p < t < p_end p)) ->
    (forall ts, In ts (data_models data) -> exists v, evaluate pow ts vars n = Ok v) ->
    exists vec, temporal_expression_evaluate pow data target vm = Ok vec /\ length vec = n /\
      forall k p, nth_error ps k = Some p ->
        (forall d ts, In_period d p -> In_period d target -> data_in_force data d ts ->
           exists v, evaluate pow ts vars n = Ok v /\ nth_error vec k = nth_error v k) /\
        ((forall d ts, In_period d p -> ~ (In_period d target /\ data_in_force data d ts)) -> nth_error vec k = Some 0%Qc).
  Proof.
    intros first rest vars vm data target ps n Evm Hc Hu Hwf Hord Ht Hmax Hcut Hev.
    destruct (default_model_props _ data target Hwf Ht) as (P1 & P2 & P3 & P4).
    unfold temporal_expression_evaluate.
    assert (temporal_model_of_periods (define_time_model_for_period data target) =
            Ok (define_time_model_for_period data target)) as ->.
    { apply temporal_model_of_periods_iff. split; auto. rewrite define_restrict by assumption. apply restrict_sorted; auto. }
    cbn [bind].
    assert (forall q ts, In (q, ts) (define_time_model_for_period data target) ->
      In ts (data_models data) /\ (p_start q = p_start target \/ In (p_start q) (data_dates data)) /\
      (p_end q = p_end target \/ p_end q = DT_MAX \/ In (p_end q) (data_dates data)) /\ nonempty q /\ p_end q <= p_end target) as Hent.
    { intros q ts Hq. rewrite define_restrict in Hq by assumption. apply in_flat_map in Hq as ((r & ts') & Hr & Hq).
      unfold restrict_entry in Hq. cbn [fst snd] in Hq. destruct (intersection r target) as [q'|] eqn:Ei; [|contradiction].
      destruct Hq as [[= -> ->]|[]]. pose proof (P1 _ Hr) as Hnr. cbn in Hnr.
      assert (In ts (data_models data) /\ (p_start r = p_start target \/ In (p_start r) (data_dates data)) /\
              (p_end r = p_end target \/ p_end r = DT_MAX \/ In (p_end r) (data_dates data))) as (Q1 & Q2 & Q3).
      { destruct data as [m|f l|f l]; cbn [default_temporal_model] in Hr.
        - destruct Hr as [[= <- <-]|[]]. cbn. auto.
        - destruct Hwf as [Hi Hb]. rewrite period_dict_dates in Hr by assumption.
          clear -Hr. cbn [data_models data_dates]. induction (f :: l) as [|[k m] l' IH]; [contradiction|].
          destruct Hr as [[= <- <-]|Hr].
          + cbn. destruct l' as [|[k2 m2] l']; cbn; auto 10.
          + destruct (IH Hr) as (I1 & I2 & I3). cbn. intuition.
        - destruct Hwf as [Hi Hb]. rewrite period_dict_disjoint in Hr; auto using disjoint_pdisj.
          cbn [data_models data_dates]. split; [now apply (in_map snd) in Hr|].
          split; right; [|right]; apply in_flat_map; exists (r, ts); cbn; auto. }
      pose proof (intersection_nonempty _ _ _ Hnr Ht Ei) as Hnq.
      rewrite intersection_bounds in Ei by assumption. destruct (_ <? _) eqn:L; [|discriminate]. injection Ei as <-.
      cbn [p_start p_end]. split; [assumption|]. split; [|split; [|split; [assumption|lia]]].
      - destruct (Z.max_spec (p_start r) (p_start target)) as [[_ ->]|[_ ->]]; auto.
      - destruct (Z.min_spec (p_end r) (p_end target)) as [[_ ->]|[_ ->]]; auto. }
    destruct (evaluate_temporal_proof first rest vars vm (define_time_model_for_period data target)) as (vec & E & L & H); auto.
    - rewrite define_restrict by assumption. apply pdisj_disjoint, restrict_pdisj; assumption.
    - intros [q ts] Hq. apply Hent in Hq. tauto.
    - intros q ts t p Hq Et Hp. destruct (Hent q ts Hq) as (_ & Q2 & Q3 & _ & Q5).
      destruct Et as [->| ->].
      + destruct Q2 as [->|Q2]; apply Hcut; auto.
      + destruct Q3 as [->|[Q3|Q3]]; try (apply Hcut; auto; fail).
        assert (p_end q = p_end target) as -> by lia. apply Hcut; auto.
    - intros q ts Hq. apply Hev. now apply Hent in Hq.
    - exists vec. split; [assumption|]. split; [assumption|]. intros k p Hk. destruct (H k p Hk) as [H1 H2]. split.
      + intros d ts Hd Hdt Hf. apply (H1 d ts Hd). apply define_time_model_proof; auto.
      + intros Hno. apply H2. intros d ts Hd Hf. apply (Hno d ts Hd). now apply define_time_model_proof in Hf.
  Qed.
End Pow.

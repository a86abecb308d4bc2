(** Proofs about subsets of variables and the resolution of variables. *)
From Coq Require Import Ascii String PeanoNat.
From Verif Require Import QcTac Base BaseLemmas Time_Model Time_Spec Time_Proofs Time_Proofs2
  Expr_Model Expr_Spec Expr_Proofs Vars_Model Vars_Spec Vars_Proofs.
Local Open Scope list_scope.
Local Open Scope Z_scope.

Lemma nth_error_combine : forall A B (l : list A) (m : list B) k,
  nth_error (combine l m) k =
  match nth_error l k, nth_error m k with Some a, Some b => Some (a, b) | _, _ => None end.
Proof.
  induction l as [|a l IH]; intros [|b m] [|k]; cbn; auto. now destruct (nth_error l k).
Qed.

Lemma combine_slice : forall A B (l : list A) (m : list B) i j,
  combine (slice i j l) (slice i j m) = slice i j (combine l m).
Proof.
  intros. apply list_ext_nth. intros k. rewrite nth_error_combine, !nth_error_slice, nth_error_combine.
  now destruct (_ <? _)%nat.
Qed.

Definition inside (q p : period) : bool := (p_start q <=? p_start p) && (p_end p <=? p_end q).

Lemma index_of_boundary : forall ps t, contiguous ps -> is_boundary ps t ->
  exists i, index_of Z.eqb t (dates_of ps) = Some i /\ nth_error (dates_of ps) i = Some t.
Proof.
  intros ps t Hc Hb. apply (dates_of_In _ _ Hc) in Hb.
  destruct (index_of Z.eqb t (dates_of ps)) as [i|] eqn:E.
  - exists i. split; auto. now apply index_of_Some in E as [E _]; [|apply Zeqb_spec].
  - apply index_of_None in E; [contradiction|apply Zeqb_spec].
Qed.

Lemma vm_eq : forall first rest vars vm, make_variables_map (first :: rest) vars = Ok vm ->
  vm = mkVM (first :: rest) (dates_of (first :: rest)) vars.
Proof.
  intros first rest vars vm E. unfold make_variables_map in E. rewrite dates_of_all in E. cbn [bind] in E. congruence.
Qed.

Theorem get_subset_for_period_proof : forall first rest vars vm p,
  let ps := first :: rest in
  make_variables_map ps vars = Ok vm -> contiguous ps -> nonempty p ->
  is_boundary ps (p_start p) -> is_boundary ps (p_end p) ->
  exists sub, get_subset_for_period vm p = Ok sub /\
    vm_periods sub = filter (inside p) ps /\
    forall r l, dict_get String.eqb r vars = Some l -> length l = length ps ->
      exists l', dict_get String.eqb r (vm_variables sub) = Some l' /\
        combine (vm_periods sub) l' = filter (fun pv => inside p (fst pv)) (combine ps l).
Proof.
  intros first rest vars vm p ps Evm Hc Hp B1 B2.
  destruct (index_of_boundary _ _ Hc B1) as (i & Ei & Ni). destruct (index_of_boundary _ _ Hc B2) as (j & Ej & Nj).
  pose proof (dates_of_increasing _ Hc) as Hinc.
  assert (forall t, is_boundary ps t -> p_start first <= t <= p_end (last rest first)) as Hbd.
  { intros t (q & Hq & Et). apply In_nth_error in Hq as [k Hk].
    pose proof (contiguous_nonempty _ _ Hc (nth_error_In _ _ Hk)) as Hn. unfold nonempty in Hn.
    pose proof (contiguous_bounds _ _ _ (p_start q) _ Hc Hk ltac:(unfold In_period; lia)) as X1.
    pose proof (contiguous_bounds _ _ _ (p_end q - 1) _ Hc Hk ltac:(unfold In_period; lia)) as X2.
    rewrite last_shift in X1, X2. lia. }
  pose proof (Hbd _ B1) as Hb1. pose proof (Hbd _ B2) as Hb2. unfold nonempty in Hp.
  assert (i < j)%nat as Hij.
  { destruct (Nat.le_gt_cases j i) as [L|L]; auto. exfalso.
    pose proof (proj1 (increasing_nth_le _ _ _ _ _ Hinc Nj Ni) L). lia. }
  assert (j <= length ps)%nat as Hj.
  { assert (j < length (dates_of ps))%nat by (apply nth_error_Some; congruence). unfold ps in *. rewrite dates_of_length in H. lia. }
  destruct (get_subset_spec _ _ _ _ i j Hc Evm Hij Hj) as (sub & Es & Esp & Esv).
  exists sub. split; [|split].
  - unfold get_subset_for_period. rewrite (vm_period_spec _ _ _ _ Evm). cbn [bind].
    assert (intersects (whole_of first rest) p = true) as ->.
    { apply intersects_iff; [now apply whole_nonempty|exact Hp|]. exists (p_start p). unfold In_period, whole_of; cbn. lia. }
    cbn [negb whole_of p_start p_end]. rewrite Z.max_l, Z.min_l by lia.
    assert (vm_time_vector vm = dates_of ps) as ->.
    { now rewrite (vm_eq _ _ _ _ Evm). }
    rewrite Ei, Ej. exact Es.
  - rewrite Esp. symmetry. apply filter_slice. intros k x Hk. destruct (dates_of_nth _ _ _ Hc Hk) as [E1 E2].
    unfold inside. rewrite andb_true_iff, !Z.leb_le.
    rewrite <- (increasing_nth_le _ _ _ _ _ Hinc Ni E1). rewrite <- (increasing_nth_le _ _ _ _ _ Hinc E2 Nj). lia.
  - intros r l Er Hl. exists (slice i j l). rewrite Esv, dict_get_map, Er. split; [reflexivity|].
    rewrite Esp, combine_slice. symmetry. apply filter_slice. intros k [x v] Hk. rewrite nth_error_combine in Hk.
    unfold ps in *. destruct (nth_error (first :: rest) k) as [x'|] eqn:Hk'; [|discriminate].
    destruct (nth_error l k) as [v'|]; [|discriminate]. injection Hk as -> ->. cbn [fst].
    destruct (dates_of_nth _ _ _ Hc Hk') as [E1 E2].
    unfold inside. rewrite andb_true_iff, !Z.leb_le.
    rewrite <- (increasing_nth_le _ _ _ _ _ Hinc Ni E1). rewrite <- (increasing_nth_le _ _ _ _ _ Hinc E2 Nj). lia.
Qed.

(** the code comment promises clamping, but the indices are looked up unclamped *)
Lemma subset_reaching_outside_refuted_proof : exists ps vars vm p,
  contiguous ps /\ make_variables_map ps vars = Ok vm /\ nonempty p /\
  (exists d q, In q ps /\ In_period d q /\ In_period d p) /\
  is_boundary ps (Z.max (p_start p) 0) /\ is_boundary ps (Z.min (p_end p) 20) /\
  get_subset_for_period vm p = Err ValueError.
Proof.
  exists [mkPeriod 0 10; mkPeriod 10 20], []. eexists. exists (mkPeriod 10 30).
  split; [cbn; unfold nonempty; cbn; lia|]. split; [reflexivity|]. split; [unfold nonempty; cbn; lia|].
  split; [exists 10, (mkPeriod 10 20); unfold In_period; cbn; intuition|].
  split; [exists (mkPeriod 0 10); cbn; auto|]. split; [exists (mkPeriod 10 20); cbn; auto|]. reflexivity.
Qed.
Lemma subset_outside_refuted_proof : exists ps vars vm p,
  contiguous ps /\ make_variables_map ps vars = Ok vm /\ nonempty p /\
  get_subset_for_period vm p = Err IndexError.
Proof.
  exists [mkPeriod 0 10; mkPeriod 10 20], []. eexists. exists (mkPeriod 30 40).
  split; [cbn; unfold nonempty; cbn; lia|]. split; [reflexivity|]. split; [unfold nonempty; cbn; lia|]. reflexivity.
Qed.

Theorem get_subset_for_timestep_proof : forall first rest vars vm k p,
  let ps := first :: rest in
  make_variables_map ps vars = Ok vm -> contiguous ps -> nth_error ps k = Some p ->
  exists sub, get_subset_for_timestep vm (p_start p) = Ok sub /\ vm_periods sub = [p] /\
    forall r l x, dict_get String.eqb r vars = Some l -> nth_error l k = Some x ->
      dict_get String.eqb r (vm_variables sub) = Some [x].
Proof.
  intros first rest vars vm k p ps Evm Hc Hk.
  destruct (dates_of_nth _ _ _ Hc Hk) as [E1 _].
  assert (k < length ps)%nat as Lk by (apply nth_error_Some; congruence).
  assert (k < k + 1)%nat as L1 by lia. assert (k + 1 <= length ps)%nat as L2 by lia.
  destruct (get_subset_spec _ _ _ _ k (k + 1) Hc Evm L1 L2) as (sub & Es & Esp & Esv).
  assert (forall A (l : list A) x, nth_error l k = Some x -> slice k (k + 1) l = [x]) as Hs.
  { intros A l x Hx. rewrite (slice_cons2 _ _ _ _ Hx) by lia. unfold slice. now replace (k + 1 - S k)%nat with 0%nat by lia. }
  exists sub. split; [|split].
  - unfold get_subset_for_timestep.
    assert (vm_time_vector vm = dates_of ps) as -> by now rewrite (vm_eq _ _ _ _ Evm).
    rewrite (index_of_nth _ _ _ _ k Zeqb_spec (increasing_NoDup _ (dates_of_increasing _ Hc)) E1). exact Es.
  - rewrite Esp. now apply Hs.
  - intros r l x Er Hx. rewrite Esv, dict_get_map, Er. cbn. f_equal. now apply Hs.
Qed.

(** *** evaluation depends only on the referenced variables *)

Lemma pop_operators_refs : forall r o1 stack out st' out', pop_operators o1 stack out = Ok (st', out') ->
  In (TRef r) out' -> In (TRef r) out.
Proof.
  induction stack as [|o2 st IH]; intros out st' out' E H; cbn in E; [now injection E as <- <-|].
  destruct (String.eqb o2 "("); [now injection E as <- <-|].
  destruct (pops o1 o2) as [[]|]; cbn in E; try discriminate; [|now injection E as <- <-].
  apply IH in E; auto. apply in_app_or in E as [E|[E|[]]]; auto. discriminate.
Qed.
Lemma pop_to_parenthesis_refs : forall r stack out st' out', pop_to_parenthesis stack out = Ok (st', out') ->
  In (TRef r) out' -> In (TRef r) out.
Proof.
  induction stack as [|o2 st IH]; intros out st' out' E H; cbn in E; [discriminate|].
  destruct (String.eqb o2 "("); [now injection E as <- <-|].
  apply IH in E; auto. apply in_app_or in E as [E|[E|[]]]; auto. discriminate.
Qed.
Lemma pop_all_refs : forall r stack out out', pop_all stack out = Ok out' -> In (TRef r) out' -> In (TRef r) out.
Proof.
  induction stack as [|o2 st IH]; intros out out' E H; cbn in E; [now injection E as <-|].
  destruct (String.eqb o2 "("); [discriminate|].
  apply IH in E; auto. apply in_app_or in E as [E|[E|[]]]; auto. discriminate.
Qed.
Lemma postfix_loop_refs : forall r ts stack out out', postfix_loop ts stack out = Ok out' ->
  In (TRef r) out' -> In (TRef r) out \/ In (TRef r) ts.
Proof.
  induction ts as [|t ts IH]; intros stack out out' E H; cbn in E; [left; eapply pop_all_refs; eauto|].
  assert (forall t0, postfix_loop ts stack (out ++ [t0]) = Ok out' -> In (TRef r) out \/ In (TRef r) (t0 :: ts)) as Hop.
  { intros t0 E0. apply IH in E0; auto. destruct E0 as [E0|E0]; [|right; now right].
    apply in_app_or in E0 as [E0|[E0|[]]]; auto. right; now left. }
  destruct t as [v|s|r'|s]; auto.
  destruct (String.eqb s "("); [apply IH in E; auto; destruct E; auto; right; now right|].
  destruct (String.eqb s ")").
  - destruct (pop_to_parenthesis stack out) as [[st' o']|] eqn:Ep; cbn in E; [|discriminate].
    apply IH in E; auto. destruct E as [E|E]; [left; eapply pop_to_parenthesis_refs; eauto|right; now right].
  - destruct (pop_operators s stack out) as [[st' o']|] eqn:Ep; cbn in E; [|discriminate].
    apply IH in E; auto. destruct E as [E|E]; [left; eapply pop_operators_refs; eauto|right; now right].
Qed.

Fixpoint node_refs (n : node) : list string :=
  match n with
  | Leaf (TRef r) => [r]
  | Leaf _ => []
  | Bin _ a b => node_refs a ++ node_refs b
  end.

Lemma tree_loop_refs : forall r ts stack n, tree_loop ts stack = Ok n -> In r (node_refs n) ->
  In (TRef r) ts \/ exists m, In m stack /\ In r (node_refs m).
Proof.
  induction ts as [|t ts IH]; intros stack n E H; cbn in E.
  - destruct stack as [|m st]; [discriminate|]. injection E as <-. right. exists m. split; [now left|assumption].
  - assert (forall t0, tree_loop ts (Leaf t0 :: stack) = Ok n -> In (TRef r) (t0 :: ts) \/ exists m, In m stack /\ In r (node_refs m)) as Hop.
    { intros t0 E0. apply IH in E0; auto. destruct E0 as [E0|(m & [<-|Hm] & Hr)]; [left; now right| |right; eauto].
      destruct t0 as [v|s|r'|s]; cbn in Hr; try contradiction. destruct Hr as [->|[]]. left; now left. }
    destruct t as [v|s|r'|s]; auto.
    destruct stack as [|rg [|lf st]]; try discriminate. apply IH in E; auto.
    destruct E as [E|(m & [<-|Hm] & Hr)]; [left; now right| |right; exists m; cbn; auto].
    cbn in Hr. apply in_app_or in Hr as [Hr|Hr]; right; [exists lf|exists rg]; cbn; auto.
Qed.

Lemma make_expression_refs : forall r ts n, make_expression ts = Ok n -> In r (node_refs n) -> In r (token_references ts).
Proof.
  intros r ts n E H. unfold make_expression, get_postfix in E.
  destruct (postfix_loop ts [] []) as [p|[]] eqn:Ep; cbn in E; try discriminate.
  assert (tree_loop p [] = Ok n) as E' by (unfold get_tree in E; destruct (tree_loop p []) as [|[]]; congruence).
  apply (tree_loop_refs r) in E'; auto. destruct E' as [E'|(m & [] & _)].
  apply (postfix_loop_refs r) in Ep; auto. destruct Ep as [[]|Ep].
  unfold token_references. apply in_flat_map. exists (TRef r). split; auto. now left.
Qed.

Section Pow.
  Variable pow : Qc -> Qc -> Qc.

  Lemma eval_node_refs : forall v1 v2 n t,
    (forall r, In r (node_refs t) -> dict_get String.eqb r v1 = dict_get String.eqb r v2) ->
    eval_node pow t v1 n = eval_node pow t v2 n.
  Proof.
    intros v1 v2 n; induction t as [t|s a IHa b IHb]; intros H; cbn.
    - destruct t as [v|s|r|s]; auto. rewrite H; auto. now left.
    - destruct (get_operator s); cbn; auto. rewrite IHa, IHb; auto; intros r Hr; apply H; cbn; apply in_or_app; auto.
  Qed.

  Lemma evaluate_local : forall ts v1 v2 n,
    (forall r, In r (token_references ts) -> dict_get String.eqb r v1 = dict_get String.eqb r v2) ->
    evaluate pow ts v1 n = evaluate pow ts v2 n.
  Proof.
    intros ts v1 v2 n H. unfold evaluate. destruct (make_expression ts) as [t|] eqn:E; cbn; auto.
    rewrite (existsb_ext_in _ _ (fun r => match dict_get String.eqb r v2 with None => true | _ => false end)).
    2:{ intros r Hr. now rewrite H. }
    rewrite (eval_node_refs v1 v2); auto. intros r Hr. apply H. eapply make_expression_refs; eauto.
  Qed.

  Lemma evaluate_entries_local : forall v1 v2 n l,
    (forall r e, In e l -> In r (token_references (snd e)) -> dict_get String.eqb r v1 = dict_get String.eqb r v2) ->
    evaluate_entries pow v1 n l = evaluate_entries pow v2 n l.
  Proof.
    intros v1 v2 n; induction l as [|[p ts] l IH]; intros H; cbn; auto.
    rewrite (evaluate_local ts v1 v2). 2:{ intros r Hr. apply (H r (p, ts)); auto. now left. }
    rewrite IH; auto. intros r e He Hr. apply (H r e); auto. now right.
  Qed.

  Lemma process_variable_local : forall v v1 v2 ps,
    (forall r, In r (required_variables v) -> dict_get String.eqb r v1 = dict_get String.eqb r v2) ->
    process_variable pow v v1 ps = process_variable pow v v2 ps.
  Proof.
    intros [ts|entries] v1 v2 ps H; cbn [process_variable].
    - now apply evaluate_local.
    - rewrite (evaluate_entries_local v1 v2); auto.
      intros r [p ts] He Hr. apply H. cbn [required_variables]. apply in_flat_map.
      apply in_combine_r in He. apply in_map_iff in He as (e & <- & He). exists e. auto.
  Qed.

  (** *** resolution of variables *)
  Section Resolve.
    Variable D : list (string * yaml_variable).
    Variable series : variables_dict.
    Variable ps : list period.
    Hypothesis D_nodup : NoDup (map fst D).
    Hypothesis D_series : forall id, In id (map fst D) -> dict_get String.eqb id series = None.

    Local Notation determined := (determined pow D series ps).

    Lemma D_functional : forall id v w, In (id, v) D -> In (id, w) D -> v = w.
    Proof.
      clear D_series. induction D as [|[i x] D' IH]; intros id v w Hv Hw; [contradiction|].
      inversion D_nodup as [|? ? Hni Hnd]; subst. destruct Hv as [Ev|Hv], Hw as [Ew|Hw].
      - congruence.
      - exfalso. apply Hni. apply (in_map fst) in Hw. injection Ev as -> ->. exact Hw.
      - exfalso. apply Hni. apply (in_map fst) in Hv. injection Ew as -> ->. exact Hv.
      - eapply IH; eauto.
    Qed.

    Lemma determined_functional : forall r l, determined r l -> forall l', determined r l' -> l = l'.
    Proof.
      induction 1 as [r l Hs|id v env l Hin Hdef Hdet IH Hp]; intros l' H'.
      - destruct H' as [r l' Hs'|id v env l' Hin _ _ _]; [congruence|].
        apply (in_map fst) in Hin. cbn in Hin. rewrite D_series in Hs by assumption. discriminate.
      - destruct H' as [r l' Hs'|id v' env' l' Hin' Hdef' Hdet' Hp'].
        + apply (in_map fst) in Hin. cbn in Hin. rewrite D_series in Hs' by assumption. discriminate.
        + assert (v' = v) by (eapply D_functional; eauto). subst v'.
          rewrite (process_variable_local v env env') in Hp; [congruence|].
          intros r Hr. destruct (Hdef r Hr) as [lr E]. destruct (Hdef' r Hr) as [lr' E'].
          rewrite E, E'. f_equal. eauto.
    Qed.

    Definition Inv (todo : list (string * yaml_variable)) (env : variables_dict) : Prop :=
      NoDup (map fst todo) /\
      (forall x, In x todo -> In x D) /\
      (forall r l, dict_get String.eqb r env = Some l -> determined r l) /\
      (forall id v, In (id, v) todo -> dict_get String.eqb id env = None) /\
      (forall id v, In (id, v) D -> In (id, v) todo \/ defined env id = true) /\
      (forall r l, dict_get String.eqb r series = Some l -> dict_get String.eqb r env = Some l).

    Lemma String_eqb_spec' : forall a b, String.eqb a b = true <-> a = b.
    Proof. intros; apply String.eqb_eq. Qed.

    Lemma ready_determined : forall todo env v, Inv todo env ->
      forallb (defined env) (required_variables v) = true ->
      forall r, In r (required_variables v) -> exists lr, dict_get String.eqb r env = Some lr /\ determined r lr.
    Proof.
      intros todo env v (_ & _ & H3 & _) Hr r Hin. rewrite forallb_forall in Hr. specialize (Hr r Hin).
      unfold defined in Hr. destruct (dict_get String.eqb r env) as [lr|] eqn:E; [|discriminate]. eauto.
    Qed.

    (** the list left after a pass is some [l' ] of [todo], and the invariant is kept *)
    Lemma pass_inv : forall n todo pre env, (length todo <= n)%nat -> Inv (pre ++ todo) env ->
      (exists left env' did, variables_pass pow ps todo env = Ok (left, env', did) /\
         Inv (pre ++ left) env' /\ (length left <= length todo)%nat /\
         (did = true -> (length left < length todo)%nat) /\
         (did = false -> left = todo /\ env' = env /\
            forall id v, In (id, v) todo -> forallb (defined env) (required_variables v) = false)) \/
      (exists e id v env', variables_pass pow ps todo env = Err e /\ In (id, v) D /\
         (forall r, In r (required_variables v) -> exists lr, dict_get String.eqb r env' = Some lr /\ determined r lr) /\
         process_variable pow v env' ps = Err e).
    Proof.
      induction n as [|n IH]; intros todo pre env Hn Hinv.
      - destruct todo; [|cbn in Hn; lia]. left. exists [], env, false. cbn. repeat split; auto; try apply Hinv; try discriminate; contradiction.
      - destruct todo as [|[id v] rest]; [left; exists [], env, false; cbn; repeat split; auto; try apply Hinv; try discriminate; contradiction|].
        cbn [variables_pass]. destruct (forallb (defined env) (required_variables v)) eqn:Er.
        + pose proof (ready_determined _ _ v Hinv Er) as Hreq.
          destruct Hinv as (I1 & I2 & I3 & I4 & I5 & I6).
          assert (In (id, v) D) as HinD by (apply I2, in_or_app; right; now left).
          destruct (process_variable pow v env ps) as [l|e] eqn:Ep.
          2:{ right. exists e, id, v, env. cbn. auto. }
          cbn [bind].
          assert (determined id l) as Hdet.
          { apply D_variable with (v := v) (env := env); auto.
            intros r Hr. destruct (Hreq r Hr) as (lr & E & _). eauto. }
          assert (Inv (pre ++ rest) (dict_set String.eqb id l env)) as Hinv'.
          { rewrite map_app in I1. cbn in I1.
            unfold Inv. repeat apply conj.
            - rewrite map_app. now apply NoDup_remove_1 in I1.
            - intros x Hx. apply I2. apply in_app_or in Hx as [Hx|Hx]; apply in_or_app; auto. right; now right.
            - intros r lr. rewrite dict_get_set by apply String_eqb_spec'. destruct (String.eqb r id) eqn:E; auto.
              apply String.eqb_eq in E. subst. intros [= <-]. assumption.
            - intros id' v' Hin. rewrite dict_get_set by apply String_eqb_spec'.
              destruct (String.eqb id' id) eqn:E.
              + apply String.eqb_eq in E. subst. exfalso. apply NoDup_remove_2 in I1. apply I1.
                rewrite <- map_app. now apply (in_map fst) in Hin.
              + apply (I4 id' v'). apply in_app_or in Hin as [Hin|Hin]; apply in_or_app; auto. right; now right.
            - intros id' v' Hin. destruct (I5 id' v' Hin) as [Hi|Hd].
              + apply in_app_or in Hi as [Hi|[[= <- <-]|Hi]]; [left; apply in_or_app; auto| |left; apply in_or_app; auto].
                right. unfold defined. rewrite dict_get_set by apply String_eqb_spec'. now rewrite String.eqb_refl.
              + right. unfold defined in *. rewrite dict_get_set by apply String_eqb_spec'. destruct (String.eqb id' id); auto.
            - intros r lr Hs. rewrite dict_get_set by apply String_eqb_spec'. destruct (String.eqb r id) eqn:E; auto.
              apply String.eqb_eq in E. subst. apply (in_map fst) in HinD. cbn in HinD. rewrite D_series in Hs by assumption. discriminate. }
          destruct rest as [|w rest'].
          * left. exists [], (dict_set String.eqb id l env), true. repeat split; auto; try apply Hinv'; cbn; try lia; try discriminate.
          * specialize (IH rest' (pre ++ [w]) (dict_set String.eqb id l env)). cbn in Hn.
            rewrite <- app_assoc in IH. cbn [app] in IH.
            destruct IH as [(left & env' & did & E & J1 & J2 & J3 & J4)|(e & id' & v' & env' & E & J)]; auto; [lia| |].
            -- left. exists (w :: left), env', true. rewrite E. cbn [bind fst snd]. rewrite <- app_assoc in J1. cbn [app] in J1.
               repeat split; auto; try apply J1; cbn; try lia; try discriminate.
            -- right. exists e, id', v', env'. rewrite E. auto.
        + specialize (IH rest (pre ++ [(id, v)]) env). cbn in Hn. rewrite <- app_assoc in IH. cbn [app] in IH.
          destruct IH as [(left & env' & did & E & J1 & J2 & J3 & J4)|(e & id' & v' & env' & E & J)]; auto; [lia| |].
          * left. exists ((id, v) :: left), env', did. rewrite E. cbn [bind fst snd]. rewrite <- app_assoc in J1. cbn [app] in J1.
            split; [reflexivity|]. split; [assumption|]. cbn. split; [lia|]. split; [intros H; specialize (J3 H); lia|].
            intros H. destruct (J4 H) as (-> & -> & J5). repeat split; auto.
            intros id' v' [[= <- <-]|Hin]; eauto.
          * right. exists e, id', v', env'. rewrite E. auto.
    Qed.

    Lemma loop_inv : forall fuel todo env, (length todo < fuel)%nat -> Inv todo env ->
      (exists left env', variables_loop pow fuel ps todo env = Ok (left, env') /\ Inv left env' /\
          forall id v, In (id, v) left -> forallb (defined env') (required_variables v) = false) \/
      (exists e id v env', variables_loop pow fuel ps todo env = Err e /\ In (id, v) D /\
         (forall r, In r (required_variables v) -> exists lr, dict_get String.eqb r env' = Some lr /\ determined r lr) /\
         process_variable pow v env' ps = Err e).
    Proof.
      induction fuel as [|fuel IH]; intros todo env Hf Hinv; [lia|].
      cbn [variables_loop]. destruct todo as [|x todo'] eqn:Et.
      - left. exists [], env. repeat split; auto; try apply Hinv; contradiction.
      - rewrite <- Et in *. clear Et.
        destruct (pass_inv (length todo) todo [] env (Nat.le_refl _) Hinv)
          as [(left & env' & did & E & J1 & J2 & J3 & J4)|(e & id' & v' & env' & E & J)].
        + rewrite E. cbn [bind fst snd]. cbn [app] in J1. destruct did.
          * apply IH; auto. specialize (J3 eq_refl). lia.
          * left. exists left, env'. split; [reflexivity|]. split; [assumption|].
            destruct (J4 eq_refl) as (-> & -> & J5). assumption.
        + right. exists e, id', v', env'. rewrite E. auto.
    Qed.

    Lemma Inv_init : Inv D series.
    Proof.
      repeat split; auto.
      - intros r l H. now apply Vars_Spec.D_series.
      - intros id v H. apply D_series. now apply (in_map fst) in H.
    Qed.

    (** what a stuck state defines *)
    Lemma stuck_resolvable : forall left env, Inv left env ->
      (forall id v, In (id, v) left -> forallb (defined env) (required_variables v) = false) ->
      forall r, resolvable D series r -> exists l, dict_get String.eqb r env = Some l.
    Proof.
      intros left env (I1 & I2 & I3 & I4 & I5 & I6) Hst. induction 1 as [r l Hs|id v Hin Hreq IH].
      - exists l. now apply I6.
      - destruct (I5 id v Hin) as [Hl|Hd].
        + exfalso. specialize (Hst id v Hl). assert (forallb (defined env) (required_variables v) = true); [|congruence].
          apply forallb_forall. intros r Hr. destruct (IH r Hr) as [l E]. unfold defined. now rewrite E.
        + unfold defined in Hd. destruct (dict_get String.eqb id env) as [l|]; [eauto|discriminate].
    Qed.

    Lemma determined_resolvable : forall r l, determined r l -> resolvable D series r.
    Proof.
      induction 1 as [r l Hs|id v env l Hin Hdef Hdet IH Hp]; [eapply R_series; eauto|].
      apply R_variable with (v := v); auto. intros r Hr. destruct (Hdef r Hr) as [lr E]. eauto.
    Qed.

    Theorem resolve_main :
      (exists left env, variables_loop pow (S (length D)) ps D series = Ok (left, env) /\
         (forall r l, dict_get String.eqb r env = Some l <-> determined r l) /\
         (left = [] <-> forall id, In id (map fst D) -> resolvable D series id)) \/
      (exists e, variables_loop pow (S (length D)) ps D series = Err e /\ ~ no_evaluation_error pow D series ps).
    Proof.
      destruct (loop_inv (S (length D)) D series ltac:(lia) Inv_init)
        as [(left & env & E & Hinv & Hst)|(e & id & v & env & E & Hin & Hreq & Hp)].
      - left. exists left, env. split; [assumption|].
        pose proof (stuck_resolvable _ _ Hinv Hst) as Hres.
        pose proof Hinv as (I1 & I2 & I3 & I4 & I5 & I6). split.
        + intros r l. split; [apply I3|]. intros Hd. destruct (Hres r (determined_resolvable _ _ Hd)) as [l' El].
          rewrite El. f_equal. eapply determined_functional; eauto.
        + split.
          * intros -> id Hid. apply in_map_iff in Hid as ((id' & v) & <- & Hin). cbn.
            destruct (I5 id' v Hin) as [[]|Hd]. unfold defined in Hd.
            destruct (dict_get String.eqb id' env) as [l|] eqn:El; [|discriminate].
            eapply determined_resolvable; eauto.
          * intros Hall. destruct left as [|[id v] left]; auto. exfalso.
            assert (In id (map fst D)) as Hid by (apply (in_map fst D (id, v)), I2; now left).
            destruct (Hres id (Hall id Hid)) as [l El]. rewrite (I4 id v) in El by now left. discriminate.
      - right. exists e. split; [assumption|]. intros Hno. destruct (Hno id v env Hin Hreq) as [l El]. congruence.
    Qed.
  End Resolve.

  (** *** main theorems *)
  Lemma make_vm_nonempty : forall p ps vars, make_variables_map (p :: ps) vars =
    Ok (mkVM (p :: ps) (dates_of (p :: ps)) vars).
  Proof. intros. unfold make_variables_map. now rewrite dates_of_all. Qed.

  Theorem evaluate_variables_values_proof : forall variables series ps vm,
    no_clash variables series ->
    evaluate_variables pow variables series ps = Ok vm ->
    vm_periods vm = ps /\
    (forall r l, dict_get String.eqb r (vm_variables vm) = Some l <->
                 determined pow (with_prefix variables) series ps r l) /\
    (forall id, In id (map fst (with_prefix variables)) ->
       exists l, dict_get String.eqb id (vm_variables vm) = Some l).
  Proof.
    intros variables series ps vm [Hnd Hs] E. unfold evaluate_variables in E. fold (with_prefix variables) in E.
    set (D := with_prefix variables) in *. cbv zeta in E.
    destruct (resolve_main D series ps Hnd Hs) as [(left & env & El & Hv & Hl)|(e & El & _)]; rewrite El in E; cbn [bind fst snd] in E; [|discriminate].
    destruct left as [|x left]; [|discriminate].
    assert (vm_periods vm = ps /\ vm_variables vm = env) as [-> ->].
    { unfold make_variables_map in E. destruct (all_dates ps); cbn in E; [|discriminate]. injection E as <-. auto. }
    split; [reflexivity|]. split; [assumption|].
    intros id Hid. destruct (proj1 Hl eq_refl id Hid) as [r l Hr|id v Hin _].
    - rewrite Hs in Hr by assumption. discriminate.
    - assert (Inv D series ps [] env) as HI.
      { destruct (loop_inv D series ps Hs (S (length D)) D series ltac:(lia) (Inv_init D series ps Hnd Hs))
          as [(left & env' & El' & Hinv & _)|(e & ? & ? & ? & El' & _)]; rewrite El' in El; [|discriminate].
        now injection El as -> ->. }
      destruct HI as (_ & _ & _ & _ & I5 & _). destruct (I5 id v Hin) as [[]|Hd].
      unfold defined in Hd. destruct (dict_get String.eqb id env) as [l|]; [eauto|discriminate].
  Qed.

  Theorem evaluate_variables_success_proof : forall variables series p0 rest,
    let ps := p0 :: rest in
    no_clash variables series ->
    no_evaluation_error pow (with_prefix variables) series ps ->
    ((forall id, In id (map fst (with_prefix variables)) -> resolvable (with_prefix variables) series id) ->
       exists vm, evaluate_variables pow variables series ps = Ok vm) /\
    (~ (forall id, In id (map fst (with_prefix variables)) -> resolvable (with_prefix variables) series id) ->
       evaluate_variables pow variables series ps = Err ValidationError).
  Proof.
    intros variables series p0 rest ps [Hnd Hs] Hno. unfold evaluate_variables. fold (with_prefix variables).
    set (D := with_prefix variables) in *. cbv zeta.
    destruct (resolve_main D series ps Hnd Hs) as [(left & env & El & Hv & Hl)|(e & El & Hf)]; [|contradiction].
    rewrite El. cbn [bind fst snd]. split.
    - intros Hall. apply Hl in Hall. subst left. unfold ps. rewrite make_vm_nonempty. eauto.
    - intros Hall. destruct left as [|x left]; auto. exfalso. apply Hall. now apply Hl.
  Qed.

  Lemma determined_perm : forall D D' series ps, (forall x, In x D <-> In x D') ->
    forall r l, determined pow D series ps r l -> determined pow D' series ps r l.
  Proof.
    intros D D' series ps Hp. induction 1 as [r l Hs|id v env l Hin Hdef Hdet IH Hpv]; [now constructor|].
    apply D_variable with (v := v) (env := env); auto. now apply Hp.
  Qed.
  Lemma resolvable_perm : forall D D' series, (forall x, In x D <-> In x D') ->
    forall r, resolvable D series r -> resolvable D' series r.
  Proof.
    intros D D' series Hp. induction 1 as [r l Hs|id v Hin Hreq IH]; [econstructor; eauto|].
    apply R_variable with (v := v); auto. now apply Hp.
  Qed.

  Theorem evaluate_variables_order_proof : forall variables variables' series ps vm,
    no_clash variables series -> Permutation variables variables' ->
    evaluate_variables pow variables series ps = Ok vm ->
    exists vm', evaluate_variables pow variables' series ps = Ok vm' /\
      vm_periods vm' = vm_periods vm /\ vm_time_vector vm' = vm_time_vector vm /\
      forall r, dict_get String.eqb r (vm_variables vm') = dict_get String.eqb r (vm_variables vm).
  Proof.
    intros variables variables' series ps vm Hnc Hp E.
    assert (Permutation (with_prefix variables) (with_prefix variables')) as HpD by now apply Permutation_map.
    assert (no_clash variables' series) as Hnc'.
    { destruct Hnc as [H1 H2]. split.
      - eapply Permutation_NoDup; [|exact H1]. now apply Permutation_map.
      - intros id Hid. apply H2. eapply Permutation_in; [|exact Hid]. apply Permutation_sym. now apply Permutation_map. }
    assert (forall x, In x (with_prefix variables) <-> In x (with_prefix variables')) as HIn.
    { intros x; split; apply Permutation_in; auto using Permutation_sym. }
    destruct (evaluate_variables_values_proof _ _ _ _ Hnc E) as (Vp & Vv & Vd).
    assert (no_evaluation_error pow (with_prefix variables') series ps) as Hno.
    { intros id v env Hin Hreq. apply HIn in Hin.
      destruct (Vd id) as [l El]. { now apply (in_map fst) in Hin. }
      apply Vv in El. destruct Hnc as [Hnd Hs]. inversion El as [r l' Hr|id' v' env' l' Hin' Hdef Hdet Hpv]; subst.
      - rewrite Hs in Hr; [discriminate|]. now apply (in_map fst) in Hin.
      - assert (v' = v) by (eapply D_functional; eauto). subst v'. exists l.
        rewrite <- Hpv. apply process_variable_local. intros r Hr.
        destruct (Hdef r Hr) as [lr Elr]. rewrite Elr.
        destruct (Hreq r Hr) as (lr' & Elr' & Hd'). rewrite Elr'. f_equal.
        apply (determined_perm _ (with_prefix variables)) in Hd'; [|intros; symmetry; apply HIn].
        eapply determined_functional; eauto. }
    destruct ps as [|p0 rest].
    { unfold evaluate_variables in E. cbv zeta in E. destruct (variables_loop _ _ _ _ _) as [[[|] env]|]; cbn in E; discriminate. }
    destruct (evaluate_variables_success_proof variables' series p0 rest Hnc' Hno) as [Hok _].
    destruct Hok as [vm' E'].
    { intros id Hid. apply (resolvable_perm (with_prefix variables)); auto.
      destruct (Vd id) as [l El]. { eapply Permutation_in; [|exact Hid]. apply Permutation_sym. now apply Permutation_map. }
      apply Vv in El. eapply determined_resolvable; eauto. }
    destruct (evaluate_variables_values_proof _ _ _ _ Hnc' E') as (Vp' & Vv' & Vd').
    exists vm'. split; [assumption|]. split; [congruence|]. split.
    - assert (forall vars v, evaluate_variables pow vars series (p0 :: rest) = Ok v -> vm_time_vector v = dates_of (p0 :: rest)) as Ht.
      { intros vars v Ev. unfold evaluate_variables in Ev. cbv zeta in Ev.
        destruct (variables_loop _ _ _ _ _) as [[[|] env]|]; cbn [bind fst snd] in Ev; try discriminate.
        rewrite make_vm_nonempty in Ev. injection Ev as <-; reflexivity. }
      rewrite (Ht _ _ E), (Ht _ _ E'). reflexivity.
    - intros r. destruct (dict_get String.eqb r (vm_variables vm)) as [l|] eqn:El.
      + apply Vv'. apply (determined_perm (with_prefix variables)); auto. now apply Vv.
      + destruct (dict_get String.eqb r (vm_variables vm')) as [l'|] eqn:El'; auto.
        apply Vv' in El'. apply (determined_perm _ (with_prefix variables)) in El'; [|intros; symmetry; apply HIn].
        apply Vv in El'. congruence.
  Qed.
End Pow.

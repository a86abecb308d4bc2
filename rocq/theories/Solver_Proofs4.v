(** Assembled solvers are wired (C40). *)
From Coq Require Import List Bool ZArith Lia.
From Verif Require Import QcTac Base BaseLemmas Num Stream_Model Process_Model Search_Model Solver_Model Solver_Spec Solver_Proofs2 Solver_Proofs3.
Import ListNotations.
Local Open Scope Qc_scope.

Lemma dict_of_list : forall V (l : list (nat * V)) i v, NoDup (map fst l) ->
  (dict_get Nat.eqb i (fold_left (fun d p => dict_set Nat.eqb (fst p) (snd p) d) l []) = Some v <-> In (i, v) l).
Proof.
  intros V l. induction l as [|[j w] l IH] using rev_ind; intros i v N; [split; [discriminate|intros []]|].
  rewrite fold_left_app. cbn [fold_left fst snd]. rewrite dict_get_set by apply Nat.eqb_eq.
  rewrite map_app in N. cbn [map fst] in N. apply NoDup_remove in N. rewrite app_nil_r in N. destruct N as [N NI].
  rewrite in_app_iff. cbn [In]. destruct (Nat.eqb i j) eqn:E.
  - apply Nat.eqb_eq in E. subst j. split.
    + intros X. right. left. congruence.
    + intros [X|[X|[]]]; [|congruence]. exfalso. apply NI. apply (in_map fst) in X. exact X.
  - apply Nat.eqb_neq in E. rewrite IH by assumption. split; [now left|]. intros [X|[X|[]]]; [exact X|congruence].
Qed.

Theorem assemble_wired_proof : forall id units handlers compressors loops shaft charts control choke finder nth_root sec,
  NoDup (map fst handlers) ->
  (exists cs, In (shaft, VariableSpeedShaft cs) handlers) ->
  (forall l, In l loops -> exists m s, In (l, RecirculationLoop m s) handlers) ->
  (forall k, choke = Some k -> exists u, In (k, ChokeHandler u) handlers) ->
  assemble_solver id units handlers compressors loops shaft charts control choke finder nth_root = Return sec ->
  wired sec /\ paired sec /\ (NoDup loops -> apart handlers -> separate sec).
Proof.
  intros id units handlers compressors loops shaft charts control choke finder nth_root sec N (cs & SH) L K H.
  unfold assemble_solver in H.
  destruct (resolve_strategies control loops compressors choke) as [[a p]|e] eqn:R; cbn [obind] in H; [|discriminate].
  destruct (speed_boundary charts) as [b|e]; cbn [obind] in H; [|discriminate].
  assert (sec = mk_section id shaft (new_runner handlers units) a p b finder nth_root) as -> by congruence. clear H.
  assert (G : forall i hd, In (i, hd) handlers -> dict_get Nat.eqb i (r_handlers (new_runner handlers units)) = Some hd).
  { intros i hd I. apply dict_of_list; assumption. }
  assert (LOOP : forall l, In l loops -> is_loop (new_runner handlers units) l).
  { intros l I. destruct (L l I) as (m & s & X). exists m, s. now apply G. }
  assert (CHOKE : forall k, choke = Some k -> is_choke (new_runner handlers units) k).
  { intros k I. destruct (K k I) as (u & X). exists u. now apply G. }
  split; [|split].
  - unfold wired. cbn [sec_shaft sec_runner sec_anti sec_control]. split; [exists cs; now apply G|].
    destruct control; cbn [resolve_strategies] in R.
    1,2,4,5: (destruct (Nat.eqb (length loops) (length compressors)); cbn [obind] in R; [|discriminate];
      try (destruct choke as [k|]; [|discriminate]);
      assert (HA := f_equal (fun o => match o with Return x => fst x | Raise _ => a end) R);
      assert (HP := f_equal (fun o => match o with Return x => snd x | Raise _ => p end) R);
      cbn in HA, HP; subst a p; cbn [anti_surge_handlers control_handlers]; (split; [exact LOOP|]);
      first [exact LOOP|intros i [<-|[]]; now apply CHOKE]).
    destruct compressors as [|c compressors]; [discriminate|]. destruct loops as [|l loops]; [discriminate|].
    assert (HA := f_equal (fun o => match o with Return x => fst x | Raise _ => a end) R).
    assert (HP := f_equal (fun o => match o with Return x => snd x | Raise _ => p end) R).
    cbn in HA, HP. subst a p. cbn [anti_surge_handlers control_handlers].
    split; intros i [<-|[]]; apply LOOP; now left.
  - unfold paired. cbn [sec_anti sec_control].
    destruct control; cbn [resolve_strategies] in R.
    1,2,4,5: (destruct (Nat.eqb (length loops) (length compressors)) eqn:LE; cbn [obind] in R; [|discriminate];
      apply Nat.eqb_eq in LE; try (destruct choke as [k|]; [|discriminate]);
      assert (HA := f_equal (fun o => match o with Return x => fst x | Raise _ => a end) R);
      assert (HP := f_equal (fun o => match o with Return x => snd x | Raise _ => p end) R);
      cbn in HA, HP; subst a p; split; first [exact LE|exact I]).
    destruct compressors as [|c compressors]; [discriminate|]. destruct loops as [|l loops]; [discriminate|].
    assert (HA := f_equal (fun o => match o with Return x => fst x | Raise _ => a end) R).
    assert (HP := f_equal (fun o => match o with Return x => snd x | Raise _ => p end) R).
    cbn in HA, HP. subst a p. split; exact I.
  - intros ND A. unfold separate. cbn [sec_anti sec_control].
    assert (ND2 : NoDup (anti_surge_handlers a) /\ NoDup (control_handlers p)).
    { assert (ONE : forall i : nat, NoDup [i]) by (intros i; constructor; [intros []|constructor]).
      destruct control; cbn [resolve_strategies] in R.
      1,2,4,5: (destruct (Nat.eqb (length loops) (length compressors)); cbn [obind] in R; [|discriminate];
        try (destruct choke as [k|]; [|discriminate]);
        assert (HA := f_equal (fun o => match o with Return x => fst x | Raise _ => a end) R);
        assert (HP := f_equal (fun o => match o with Return x => snd x | Raise _ => p end) R);
        cbn in HA, HP; subst a p; cbn [anti_surge_handlers control_handlers]; split; first [exact ND|apply ONE]).
      destruct compressors as [|c compressors]; [discriminate|]. destruct loops as [|l loops]; [discriminate|].
      assert (HA := f_equal (fun o => match o with Return x => fst x | Raise _ => a end) R).
      assert (HP := f_equal (fun o => match o with Return x => snd x | Raise _ => p end) R).
      cbn in HA, HP. subst a p. split; apply ONE. }
    split; [apply ND2|]. split; [apply ND2|].
    intros i j c _ _ NE (hi & Gi & Ci) (hj & Gj & Cj).
    apply (proj1 (dict_of_list _ handlers i hi N)) in Gi. apply (proj1 (dict_of_list _ handlers j hj N)) in Gj.
    exact (A i hi j hj c Gi Gj NE Ci Cj).
Qed.

From Coq Require Import PeanoNat String Lia.
From Verif Require Import QcTac Base BaseLemmas Num Energy_Model System_Model System_Spec System_Proofs System_Proofs2 System_Proofs3.
Local Open Scope list_scope.

Theorem system_proof : forall consumers fs settings n,
  consumers <> [] -> settings <> [] -> Forall2 pointwise consumers fs -> NoDup (map c_name consumers) ->
  (forall s, In s settings -> complete (length consumers) n s) ->
  (forall s, In s settings -> exists rates, rates_after_cross_over consumers s = Ok rates) ->
  exists r valid energy,
    evaluate_system consumers settings = Ok r /\ system_valid r = Ok valid /\ system_energy r None = Ok energy /\
    length (sr_setting_used r) = n /\ length valid = n /\ length energy = n /\
    map fst (sr_consumers r) = map c_name consumers /\
    forall k, (k < n)%nat -> exists j s rates ps,
      nth_error (sr_setting_used r) k = Some j /\ nth_error settings j = Some s /\
      rates_after_cross_over consumers s = Ok rates /\ points s rates k fs ps /\
      (* the setting is the first that works, the last if none does *)
      (works ps \/ S j = length settings) /\
      (forall i s' rates' ps', (i < j)%nat -> nth_error settings i = Some s' -> rates_after_cross_over consumers s' = Ok rates' ->
         points s' rates' k fs ps' -> ~ works ps') /\
      (* the results are those of that setting *)
      (forall i p name e, nth_error ps i = Some p -> nth_error (sr_consumers r) i = Some (name, e) ->
         nth_error (er_energy e) k = Some (pt_energy p) /\ nth_error (er_valid e) k = Some (pt_valid p) /\
         (forall l, er_power e = Some l -> nth_error l k = Some (pt_power p))) /\
      (nth_error valid k = Some true <-> works ps) /\
      nth_error energy k = Some (nsum (map pt_energy ps)) /\
      (* cross-over is reported where a consumer got more than it asked for *)
      (nth_error (sr_cross_over r) k = Some true <->
         exists i x y, at_ (os_rates s) i k (Some x) /\ at_ rates i k (Some y) /\ (x < y)%Qc).
Proof.
  intros consumers fs settings n Hc Hs Hf Hn Hcomp Hr.
  destruct (system_core consumers fs settings n Hc Hs Hf Hn Hcomp Hr) as (r & E & L1 & L2 & N & Sh & K).
  pose proof (Forall2_len _ _ _ _ _ Hf) as FL. assert (MP : (0 < length consumers)%nat) by (destruct consumers; [contradiction|cbn; lia]).
  assert (ER : sr_energy_results r = map snd (sr_consumers r)).
  { unfold sr_energy_results. rewrite energy_results_eq; auto. cbn. rewrite N. auto. }
  assert (Lc : length (sr_consumers r) = length consumers) by (rewrite <- (map_length fst), N; apply map_length).
  assert (NE : sr_consumers r <> []) by (destruct (sr_consumers r); [cbn in Lc; lia|discriminate]).
  assert (Hin : forall e, In e (map snd (sr_consumers r)) -> length (er_energy e) = n /\ length (er_valid e) = n).
  { intros e He. apply in_map_iff in He. destruct He as (x & <- & Hx). apply In_nth_error in Hx. destruct Hx as [i Hx]. destruct (Sh i x Hx) as (A & B & _). auto. }
  destruct (all_valid_spec n (map er_valid (sr_energy_results r))) as (valid & Ev & Lv & V).
  { rewrite ER. destruct (sr_consumers r); [contradiction|discriminate]. }
  { rewrite ER. intros v Hv. apply in_map_iff in Hv. destruct Hv as (e & <- & He). now apply Hin. }
  destruct (np_sum_spec n (map er_energy (sr_energy_results r))) as (energy & Ee & Le & Sm).
  { rewrite ER. destruct (sr_consumers r); [contradiction|discriminate]. }
  { rewrite ER. intros v Hv. apply in_map_iff in Hv. destruct Hv as (e & <- & He). now apply Hin. }
  exists r, valid, energy. split; auto. split; auto. split. { unfold system_energy. rewrite Ee. reflexivity. }
  split; auto. split; auto. split; auto. split; auto.
  intros k Hk. destruct (K k Hk) as (j & J1 & (s & rates & ps & Es & Er & Ps & W & First) & R).
  destruct (R s rates ps Es Er Ps) as [R1 R2].
  exists j, s, rates, ps. do 6 (split; auto). split; [|split; [|split]]; auto.
  - intros i p name e Hp He. apply (R1 i p (name, e)); auto.
  - rewrite V by auto. rewrite ER. destruct Ps as [Lp _]. split.
    + intros H p Hp. apply In_nth_error in Hp. destruct Hp as [i Hp].
      assert (Hi : (i < length ps)%nat) by (apply nth_error_Some; congruence).
      destruct (nth_error (sr_consumers r) i) as [e|] eqn:Ei; [|apply nth_error_None in Ei; lia].
      destruct (R1 i p e Hp Ei) as (_ & X & _).
      assert (Y : nth_error (er_valid (snd e)) k = Some true). { apply H. apply in_map, in_map. eapply nth_error_In; eauto. } congruence.
    + intros H v Hv. apply in_map_iff in Hv. destruct Hv as (e & <- & He). apply in_map_iff in He. destruct He as (x & <- & Hx).
      apply In_nth_error in Hx. destruct Hx as [i Hx]. assert (Hi : (i < length (sr_consumers r))%nat) by (apply nth_error_Some; congruence).
      destruct (nth_error ps i) as [p|] eqn:Ei; [|apply nth_error_None in Ei; lia].
      destruct (R1 i p x Ei Hx) as (_ & X & _). rewrite X. f_equal. apply H. eapply nth_error_In; eauto.
  - apply Sm. rewrite ER. destruct Ps as [Lp _].
    assert (G : forall (a : list (string * energy_result)) b, length a = length b ->
      (forall i p e, nth_error b i = Some p -> nth_error a i = Some e -> nth_error (er_energy (snd e)) k = Some (pt_energy p)) ->
      Forall2 (fun v y => nth_error v k = Some y) (map er_energy (map snd a)) (map pt_energy b)).
    { induction a as [|x a IH]; intros [|y b] L H; cbn in L; try lia; constructor; [apply (H 0%nat); auto|]. apply IH; [lia|]. intros i. apply (H (S i)). }
    apply G; [lia|]. intros i p e Hp He. now apply (R1 i p e).
Qed.

(** a system with the wrong number of rates is refused *)
Theorem system_validation_proof : forall consumers settings,
  validate_system consumers settings = Ok tt <-> forall s, In s settings -> length (os_rates s) = length consumers.
Proof.
  intros. unfold validate_system. destruct (existsb _ _) eqn:E.
  - split; [discriminate|]. intros H. apply existsb_exists in E. destruct E as (s & Hs & X). rewrite H, Nat.eqb_refl in X by auto. discriminate.
  - split; auto. intros _ s Hs. destruct (Nat.eqb_spec (length (os_rates s)) (length consumers)) as [|N]; auto. exfalso.
    assert (true = false); [|discriminate]. rewrite <- E. symmetry. apply existsb_exists. exists s. split; auto. apply Nat.eqb_neq in N. now rewrite N.
Qed.

(** ** PriorityOptimizer *)
Lemma results_by_id_new : forall R (l : list (@evaluator_result R)) acc, NoDup (map fst acc ++ map (fun e => fst (fst e)) l) ->
  results_by_id l acc = acc ++ map fst l.
Proof.
  intros R. unfold results_by_id. induction l as [|[[i x] b] l IH]; intros acc H; cbn [fold_left fst snd map] in *; [now rewrite app_nil_r|].
  rewrite dict_set_new. 2:{ intros X. apply NoDup_remove_2 in H. apply H, in_or_app. now left. }
  rewrite IH, <- app_assoc; auto. rewrite map_app, <- app_assoc. exact H.
Qed.
Lemma dict_set_same : forall V k (v : V) d, dict_get String.eqb k d = Some v -> dict_set String.eqb k v d = d.
Proof.
  induction d as [|[k' v'] d IH]; cbn; [discriminate|]. destruct (String.eqb_spec k k') as [->|N]; intros H; [congruence|]. now rewrite IH.
Qed.
Lemma results_by_id_same : forall R (l : list (@evaluator_result R)) acc,
  (forall i x b, In (i, x, b) l -> dict_get String.eqb i acc = Some x) -> results_by_id l acc = acc.
Proof.
  intros R. unfold results_by_id. induction l as [|[[i x] b] l IH]; intros acc H; cbn [fold_left fst snd]; auto.
  rewrite dict_set_same by (eapply H; now left). apply IH. intros. eapply H. right. eauto.
Qed.

Theorem optimize_proof : forall (R : Type) (evaluator : string -> list (string * R * bool)) priorities,
  priorities <> [] -> (forall p, In p priorities -> evaluator p <> [] /\ NoDup (map (fun e => fst (fst e)) (evaluator p))) ->
  exists i p, nth_error priorities i = Some p /\
    optimize priorities (fun p => Ok (evaluator p)) = Ok (p, map (fun e => snd (fst e)) (evaluator p)) /\
    ((forall e, In e (evaluator p) -> snd e = true) \/ S i = length priorities) /\
    forall j q, (j < i)%nat -> nth_error priorities j = Some q -> exists e, In e (evaluator q) /\ snd e = false.
Proof.
  intros R evaluator priorities NE H. unfold optimize.
  assert (Hl : exists d, last_opt priorities = Some d /\ nth_error priorities (length priorities - 1) = Some d).
  { destruct priorities as [|a l]; [contradiction|]. exists (last l a). split; auto. cbn [length]. rewrite Nat.sub_succ, Nat.sub_0_r.
    clear. revert a. induction l as [|b l IH]; intros a; auto. cbn [length nth_error]. rewrite IH. f_equal. destruct l; auto.
    clear. cbn [last]. revert s. induction l as [|c l IHl]; intros; auto. cbn [last]. apply IHl. }
  destruct Hl as (d & D1 & D2). rewrite D1. cbn [of_option bind].
  (* invariant: the dictionary holds the results of the priorities tried *)
  set (inv := fun acc : @priority_dict R => forall p, In p priorities -> dict_get String.eqb p acc = None \/ dict_get String.eqb p acc = Some (map fst (evaluator p))).
  assert (G : forall rest done acc, priorities = done ++ rest -> inv acc ->
     (forall p, In p done -> dict_get String.eqb p acc = Some (map fst (evaluator p)) /\ exists e, In e (evaluator p) /\ snd e = false) ->
     exists p acc', optimize_from (fun p => Ok (evaluator p)) rest d acc = Ok (p, acc') /\ dict_get String.eqb p acc' = Some (map fst (evaluator p)) /\
       exists i, nth_error priorities i = Some p /\ ((forall e, In e (evaluator p) -> snd e = true) \/ S i = length priorities) /\
         forall j q, (j < i)%nat -> nth_error priorities j = Some q -> exists e, In e (evaluator q) /\ snd e = false).
  { induction rest as [|p rest IH]; intros done acc E I Dn.
    - rewrite app_nil_r in E. subst done. exists d, acc. cbn. split; auto. split.
      { apply Dn. eapply nth_error_In; eauto. }
      exists (length priorities - 1)%nat. split; auto. split; [right; destruct priorities; [contradiction|cbn; lia]|].
      intros j q _ Hq. apply Dn. eapply nth_error_In; eauto.
    - assert (Hp : In p priorities) by (rewrite E; apply in_or_app; right; now left).
      destruct (H p Hp) as [Hne ND]. cbn [optimize_from bind].
      set (acc' := dict_set String.eqb p (map fst (evaluator p)) acc).
      assert (Hacc : (match evaluator p with [] => acc | _ :: _ => dict_set String.eqb p (results_by_id (evaluator p)
          match dict_get String.eqb p acc with Some d => d | None => [] end) acc end) = acc').
      { destruct (evaluator p) as [|e l] eqn:El; [contradiction|]. rewrite <- El in *. unfold acc'. f_equal.
        destruct (I p Hp) as [Ei|Ei]; rewrite Ei.
        - rewrite results_by_id_new by exact ND. rewrite El. reflexivity.
        - rewrite <- El. apply results_by_id_same. intros i x b Hin. apply dict_get_NoDup; [apply String.eqb_eq| |].
          + rewrite map_map. exact ND.
          + apply (in_map fst) in Hin. exact Hin. }
      cbv zeta. match goal with |- context [optimize_from _ rest d ?X] => replace X with acc' by (symmetry; exact Hacc) end.
      assert (Hg : forall q, dict_get String.eqb q acc' = if String.eqb q p then Some (map fst (evaluator p)) else dict_get String.eqb q acc).
      { intros q. unfold acc'. rewrite dict_get_set by apply String.eqb_eq. reflexivity. }
      destruct (evaluator p) as [|e l] eqn:El; [contradiction|]. rewrite <- El in *. 
      destruct (forallb (fun e0 => snd e0) (evaluator p)) eqn:Ef.
      + rewrite forallb_forall in Ef. exists p, acc'. split; auto. split; [rewrite Hg, String.eqb_refl; auto|].
        exists (length done). split; [rewrite E, nth_error_app2, Nat.sub_diag; auto|]. split; auto.
        intros j q Hj Hq. apply Dn. rewrite E, nth_error_app1 in Hq by auto. eapply nth_error_In; eauto.
      + destruct (IH (done ++ [p]) acc') as (q & acc2 & E2 & D3 & Q); [now rewrite <- app_assoc| | |].
        * intros q Hq. rewrite Hg. destruct (String.eqb_spec q p) as [->|]; auto.
        * intros q Hq. rewrite Hg. apply in_app_or in Hq. destruct (String.eqb_spec q p) as [->|].
          -- split; auto. assert (X : exists e0, In e0 (evaluator p) /\ snd e0 = false).
             { clear - Ef. induction (evaluator p) as [|x m IHm]; cbn in Ef; [discriminate|]. destruct (snd x) eqn:Ex; [|exists x; split; [now left|auto]].
               cbn in Ef. destruct (IHm Ef) as (y & Y1 & Y2). exists y. split; [now right|auto]. }
             exact X.
          -- destruct Hq as [Hq|[->|[]]]; [apply Dn; auto|contradiction].
        * exists q, acc2. auto. }
  destruct (G priorities [] []) as (p & acc & E & Dg & i & I1 & I2 & I3); auto. { intros p _. now left. } { intros p []. }
  exists i, p. split; auto. split; auto. rewrite E. cbn [bind fst snd]. rewrite Dg, map_map. reflexivity.
Qed.

(** ** Refutation: a consumer that receives keeps more than its maximum, although it may send on *)
Definition constant_consumer (name : string) (maximum : Qc) : consumer :=
  mkConsumer name (fun s _ _ => Ok (map (fun _ => Some maximum) s))
    (fun r _ _ _ => Ok (mkER r None (map (fun x => match x with Some v => Qcleb v maximum | None => false end) r))).
Definition chain_setting : operational_setting :=
  mkSetting [[Some (qz 15)]; [Some (qz 12)]; [Some (qz 1)]] [[Some 1%Qc]; [Some 1%Qc]; [Some 1%Qc]] [[Some (qz 2)]; [Some (qz 2)]; [Some (qz 2)]] (Some [2; 3; 0]%Z) None.
Definition chain_consumers := [constant_consumer "a" (qz 10); constant_consumer "b" (qz 10); constant_consumer "c" (qz 10)].
Theorem cross_over_chain_refuted_proof : exists consumers s rates maxima discharge numbers,
  finite_setting 3 1 consumers s numbers rates maxima discharge /\ nth 1 numbers 0%Z = 3%Z /\
  (val maxima 1 0 < val rates 1 0)%Qc /\ (val discharge 1 0 <= val discharge 2 0)%Qc /\
  exists after, rates_after_cross_over consumers s = Ok (map (map Some) after) /\ (val maxima 1 0 < val after 1 0)%Qc /\ (val after 2 0 < val maxima 2 0)%Qc.
Proof.
  exists chain_consumers, chain_setting, [[qz 15]; [qz 12]; [qz 1]], [[qz 10]; [qz 10]; [qz 10]], [[qz 2]; [qz 2]; [qz 2]], [2; 3; 0]%Z.
  assert (F : finite_setting 3 1 chain_consumers chain_setting [2; 3; 0]%Z [[qz 15]; [qz 12]; [qz 1]] [[qz 10]; [qz 10]; [qz 10]] [[qz 2]; [qz 2]; [qz 2]]).
  { split. { repeat split; try reflexivity; try discriminate. intros l Hl. cbn in Hl. repeat (destruct Hl as [<-|Hl]; [reflexivity|]). destruct Hl. }
    do 5 (split; [reflexivity|]). split. { intros z Hz. cbn in Hz. intuition lia. }
    intros i c suction Ec Es. destruct i as [|[|[|i]]]; cbn in Ec, Es; try discriminate; [| | |destruct i; discriminate];
      injection Ec as <-; injection Es as <-; (split; [reflexivity|]); intros d Hd; reflexivity. }
  split; auto. split; [reflexivity|]. split; [reflexivity|]. split; [discriminate|].
  destruct (cross_over_proof 3 1 _ _ _ _ _ _ (Nat.lt_0_succ 2) F) as (after & E & _ & _ & V). exists after. split; auto.
  rewrite !V by lia. split; reflexivity.
Qed.

Lemma constant_consumer_pointwise : forall name maximum,
  pointwise (constant_consumer name maximum) (fun x _ _ _ => mkPoint x None (match x with Some v => Qcleb v maximum | None => false end)).
Proof.
  intros name maximum n rate suction discharge fd L1 L2 L3 L4. eexists. split; [reflexivity|]. cbn. split; auto.
  split; [now rewrite map_length|]. split; [discriminate|]. intros k x s d y H1 H2 H3 H4. split; auto. split; [now rewrite nth_error_map, H1|discriminate].
Qed.

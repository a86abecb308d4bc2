(** Proofs about the consumers of a system. *)
From Coq Require Import PeanoNat String.
From Verif Require Import QcTac Num Base BaseLemmas Interp_Model Interp_Spec Energy_Model Chart_Model Chart_Spec Chart_Proofs Chart_Proofs2 Pump_Model Pump_Spec Pump_Proofs Pump_Proofs3
  Consumer_Model Equipment_Model Equipment_Spec Equipment_Proofs5 System_Model System_Spec Systems_Model Systems_Spec Component_Model Component_Spec.
Local Open Scope list_scope.
Local Open Scope nat_scope.

Lemma operated_is : forall pumps x s d rho pt, operated_at pumps x s d rho pt <-> pt = component_point pumps x s d rho.
Proof.
  intros pumps x s d rho [r s' d' i rho']. unfold operated_at, component_point. cbn [op_rates op_suction op_discharge op_intermediate op_density]. split.
  - intros (-> & -> & -> & -> & ->). reflexivity.
  - intros E. injection E as -> -> -> -> ->. auto.
Qed.
Lemma numbers_some : forall l, numbers (map Some l) = Ok l.
Proof. unfold numbers. induction l as [|a l IH]; [reflexivity|]. cbn [map mapM of_option bind]. rewrite IH. reflexivity. Qed.
Lemma densities_some : forall n fd rhos, densities_are fd rhos -> List.length rhos = n -> component_densities n fd = Ok rhos.
Proof. intros n [|l] rhos H L; cbn [densities_are component_densities] in *; [rewrite <- L, <- H; reflexivity|rewrite H; apply numbers_some]. Qed.
Lemma nth_zip : forall A B (l : list A) (k : list B) i a b, nth_error l i = Some a -> nth_error k i = Some b -> nth_error (zip l k) i = Some (a, b).
Proof. unfold zip. intros A B. induction l as [|x l IH]; intros [|y k] [|i] a b H1 H2; try discriminate; cbn in *; [congruence|]. now apply IH. Qed.
Lemma nth_zip_inv : forall A B (l : list A) (k : list B) i p, nth_error (zip l k) i = Some p -> nth_error l i = Some (fst p) /\ nth_error k i = Some (snd p).
Proof. unfold zip. intros A B. induction l as [|x l IH]; intros [|y k] [|i] p H; try discriminate; cbn in *; [now injection H as <-|]. now apply IH. Qed.
Lemma zip_length : forall A B (l : list A) (k : list B) n, List.length l = n -> List.length k = n -> List.length (zip l k) = n.
Proof. intros. unfold zip. rewrite combine_length. lia. Qed.
Lemma mapM_nth : forall A B (f : A -> result B) l, (forall i a, nth_error l i = Some a -> exists b, f a = Ok b) ->
  exists ys, mapM f l = Ok ys /\ List.length ys = List.length l /\ forall i a, nth_error l i = Some a -> exists b, f a = Ok b /\ nth_error ys i = Some b.
Proof.
  intros A B f l. induction l as [|x l IH]; intros H; cbn [mapM].
  - exists []. split; [reflexivity|]. split; [reflexivity|]. intros [|i] a E; discriminate E.
  - destruct (H 0 x eq_refl) as [b Eb]. destruct IH as (ys & -> & L & K); [intros i a E; apply (H (S i) a E)|]. rewrite Eb. cbn [bind].
    exists (b :: ys). split; [reflexivity|]. split; [cbn; lia|]. intros [|i] a E; cbn in E |- *; [injection E as <-; eauto|]. now apply K.
Qed.

Definition machine_meaning (pumps : bool) (mc : machine) (max : Qc -> Qc -> Qc -> result num) : meaning :=
  mkMeaning (fun x s d rho => exists pt o, operated_at pumps x s d rho pt /\ mc_run mc pt = Ok o)
    (fun x s d rho => match mc_run mc (component_point pumps x s d rho) with Ok o => System_Spec.mkPoint (mo_energy o) (mo_power o) (mo_valid o) | Err _ => System_Spec.mkPoint None None false end)
    (fun s d rho => exists m, max s d rho = Ok (Some m))
    (fun s d rho => match max s d rho with Ok (Some m) => m | _ => 0%Qc end) (mc_has_power mc).

Lemma machine_component_proof : forall name pumps mc max, exists me, meaning_of_machine pumps mc max me /\ means (machine_component name pumps mc max) me.
Proof.
  intros name pumps mc max. exists (machine_meaning pumps mc max). split.
  - unfold meaning_of_machine, machine_meaning. cbn [me_power me_takes me_point me_max_known me_max]. split; [reflexivity|]. split; [reflexivity|]. split; [|split; [reflexivity|]].
    + intros x s d rho pt o H E. apply operated_is in H. subst pt. rewrite E. auto.
    + intros s d rho m E. now rewrite E.
  - unfold means, machine_component. cbn [c_evaluate c_max_rate]. split.
    + intros n rate suction discharge rhos fd L1 L2 L3 L4 Hd T. unfold component_evaluate. rewrite !numbers_some. cbn [bind]. rewrite (densities_some _ fd rhos Hd) by congruence. cbn [bind].
      destruct (mapM_nth _ _ (fun x => mc_run mc (component_point pumps (fst (fst (fst x))) (snd (fst (fst x))) (snd (fst x)) (snd x))) (zip (zip (zip rate suction) discharge) rhos)) as (os & -> & Lo & Ko).
      { intros i [[[x s] d] rho] E. apply nth_zip_inv in E as [E E4]. apply nth_zip_inv in E as [E E3]. apply nth_zip_inv in E as [E1 E2]. cbn [fst snd] in *.
        destruct (T i x s d rho E1 E2 E3 E4) as (pt & o & Hp & Er). apply operated_is in Hp. subst pt. eauto. }
      assert (List.length os = n) as Lon by (rewrite Lo; repeat apply zip_length; assumption).
      cbn [bind]. eexists. split; [reflexivity|]. cbn [er_energy er_valid er_power]. rewrite !map_length. split; [exact Lon|]. split; [exact Lon|]. cbn [machine_meaning me_power]. split; [|split].
      * destruct (mc_has_power mc); split; intros E; [discriminate E|discriminate E|reflexivity|reflexivity].
      * intros p E. destruct (mc_has_power mc); [|discriminate E]. injection E as <-. now rewrite map_length.
      * intros k x s d rho E1 E2 E3 E4. destruct (Ko k (x, s, d, rho)) as (o & Er & En); [repeat apply nth_zip; assumption|]. cbn [fst snd] in Er. cbn [machine_meaning me_point]. rewrite Er. cbn [pt_energy pt_valid pt_power].
        split; [now apply map_nth_error|]. split; [now apply map_nth_error|]. intros p E. destruct (mc_has_power mc); [|discriminate E]. injection E as <-. now apply map_nth_error.
    + intros n suction discharge rhos fd L2 L3 L4 Hd T. unfold component_max_rate. rewrite !numbers_some. cbn [bind]. rewrite (densities_some _ fd rhos Hd) by congruence. cbn [bind].
      destruct (mapM_nth _ _ (fun x => max (fst (fst x)) (snd (fst x)) (snd x)) (zip (zip suction discharge) rhos)) as (os & -> & Lo & Ko).
      { intros i [[s d] rho] E. apply nth_zip_inv in E as [E E4]. apply nth_zip_inv in E as [E2 E3]. cbn [fst snd] in *. destruct (T i s d rho E2 E3 E4) as (m & E). eauto. }
      assert (List.length os = n) as Lon by (rewrite Lo; repeat apply zip_length; assumption).
      exists (map (fun o => match o with Some m => m | None => 0%Qc end) os). split; [|split; [now rewrite map_length|]].
      * f_equal. rewrite map_map. rewrite <- (map_id os) at 1. apply map_ext_in. intros o I. apply In_nth_error in I as [i I].
        assert (i < n) as Li by (rewrite <- Lon; apply nth_error_Some; congruence).
        destruct (nth_error (zip (zip suction discharge) rhos) i) as [[[s d] rho]|] eqn:E; [|apply nth_error_None in E; rewrite (zip_length _ _ _ _ n) in E; [lia|now apply zip_length|assumption]].
        destruct (Ko i _ E) as (b & Eb & Nb). apply nth_zip_inv in E as [E E4]. apply nth_zip_inv in E as [E2 E3]. cbn [fst snd] in *. destruct (T i s d rho E2 E3 E4) as (m & Em). rewrite I in Nb. injection Nb as <-. rewrite Em in Eb. injection Eb as <-. reflexivity.
      * intros k s d rho E2 E3 E4. destruct (Ko k (s, d, rho)) as (o & Er & En); [repeat apply nth_zip; assumption|]. cbn [fst snd] in Er. cbn [machine_meaning me_max]. rewrite Er. exact (map_nth_error _ _ _ En).
Qed.

(** ** Pumps *)
Lemma bounded_list : forall l : list Qc, exists lo hi, forall y, In y l -> (lo <= y /\ y <= hi)%Qc.
Proof.
  induction l as [|a l (lo & hi & H)]; [exists 0%Qc, 0%Qc; intros y []|]. exists (Qcmin a lo), (Qcmax a hi). intros y [<-|I].
  - split; qc_cases; qc_lra.
  - destruct (H y I). split; qc_cases; qc_lra.
Qed.
Lemma pump_largest : forall cs s d rho, usable_chart cs -> falling_chart cs -> (0 < rho)%Qc ->
  exists m, model_max_rate cs s d rho = Ok m /\ largest_pumped cs s d rho m.
Proof.
  intros cs s d rho (Ne & Pc & He & Hf) Fall Hrho. unfold model_max_rate. rewrite head_of_ok by exact Hrho. cbn [bind]. unfold maximum_rate_at, fast_curve.
  destruct (last_opt cs) as [fast|] eqn:El; [|destruct cs as [|a cs']; [now elim Ne|exfalso; clear -El; revert a El; induction cs'; intros a0 E; [discriminate E|now apply (IHcs' a)]]].
  cbn [of_option bind]. assert (proper_curve fast) as PF by (rewrite Forall_forall in Pc; apply Pc; now apply last_opt_in).
  destruct (bounded_list (map snd (by_head fast))) as (lo & hi & B).
  destruct (interp1d_ends_bounds (map fst (by_head fast)) (map snd (by_head fast)) (head_between s d rho) lo hi) as (m & Em & _); [now rewrite !map_length| |exact B|].
  { intros E. apply map_eq_nil in E. unfold by_head in E. destruct PF as (P2 & _). destruct (cv_lengths fast) as (A1 & A2 & _).
    assert (List.length (cv_rate fast) = 0) as Z; [|lia]. pose proof (Permutation.Permutation_length (sort_perm _ (fun p q => Qcleb (fst p) (fst q)) (combine (cv_head fast) (cv_rate fast)))) as Q. rewrite E in Q. rewrite combine_length in Q. cbn in Q. lia. }
  rewrite Em. cbn [bind]. eexists. split; [reflexivity|]. exists fast, m. split; [exact El|]. split; [reflexivity|]. exact (by_head_facts fast (head_between s d rho) m PF (Hf fast eq_refl) (Fall fast El) Em).
Qed.
Lemma pump_component_proof : forall closest np_std bump, (forall pts x y, (0 <= fst (closest pts x y))%Qc) -> (forall x, (x <= bump x)%Qc) ->
  forall name cs margin, usable_chart cs -> falling_chart cs ->
  exists me, means (pump_component closest np_std bump name cs margin) me /\ pump_means cs margin me.
Proof.
  intros closest np_std bump Hc Hb name cs margin Hch Hfall. unfold pump_component.
  destruct (machine_component_proof name true (pump_machine closest np_std bump cs margin) (fun s d rho => do r <- model_max_rate cs s d rho; Ok (Some r))) as (me & (M1 & M2 & M3 & M4 & M5) & Hm).
  exists me. split; [exact Hm|]. split; [exact M1|]. split.
  - intros x s d rho Hx. destruct (model_output closest np_std bump Hc Hb cs margin x s d rho Hch Hx) as (power & head & status & Es & Hp).
    assert (mc_run (pump_machine closest np_std bump cs margin) (component_point true x s d rho) = Ok (mkOutput (Some power) (Some power) (match status with NO_FAILURE => true | _ => false end))) as Er.
    { unfold pump_machine, component_point. cbn [mc_run op_rates op_suction op_discharge op_density]. rewrite Es. reflexivity. }
    pose proof (proj2 (operated_is true x s d rho _) eq_refl) as Ho. split; [apply M2; eauto|]. destruct (M3 x s d rho _ _ Ho Er) as (A & B & D). exists power. rewrite A, B, D. auto.
  - intros s d rho Hrho. destruct (pump_largest cs s d rho Hch Hfall Hrho) as (m & Em & Hl).
    assert ((do r <- model_max_rate cs s d rho; Ok (Some r)) = Ok (Some m)) as E by (rewrite Em; reflexivity). split; [apply M4; eauto|]. now rewrite (M5 s d rho m E).
Qed.

(** ** Compressors with a turbine *)
Lemma turbine_rate_proof : forall root t c own s d top m, stays root -> own s d = Ok (Some top) -> (0 <= top)%Qc ->
  turbine_max_rate root t false c own s d = Ok (Some m) ->
  (0 <= m /\ m <= top)%Qc /\
  (co_has_power c = false -> m = top) /\
  (forall w, co_has_power c = true -> needs c top s d w -> w = None \/ (exists p, w = Some p /\ p <= turbine_capacity t)%Qc -> m = top) /\
  (forall p, co_has_power c = true -> finds (qc 1 1000) root -> needs c m s d (Some p) -> (p <= turbine_capacity t)%Qc).
Proof.
  intros root t c own s d top m Hst Eo Ht E. unfold turbine_max_rate in E. rewrite Eo in E. cbn [bind] in E.
  destruct (co_run c (component_point false top s d 1)) as [o|e] eqn:Er; [|discriminate E]. cbn [bind] in E.
  assert (forall x w, needs c x s d w <-> exists o, co_run c (component_point false x s d 1) = Ok o /\ co_power o = w) as Hn.
  { intros x w. split; [intros (pt & o' & Hp & A & B); apply operated_is in Hp; subst pt; eauto|intros (o' & A & B); exists (component_point false x s d 1), o'; split; [now apply operated_is|auto]]. }
  change (turbine_max_power t) with (turbine_capacity t) in E.
  assert (forall p, m = top -> (if co_has_power c then co_power o else None) = None \/ (exists q, (if co_has_power c then co_power o else None) = Some q /\ (q <= turbine_capacity t)%Qc) ->
    co_has_power c = true -> needs c m s d (Some p) -> (p <= turbine_capacity t)%Qc) as Same.
  { intros p -> Hq Hp N. apply Hn in N as (o' & A & B). rewrite Er in A. injection A as <-. rewrite Hp, B in Hq. destruct Hq as [Q|(q & Q & L)]; [discriminate Q|]. injection Q as <-. exact L. }
  destruct (if co_has_power c then co_power o else None) as [power|] eqn:Ep.
  - destruct (Qcltb (turbine_capacity t) power) eqn:Eq.
    + apply Qcltb_lt in Eq. destruct (root 0%Qc top (remaining_capacity t c s d)) as [r|] eqn:Ero; [|discriminate E]. cbn [bind] in E. injection E as ->.
      destruct (co_has_power c) eqn:Hp; [|discriminate Ep]. split; [exact (Hst _ _ _ _ Ht Ero)|]. split; [intros H; discriminate H|]. split.
      * intros w _ N [->|(p & -> & L)]; apply Hn in N as (o' & A & B); rewrite Er in A; injection A as <-; [congruence|]. exfalso. assert (p = power) as -> by congruence. qc_lra.
      * intros p _ Hf N. destruct (Hf _ _ _ _ Ero) as (y & Ey & L1 & L2). apply Hn in N as (o' & A & B). unfold remaining_capacity in Ey. rewrite A in Ey. cbn [bind] in Ey. rewrite Hp, B in Ey. cbn [nsub num_lift2] in Ey. injection Ey as <-.
        unfold power_tolerance in L2. change (turbine_max_power t) with (turbine_capacity t) in L2. clear - L2. generalize dependent (turbine_capacity t). intros K L2. qc_lra.
    + apply Qcltb_ge in Eq. injection E as ->. split; [split; [exact Ht|apply Qcle_refl]|]. split; [reflexivity|]. split; [reflexivity|]. intros p Hp _ N. apply (Same p eq_refl); eauto.
  - injection E as ->. split; [split; [exact Ht|apply Qcle_refl]|]. split; [reflexivity|]. split; [reflexivity|]. intros p Hp _ N. apply (Same p eq_refl); auto.
Qed.

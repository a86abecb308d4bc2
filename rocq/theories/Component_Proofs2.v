(** Proofs about the consumers of a system: systems of pumps; turbines. *)
From Coq Require Import PeanoNat String.
From Verif Require Import QcTac Num Base BaseLemmas Interp_Model Interp_Spec Expr_Model Expr_Spec Energy_Model Chart_Model Chart_Spec Pump_Model Pump_Spec
  Consumer_Model Equipment_Model Equipment_Spec System_Model System_Spec Systems_Model Systems_Spec Component_Model Component_Spec Component_Proofs.
Local Open Scope list_scope.
Local Open Scope nat_scope.

Lemma pump_system_proof : forall closest np_std bump, (forall pts x y, (0 <= fst (closest pts x y))%Qc) -> (forall x, (x <= bump x)%Qc) ->
  forall pumps : list (string * list curve * Qc), (forall name cs margin, In (name, cs, margin) pumps -> usable_chart cs /\ falling_chart cs) ->
  exists mes, Forall2 means (map (fun p => pump_component closest np_std bump (fst (fst p)) (snd (fst p)) (snd p)) pumps) mes /\
    Forall2 (fun p me => pump_means (snd (fst p)) (snd p) me) pumps mes /\
    forall pow vars n g m k,
      (forall s xs ss ds rhos rho, In s (sy_settings m) -> setting_at pow vars n g m s k xs ss ds rhos -> In rho rhos -> (0 < rho)%Qc) ->
      system_works pow vars n g m mes k.
Proof.
  intros closest np_std bump Hc Hb pumps. induction pumps as [|[[name cs] margin] pumps IH]; intros H.
  - exists []. split; [constructor|]. split; [constructor|]. intros pow vars n g m k _ s ys ss ds rhos [|i] me y p d rho _ _ E; discriminate E.
  - destruct IH as (mes & F1 & F2 & W); [intros; eapply H; right; eassumption|].
    destruct (H name cs margin (or_introl eq_refl)) as [U Fa]. destruct (pump_component_proof closest np_std bump Hc Hb name cs margin U Fa) as (me & Hm & Hp).
    exists (me :: mes). split; [constructor; assumption|]. split; [constructor; assumption|]. clear W.
    assert (forall me', In me' (me :: mes) -> exists cs margin, pump_means cs margin me') as All.
    { assert (Forall2 (fun p me => pump_means (snd (fst p)) (snd p) me) ((name, cs, margin) :: pumps) (me :: mes)) as F by (constructor; assumption). clear -F.
      induction F as [|x y l l' Hx F IH]; intros me' I; [destruct I|]. destruct I as [<-|I]; [eauto|now apply IH]. }
    intros pow vars n g m k Hrho s ys ss ds rhos i me' y p d rho Is (xs & maxima & Hs & _) E1 E2 E3 E4 E5.
    assert (0 < rho)%Qc as R by (eapply Hrho; [exact Is|exact Hs|now apply nth_error_In in E5]).
    destruct (All me') as (cs' & margin' & _ & T & Mx); [now apply nth_error_In in E1|]. destruct (T y p d rho (fun _ => R)) as [T1 _]. destruct (Mx p d rho R) as [M1 _]. split; [exact T1|]. intros _ _ _. exact M1.
Qed.

(** a sampled compressor with a turbine has no largest rate *)
Lemma sampled_turbine_proof : forall root t c own s d top, own s d = Ok top -> turbine_max_rate root t true c own s d = Err OtherError.
Proof. intros root t c own s d top E. unfold turbine_max_rate. rewrite E. reflexivity. Qed.

(** without adjustments the turbine is not overloaded at the largest rate *)
Lemma turbine_load_proof : forall root t c own s d top m out, stays root -> finds (qc 1 1000) root -> own s d = Ok (Some top) -> (0 <= top)%Qc ->
  co_has_power c = true -> tu_factor t = 1%Qc -> tu_constant t = 0%Qc -> (0 <= tu_maximum_load t)%Qc ->
  turbine_max_rate root t false c own s d = Ok (Some m) ->
  forall pt o, operated_at false m s d 1 pt -> co_run c pt = Ok o -> mc_run (turbine_machine t 1 0 c) pt = Ok out ->
  mo_valid out = compressor_valid (mo_energy out) true o.
Proof.
  intros root t c own s d top m out Hst Hf Eo Ht Hp F C0 M0 E pt o Hpt Er Em.
  destruct (turbine_rate_proof root t c own s d top m Hst Eo Ht E) as (_ & _ & _ & K).
  unfold turbine_machine in Em. cbn [mc_run] in Em. rewrite Er in Em. cbn [bind] in Em. rewrite Hp in Em. cbv zeta in Em.
  remember (turbine_evaluate t 0 (adjusted_load 1 0 (co_power o))) as tr eqn:Etr. injection Em as <-. cbn [mo_valid mo_energy].
  assert (tr_exceeds tr = false) as ->; [|reflexivity]. rewrite Etr. clear Etr tr.
  unfold turbine_evaluate. cbn [tr_exceeds]. unfold adjusted_load. destruct (co_power o) as [p|] eqn:Ep; [|reflexivity].
  assert (p <= tu_maximum_load t)%Qc as L.
  { assert (p <= turbine_capacity t)%Qc as L by (apply (K p Hp Hf); exists pt, o; auto). unfold turbine_capacity in L. rewrite F, C0 in L. replace (tu_maximum_load t * 1 - 0)%Qc with (tu_maximum_load t) in L by ring. exact L. }
  destruct (Qcltb 0 p); apply Qcltb_ge; [replace (p * 1 + 0)%Qc with p by ring; exact L|exact L].
Qed.

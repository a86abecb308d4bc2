(** Proofs about pump and compressor systems: the power of a system, and cross-over on a part of the run. *)
From Coq Require Import PeanoNat String.
From Verif Require Import Attributes_Proofs Attributes_Proofs2 QcTac Num Time_Model Time_Spec Time_Proofs Time_Proofs2 Units_Model Rates_Model Rates_Spec Rates_Proofs Rates_Proofs3 Rates_Proofs4
  Base BaseLemmas Expr_Model Expr_Spec Expr_Proofs Vars_Model Vars_Proofs Input_Model Interp_Model Energy_Model Energy_Proofs Energy_Proofs2 Energy_Proofs3 Export_Proofs2 Emitters_Proofs5 Emitters_Spec
  Consumer_Model Consumer_Spec Consumer_Proofs Consumer_Proofs2 Consumer_Proofs3 Consumer_Proofs4 Consumer_Proofs5 Consumer_Proofs6 Consumer_Proofs7 Consumer_Proofs8 Consumer_Proofs9
  Equipment_Model Equipment_Spec Equipment_Proofs Equipment_Proofs2 Equipment_Proofs3 System_Model System_Spec System_Proofs System_Proofs2 System_Proofs3 System_Proofs4 Systems_Model Systems_Spec Systems_Proofs Systems_Proofs2 Systems_Proofs3 Systems_Proofs4.
Local Open Scope list_scope.
Local Open Scope nat_scope.

(** ** The power of a system *)
Definition powered (c : consumer) (b : bool) : Prop := forall rate suction discharge fd r, c_evaluate c rate suction discharge fd = Ok r -> (er_power r = None <-> b = false).
Lemma system_evaluated : forall consumers settings r, evaluate_system consumers settings = Ok r -> consumers <> [] ->
  map fst (sr_consumers r) = map c_name consumers ->
  forall i c e, nth_error consumers i = Some c -> nth_error (sr_consumers r) i = Some e -> exists rate suction discharge fd, c_evaluate c rate suction discharge fd = Ok (snd e).
Proof.
  intros consumers settings r E Nc Nm i c e Kc Ke. unfold evaluate_system in E. apply bind_ok in E as (rates & _ & E). apply bind_ok in E as (results & _ & E). apply bind_ok in E as (numbers & _ & E).
  apply bind_ok in E as (used & Eu & E). apply bind_ok in E as (final & Ef & E). injection E as <-. cbn [sr_consumers] in *. apply mapM_Ok in Ef.
  destruct (nth_error (zip consumers used) i) as [[c' u]|] eqn:Ez.
  - assert (c' = c) as ->. { unfold zip in Ez. clear -Ez Kc. revert i used Ez Kc. induction consumers as [|a l IH]; intros i [|b used] Ez Kc; destruct i; try discriminate; cbn [combine nth_error] in *; [congruence|now apply (IH i used)]. }
    pose proof (Forall2_nth2 _ _ _ _ _ _ _ _ Ef Ez Ke) as H. cbn [fst snd] in H. apply bind_ok in H as (r & Er & E). injection E as <-. cbn [snd]. eauto.
  - exfalso. apply nth_error_None in Ez. assert (i < List.length final) by (apply nth_error_Some; congruence). pose proof (Forall2_len _ _ _ _ _ Ef). lia.
Qed.
Lemma system_with_power : forall consumers fs bs settings n,
  consumers <> [] -> settings <> [] -> Forall2 pointwise consumers fs -> Forall2 powered consumers bs -> NoDup (map c_name consumers) ->
  (forall s, In s settings -> complete (length consumers) n s) ->
  (forall s, In s settings -> exists rates, rates_after_cross_over consumers s = Ok rates) ->
  exists r valid energy power,
    evaluate_system consumers settings = Ok r /\ system_valid r = Ok valid /\ system_energy r None = Ok energy /\ system_power r None = Ok power /\
    length valid = n /\ length energy = n /\ length power = n /\
    forall k, k < n -> exists j s rates ps, nth_error settings j = Some s /\ rates_after_cross_over consumers s = Ok rates /\ points s rates k fs ps /\
      (works ps \/ S j = length settings) /\
      (forall i s' rates' ps', i < j -> nth_error settings i = Some s' -> rates_after_cross_over consumers s' = Ok rates' -> points s' rates' k fs ps' -> ~ works ps') /\
      (nth_error valid k = Some true <-> works ps) /\
      nth_error energy k = Some (nsum (map pt_energy ps)) /\
      nth_error power k = Some (nsum (map (fun x : bool * System_Spec.point => if fst x then pt_power (snd x) else Some 0%Qc) (combine bs ps))).
Proof.
  intros consumers fs bs settings n Hc Hs Hf Hb Hn Hcomp Hr.
  destruct (system_core consumers fs settings n Hc Hs Hf Hn Hcomp Hr) as (r0 & E0 & _ & _ & N0 & Sh0 & _).
  destruct (system_proof consumers fs settings n Hc Hs Hf Hn Hcomp Hr) as (r & valid & energy & E & Ev & Ee & _ & Lv & Le & N & K).
  assert (r0 = r) as -> by congruence. clear E0 N0.
  pose proof (system_evaluated consumers settings r E Hc N) as Ev'.
  pose proof (Forall2_len _ _ _ _ _ Hf) as FL. pose proof (Forall2_len _ _ _ _ _ Hb) as BL. assert (0 < length consumers) as MP by (destruct consumers; [contradiction|cbn; lia]).
  assert (sr_energy_results r = map snd (sr_consumers r)) as ER. { unfold sr_energy_results. rewrite energy_results_eq; auto. cbn. rewrite N. auto. }
  assert (length (sr_consumers r) = length consumers) as Lc by (rewrite <- (map_length fst), N; apply map_length).
  set (pw := fun e : energy_result => match er_power e with Some p => p | None => repeat (Some 0%Qc) (length (er_energy e)) end).
  destruct (np_sum_spec n (map pw (sr_energy_results r))) as (power & Ep & Lp & Sm).
  { rewrite ER. destruct (sr_consumers r); [cbn in Lc; lia|discriminate]. }
  { rewrite ER. intros v Hv. apply in_map_iff in Hv as (e & <- & He). apply in_map_iff in He as (x & <- & Hx). apply In_nth_error in Hx as (i & Hx). destruct (Sh0 i x Hx) as (A & _ & B). unfold pw. destruct (er_power (snd x)) as [p|]; [now apply B|rewrite repeat_length; exact A]. }
  exists r, valid, energy, power. split; [exact E|]. split; [exact Ev|]. split; [exact Ee|]. split. { unfold system_power. fold pw. rewrite Ep. reflexivity. } split; [exact Lv|]. split; [exact Le|]. split; [exact Lp|].
  intros k Hk. destruct (K k Hk) as (j & s & rates & ps & _ & Es & Er & Ps & W & First & R1 & V & En & _). exists j, s, rates, ps. do 7 (split; [assumption|]).
  apply Sm. rewrite ER. destruct Ps as [Lps _].
  assert (forall i c b p e, nth_error consumers i = Some c -> nth_error bs i = Some b -> nth_error ps i = Some p -> nth_error (sr_consumers r) i = Some e -> nth_error (pw (snd e)) k = Some (if b then pt_power p else Some 0%Qc)) as X.
  { intros i c b p e Kc Kb Kp Ke. destruct (Ev' i c e Kc Ke) as (ra & su & di & fd & Ec). pose proof (Forall2_nth2 _ _ _ _ _ _ _ _ Hb Kc Kb ra su di fd (snd e) Ec) as B.
    destruct e as [nm e]. cbn [snd] in *. destruct (R1 i p nm e Kp Ke) as (_ & _ & Rp). unfold pw. destruct (er_power e) as [q|].
    - destruct b; [now apply Rp|]. destruct B as [_ B]. specialize (B eq_refl). discriminate.
    - destruct b; [destruct B as [B _]; specialize (B eq_refl); discriminate|]. apply nth_error_repeat. destruct (Sh0 i (nm, e) Ke) as (A & _). cbn [snd] in A. lia. }
  assert (length consumers = length bs) as L1 by exact BL. assert (length ps = length bs) as L2 by congruence. assert (length (sr_consumers r) = length bs) as L3 by congruence.
  clear -X L1 L2 L3. revert X L1 L2 L3. generalize (sr_consumers r) as es. intros es. revert consumers ps es. induction bs as [|b bs IH]; intros [|c consumers] [|p ps] [|e es] X L1 L2 L3; try discriminate; [constructor|].
  cbn [map combine]. constructor; [exact (X 0 c b p e eq_refl eq_refl eq_refl eq_refl)|]. apply (IH consumers); try (cbn in *; lia). intros i. apply (X (S i)).
Qed.

(** Proofs about the pump process simulations of a model file: the results, and models without a start. *)
From Coq Require Import PeanoNat String.
From Verif Require Import QcTac Base BaseLemmas Num Time_Model Time_Spec Time_Proofs Time_Proofs2 Units_Model Expr_Model Expr_Spec
  Vars_Model Vars_Proofs Vars_Proofs2 Input_Model Input_Spec Input_Proofs Input_Proofs2 Energy_Model Chart_Model Chart_Spec Pump_Model Pump_Spec Pump_Proofs Pump_Proofs2
  Consumer_Model Consumer_Spec Equipment_Model Duty_Model Duty_Spec Duty_Proofs Duty_Proofs2.
Local Open Scope list_scope.
Local Open Scope Qc_scope.

Lemma model_whole : forall tv stop start extra a ps, model_start start tv a -> (a < stop)%Z -> get_model_periods tv stop start extra = Ok ps ->
  exists first rest, ps = first :: rest /\ contiguous ps /\ p_start first = a /\ p_end (last rest first) = stop.
Proof.
  intros tv stop start extra a ps Ms L E. destruct (model_periods_proof tv stop start extra a Ms L) as (ps' & E' & C & S & _). assert (ps' = ps) as -> by congruence.
  destruct S as (first & q & rest & -> & <- & A & B). exists first, rest. split; [reflexivity|]. split; [exact C|]. split; [exact A|]. now rewrite last_shift in B.
Qed.

Theorem simulations_proof : forall pow tv start stop extra ps vars vm duties,
  (start < stop)%Z -> (stop <= DT_MAX)%Z -> get_model_periods tv stop (Some start) extra = Ok ps -> make_variables_map ps vars = Ok vm ->
  (forall r l, dict_get String.eqb r vars = Some l -> List.length l = List.length ps) ->
  Forall (fun d => Forall proper_curve (du_curves d) /\ duty_evaluable pow vars (List.length ps) d) duties ->
  (forall sims, pump_process_simulations pow vm (Some start) stop duties = Ok sims ->
     Forall2 (fun d s => let '(p, inputs, periods) := s in
       make_pump (du_curves d) (du_minimum_flow d) = Ok p /\ periods = ps /\ List.length inputs = List.length ps /\
       forall k, (k < List.length ps)%nat -> exists i, nth_error inputs k = Some i /\ duty_input pow vars (List.length ps) d k i) duties sims) /\
  ((exists sims, pump_process_simulations pow vm (Some start) stop duties = Ok sims) <->
     forall d, In d duties -> duty_pump_ok d /\ duty_values_ok pow vars (List.length ps) d).
Proof.
  intros pow tv start stop extra ps vars vm duties L Mx Ep Evm Un F. destruct (model_whole tv stop (Some start) extra start ps eq_refl L Ep) as (first & rest & -> & C & <- & <-).
  now apply duties_proof.
Qed.

(** a physical liquid whose volume is not positive has none *)
Lemma requested_nn : forall s, physical s -> 0 <= requested s.
Proof. intros s (A & B & _). now apply div_nn. Qed.
Lemma day_rate : forall x r : Qc, x * qz 24 = r -> (0 < x <-> 0 < r) /\ (x <= 0 <-> r <= 0).
Proof. intros x r <-. change (qz 24) with (Q2Qc 24). split; split; intros H; qc_lra. Qed.

Lemma results_of : forall closest np_std, (forall pts x y, 0 <= fst (closest pts x y)) ->
  forall pow vars n d p inputs, Forall proper_curve (du_curves d) -> make_pump (du_curves d) (du_minimum_flow d) = Ok p ->
  List.length inputs = n -> (forall k, (k < n)%nat -> exists i, nth_error inputs k = Some i /\ duty_input pow vars n d k i) ->
  (forall k, (k < n)%nat -> exists r s rho t, duty_at pow vars n d k r s rho t) -> duty_values_ok pow vars n d ->
  exists results, simulate closest np_std p inputs = Ok results /\ List.length results = n /\
    forall k rate suction density discharge, (k < n)%nat -> duty_at pow vars n d k rate suction density discharge ->
      exists res s0 s1 s2 s3 s4, nth_error results k = Some (res, [s0; s1; s2; s3; s4]) /\
        requested s0 * qz 24 = rate /\ l_pressure s0 = suction /\ requested s4 * qz 24 = rate /\
        (forall s, In s [s0; s1; s2; s3; s4] -> l_density s = density) /\
        (0 < rate -> l_pressure s4 = discharge /\ pr_required_head res = head_between suction discharge density /\ discharge <= pr_discharge res /\
           rate <= pr_rate res * qz 24) /\
        (rate <= 0 -> pr_power res = 0 /\ pr_valid res = true /\ pr_rate res = 0 /\ l_pressure s3 = suction).
Proof.
  intros closest np_std Hc pow vars n d p inputs Pc Ep Li Hi Tot Vok.
  assert (Forall (fun i => physical (fst i) /\ 0 < snd i) inputs) as Ph.
  { apply Forall_forall. intros i I. apply In_nth_error in I as [k K]. assert (k < n)%nat as L by (rewrite <- Li; apply nth_error_Some; congruence).
    destruct (Hi k L) as (i' & K' & D). assert (i' = i) as -> by congruence. destruct (Tot k L) as (r & s & rho & t & A). destruct (D _ _ _ _ A) as (P & _ & _ & _ & S & _). auto. }
  destruct (series_proof closest np_std Hc _ _ p inputs Pc Ep Ph) as (results & Es & F2). exists results. split; [exact Es|].
  split. { rewrite <- Li. clear - F2. induction F2; cbn; congruence. }
  intros k r s rho t L A. destruct (Hi k L) as ([i pd] & K & D). destruct (D _ _ _ _ A) as (P & R & Sp & Sd & Pos & Dp & Dz). cbn [fst snd] in *.
  destruct (streams_proof closest np_std Hc _ _ p i pd Pc Ep P Pos) as (res & s1 & s2 & s3 & s4 & Ee & E1 & _ & M1 & M2 & M3 & M4 & P1 & P2 & P3 & Prun & Pstop & All).
  assert (nth_error results k = Some (res, [i; s1; s2; s3; s4])) as Kr.
  { clear - F2 K E1. revert k K. induction F2 as [|x y xs ys H F2 IH]; intros [|k] K; try discriminate; cbn [nth_error] in *; [|now apply IH]. injection K as ->. congruence. }
  exists res, i, s1, s2, s3, s4. split; [exact Kr|]. split; [exact R|]. split; [exact Sp|].
  destruct (day_rate _ _ R) as [Q1 Q2].
  split. { destruct (All s4 ltac:(cbn; tauto)) as [De _]. unfold requested. rewrite M4, De. exact R. }
  split. { intros x I. destruct (All x I) as [De _]. congruence. }
  split.
  - intros Hr. apply Q1 in Hr as Hq. destruct (Prun Hq) as [Pr _]. 
    destruct (running_proof closest np_std Hc _ _ p i pd Pc Ep P Pos Hq) as (res' & e & speed & Ee' & Rr & _ & _ & _ & Rh & _ & _ & Rd & _).
    assert (res' = res) as -> by congruence.
    assert (pd = t) as ->. { apply Dp. now apply (Vok k r s rho t L A). }
    split; [exact Pr|]. split; [congruence|]. split; [exact Rd|]. rewrite <- R. change (qz 24) with (Q2Qc 24). clear - Rr. qc_lra.
  - intros Hr. apply Q2 in Hr. rewrite (stopped_proof closest np_std _ _ p i pd Pc Ep P Pos Hr) in Ee. injection Ee as <-. cbn [pr_power pr_valid pr_failure pr_rate]. repeat split; auto.
    destruct (Pstop Hr) as [-> _]. exact Sp.
Qed.
Lemma total_at : forall pow first rest vars vm d, make_variables_map (first :: rest) vars = Ok vm -> contiguous (first :: rest) ->
  (forall r l, dict_get String.eqb r vars = Some l -> List.length l = List.length (first :: rest)) -> duty_evaluable pow vars (List.length (first :: rest)) d ->
  forall k, (k < List.length (first :: rest))%nat -> exists r s rho t, duty_at pow vars (List.length (first :: rest)) d k r s rho t.
Proof.
  intros pow first rest vars vm d Evm C Un (H1 & H2 & H3 & H4) k L.
  assert (forall e, evaluable pow vars (List.length (first :: rest)) e -> exists x, input_at pow vars (List.length (first :: rest)) e k x) as G.
  { intros e He. destruct (Consumer_Proofs5.vector_of pow first rest vars vm Evm C Un e He) as (v & Lv & Vv & _).
    destruct (nth_error v k) as [x|] eqn:K; [|apply nth_error_None in K; lia]. exists x. now apply Vv. }
  destruct (G _ H1) as [r A1]. destruct (G _ H2) as [s A2]. destruct (G _ H3) as [rho A3]. destruct (G _ H4) as [t A4]. exists r, s, rho, t. repeat split; assumption.
Qed.
Theorem results_proof : forall closest np_std, (forall pts x y, 0 <= fst (closest pts x y)) ->
  forall pow tv start stop extra ps vars vm duties sims, let n := List.length ps in
  (start < stop)%Z -> (stop <= DT_MAX)%Z -> get_model_periods tv stop (Some start) extra = Ok ps -> make_variables_map ps vars = Ok vm ->
  (forall r l, dict_get String.eqb r vars = Some l -> List.length l = n) ->
  Forall (fun d => Forall proper_curve (du_curves d) /\ duty_evaluable pow vars n d) duties ->
  pump_process_simulations pow vm (Some start) stop duties = Ok sims ->
  Forall2 (fun d s => let '(p, inputs, periods) := s in
    exists results, simulate closest np_std p inputs = Ok results /\ List.length results = List.length periods /\
      forall k rate suction density discharge, (k < n)%nat -> duty_at pow vars n d k rate suction density discharge ->
        exists res s0 s1 s2 s3 s4, nth_error results k = Some (res, [s0; s1; s2; s3; s4]) /\
          (* the liquid of the period comes in, and leaves *)
          requested s0 * qz 24 = rate /\ l_pressure s0 = suction /\ requested s4 * qz 24 = rate /\
          (forall s, In s [s0; s1; s2; s3; s4] -> l_density s = density) /\
          (* where it flows it leaves with the required pressure *)
          (0 < rate -> l_pressure s4 = discharge /\ pr_required_head res = head_between suction discharge density /\ discharge <= pr_discharge res /\
             rate <= pr_rate res * qz 24) /\
          (* where nothing flows the pump stands still *)
          (rate <= 0 -> pr_power res = 0 /\ pr_valid res = true /\ pr_rate res = 0 /\ l_pressure s3 = suction)) duties sims.
Proof.
  intros closest np_std Hc pow tv start stop extra ps vars vm duties sims n L Mx Ep Evm Un F E.
  destruct (simulations_proof pow tv start stop extra ps vars vm duties L Mx Ep Evm Un F) as [A B]. specialize (A sims E). pose proof (proj1 B (ex_intro _ sims E)) as V. clear B E.
  destruct (model_whole tv stop (Some start) extra start ps eq_refl L Ep) as (first & rest & -> & C & _). fold n in A, V, F.
  revert V F. induction A as [|d [[p inputs] periods] ds ss H A IH]; intros V F; constructor.
  - destruct H as (Mp & -> & Li & Hi). inversion F as [|? ? [U1 U2] F']; subst. destruct (V d (or_introl eq_refl)) as [_ Vv].
    destruct (results_of closest np_std Hc pow vars n d p inputs U1 Mp Li Hi (total_at pow first rest vars vm d Evm C Un U2) Vv) as (results & R1 & R2 & R3).
    exists results. split; [exact R1|]. split; [exact R2|]. exact R3.
  - inversion F; subst. apply IH; [intros x I; apply V; now right|assumption].
Qed.

(** a model without a START that begins after 1900 has no pump process simulations: the list cannot even be made *)
Theorem no_start_proof : forall pow tv stop extra ps vars vm duties a, earliest a tv -> (DEFAULT_START < a)%Z -> (a < stop)%Z ->
  get_model_periods tv stop None extra = Ok ps -> make_variables_map ps vars = Ok vm ->
  pump_process_simulations pow vm None stop duties = Err ValueError.
Proof.
  intros pow tv stop extra ps vars vm duties a Ea La L Ep Evm. destruct (model_whole tv stop None extra a ps Ea L Ep) as (first & rest & -> & C & S1 & S2).
  unfold pump_process_simulations, get_subset_for_period. rewrite (vm_period_spec _ _ _ _ Evm). cbn [bind].
  assert (p_start (whole_of first rest) = a /\ p_end (whole_of first rest) = stop) as [W1 W2] by (split; assumption).
  assert (intersects (whole_of first rest) (model_period None stop) = true) as ->.
  { apply intersects_iff; [now apply whole_nonempty|unfold nonempty, model_period; cbn; lia|]. exists a. unfold In_period, model_period. cbn [p_start p_end]. lia. }
  cbn [negb model_period p_start p_end]. rewrite W1, W2. rewrite Z.max_r, Z.min_id by lia.
  assert (vm_time_vector vm = dates_of (first :: rest)) as -> by now rewrite (vm_eq _ _ _ _ Evm).
  pose proof (index_first first rest) as I1. pose proof (index_last first rest C) as I2. rewrite S1 in I1. rewrite S2 in I2. rewrite I1, I2.
  destruct (index_of Z.eqb DEFAULT_START (dates_of (first :: rest))) as [i|] eqn:Ei; [|reflexivity]. exfalso.
  apply index_of_Some in Ei as [Ni _]; [|apply Zeqb_spec].
  assert (nth_error (dates_of (first :: rest)) 0 = Some a) as N0 by (rewrite dates_of_eq; cbn; congruence).
  pose proof (proj1 (increasing_nth_le _ _ _ _ _ (dates_of_increasing _ C) N0 Ni) (Nat.le_0_l i)). lia.
Qed.

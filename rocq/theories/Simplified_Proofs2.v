(** Proofs about simplified trains: pressures, power and validity of the train, the series of periods. *)
From Coq Require Import List Bool ZArith Lia.
From Verif Require Import QcTac Base Num Search_Model Stream_Model Stream_Spec Process_Model Chart_Model Compressor_Spec Distribution_Proofs Train_Model
  Simplified_Model Simplified_Spec Simplified_Proofs.
From Verif Require Compressor_Model Process_Proofs2.
Import ListNotations.
Local Open Scope list_scope.
Local Open Scope Qc_scope.

Lemma stage_ends : forall w st ratio x r, consistent_service (ph_service (w_physics w)) -> stage_to_ratio w st ratio x = Return r ->
  s_model (ss_inlet r) = s_model x /\ s_mass_rate (ss_inlet r) = s_mass_rate x /\ s_pressure (ss_inlet r) = s_pressure x /\
  s_temperature (ss_inlet r) = si_temperature st /\
  s_model (ss_outlet r) = s_model x /\ s_mass_rate (ss_outlet r) = s_mass_rate x /\ s_pressure (ss_outlet r) = s_pressure x * ratio.
Proof.
  intros w st ratio x r (_ & CP & CH) E. unfold stage_to_ratio in E. cbv zeta in E.
  destruct (obind_inv _ _ _ _ _ E) as (f & E1 & E2); clear E.
  destruct (obind_inv _ _ _ _ _ E2) as (inlet & E3 & E4); clear E2.
  unfold create_fluid in E1. destruct (obind_inv _ _ _ _ _ E1) as (props & E5 & E6); clear E1. injection E6 as <-.
  apply new_stream_inv in E3. destruct E3 as [E3 _]. destruct (CP _ _ _ _ E5) as (P1 & P2 & _).
  assert (F : exists used before eff mass rc re ch he ex, finish_stage w inlet (s_pressure x * ratio) used before eff mass rc re ch he ex = Return r).
  { destruct (Qcltb 0 (s_mass_rate inlet)).
    - destruct (obind_inv _ _ _ _ _ E4) as ([change eff] & E7 & E8); clear E4.
      destruct (obind_inv _ _ _ _ _ E8) as (c & E9 & E10); clear E8. repeat eexists. exact E10.
    - repeat eexists. exact E4. }
  clear E4. destruct F as (used & before & eff & mass & rc & re & ch & he & ex & F).
  destruct (finish_inv _ _ _ _ _ _ _ _ _ _ _ _ _ F) as (out & F1 & F2 & F3 & _). unfold leaves_with in F1.
  destruct (CH _ _ _ _ _ F1) as (P3 & _). rewrite F2, F3, E3.
  unfold s_model, s_pressure, s_temperature. cbn [s_fluid s_mass_rate f_model f_properties]. unfold s_pressure in P1. repeat split; assumption.
Qed.

(** the stages one after the other *)
Lemma run_inv : forall w ratio, consistent_service (ph_service (w_physics w)) -> forall stages x l, run_stages w ratio stages x = Return l ->
  length l = length stages /\
  (forall i st r, nth_error stages i = Some st -> nth_error l i = Some r ->
     exists y, s_model y = s_model x /\ s_mass_rate y = s_mass_rate x /\ s_pressure y = s_pressure x * raised ratio i /\
       stage_to_ratio w st ratio y = Return r).
Proof.
  intros w ratio C stages. induction stages as [|st stages IH]; intros x l E.
  - injection E as <-. split; [reflexivity|]. intros [|i] st r X; discriminate X.
  - cbn [run_stages] in E. destruct (obind_inv _ _ _ _ _ E) as (r0 & E1 & E2); clear E.
    destruct (obind_inv _ _ _ _ _ E2) as (l' & E3 & E4); clear E2. injection E4 as <-.
    destruct (IH _ _ E3) as (L & N). destruct (stage_ends _ _ _ _ _ C E1) as (_ & _ & _ & _ & M & Q & P).
    split; [cbn [length]; now rewrite L|]. intros [|i] st' r H1 H2; cbn [nth_error] in H1, H2.
    + injection H1 as <-. injection H2 as <-. exists x. repeat split; try reflexivity; [cbn [raised]; ring|exact E1].
    + destruct (N i st' r H1 H2) as (y & Y1 & Y2 & Y3 & Y4). exists y. rewrite M in Y1. rewrite Q in Y2. rewrite P in Y3.
      repeat split; try assumption. rewrite Y3. cbn [raised]. ring.
Qed.

Lemma last_opt_nth : forall A (l : list A) z, last_opt l = Some z -> nth_error l (length l - 1) = Some z.
Proof.
  intros A l. induction l as [|a l IH]; intros z E; [discriminate E|]. destruct l as [|b l].
  - cbn in E |- *. exact E.
  - rewrite Process_Proofs2.last_opt_cons2 in E. specialize (IH z E). cbn [length] in IH |- *.
    replace (S (S (length l)) - 1)%nat with (S (S (length l) - 1))%nat by lia. exact IH.
Qed.

Lemma not_over : forall a, Qcltb pressure_calculation_tolerance (a / a - 1) = false.
Proof.
  intros a. apply Qcltb_ge. destruct (Qc_eq_dec a 0) as [-> |N].
  - vm_compute. discriminate.
  - replace (a / a - 1) with 0 by (field; exact N). vm_compute. discriminate.
Qed.

Lemma sim_inv : forall w t suction discharge rate v, sim_constraints w t suction discharge rate = Return (SRunning v) ->
  exists st rest x, sn_stages t = st :: rest /\ suction <> 0 /\
    create_stream_from_standard_rate (w_service w) (sn_model t) suction (si_temperature st) rate = Return x /\ 0 < s_mass_rate x /\
    run_stages w (w_root w (discharge / suction) (length (sn_stages t))) (sn_stages t) x = Return (sv_stages v) /\
    (exists r, nth_error (sv_stages v) 0 = Some r /\ sv_inlet v = ss_inlet r) /\
    (exists r, nth_error (sv_stages v) (length (sv_stages v) - 1) = Some r /\ sv_outlet v = ss_outlet r) /\
    sv_status v = status_of (mk_constraints suction (Some discharge) None [rate]) (s_pressure (sv_inlet v)) (s_pressure (sv_inlet v))
                    (s_pressure (sv_outlet v)) None /\
    sv_above_power v = sim_above_power (sn_max_power t) (sv_stages v).
Proof.
  intros w t suction discharge rate v E. unfold sim_constraints in E.
  destruct (obind_inv _ _ _ _ _ E) as (ratio & E1 & E2); clear E.
  destruct (obind_inv _ _ _ _ _ E2) as (st & E3 & E4); clear E2.
  destruct (obind_inv _ _ _ _ _ E4) as (x & E5 & E6); clear E4.
  destruct (sn_stages t) as [|st' rest] eqn:S; [discriminate E3|]. injection E3 as ->.
  cbn [ratio_per_stage length] in E1. destruct (Qceqb suction 0) eqn:Z; [discriminate E1|]. injection E1 as <-.
  apply Qceqb_neq in Z. destruct (Qcltb 0 (s_mass_rate x)) eqn:P; [|discriminate E6]. apply Qcltb_lt in P.
  destruct (obind_inv _ _ _ _ _ E6) as (l & E7 & E8); clear E6.
  destruct l as [|r l]; [discriminate E8|]. destruct (last_opt (r :: l)) as [z|] eqn:LZ; [|discriminate E8].
  cbv zeta in E8. injection E8 as <-. apply last_opt_nth in LZ.
  exists st, rest, x. cbn [sv_stages sv_inlet sv_outlet sv_status sv_above_power].
  split; [reflexivity|]. split; [exact Z|]. split; [exact E5|]. split; [exact P|]. split; [exact E7|].
  split; [exists r; split; reflexivity|]. split; [exists z; split; [exact LZ|reflexivity]|]. split; reflexivity.
Qed.

Lemma inlet_stream_is : forall sv m p t rate x, consistent_service sv -> create_stream_from_standard_rate sv m p t rate = Return x ->
  s_model x = m /\ s_pressure x = p /\ s_mass_rate x = rate * standard_density_of sv m / qz 24.
Proof.
  intros sv m p t rate x (_ & CP & _) E. unfold create_stream_from_standard_rate, create_fluid in E.
  destruct (obind_inv _ _ _ _ _ E) as (f & E1 & E2); clear E. destruct (obind_inv _ _ _ _ _ E1) as (props & E3 & E4); clear E1. injection E4 as <-.
  apply new_stream_inv in E2. destruct E2 as [-> _]. destruct (CP _ _ _ _ E3) as (P & _). repeat split. exact P.
Qed.

Theorem pressures_proof : forall w t suction discharge rate v, consistent_service (ph_service (w_physics w)) ->
  sim_constraints w t suction discharge rate = Return (SRunning v) ->
  let n := length (sn_stages t) in
  let ratio := w_root w (discharge / suction) n in
  let mass := rate * standard_density_of (ph_service (w_physics w)) (sn_model t) / qz 24 in
  (0 < n)%nat /\ length (sv_stages v) = n /\ 0 < mass /\
  (forall i st r, nth_error (sn_stages t) i = Some st -> nth_error (sv_stages v) i = Some r ->
     s_pressure (ss_inlet r) = suction * raised ratio i /\ s_pressure (ss_outlet r) = suction * raised ratio (S i) /\
     s_temperature (ss_inlet r) = si_temperature st /\ s_model (ss_inlet r) = sn_model t /\ s_model (ss_outlet r) = sn_model t /\
     s_mass_rate (ss_inlet r) = mass /\ s_mass_rate (ss_outlet r) = mass) /\
  s_pressure (sv_inlet v) = suction /\ s_pressure (sv_outlet v) = suction * raised ratio n /\
  s_mass_rate (sv_inlet v) = mass /\ s_mass_rate (sv_outlet v) = mass /\
  (raised ratio n = discharge / suction -> s_pressure (sv_outlet v) = discharge /\ sv_status v = PressuresMet).
Proof.
  intros w t suction discharge rate v C E n ratio mass. subst n ratio mass.
  destruct (sim_inv _ _ _ _ _ _ E) as (st0 & rest & x & S & Z & X & M & R & (r0 & F1 & F2) & (r1 & L1 & L2) & ST & _). clear E.
  destruct (inlet_stream_is _ _ _ _ _ _ C X) as (X1 & X2 & X3). unfold w_service in *. rewrite <- X3.
  destruct (run_inv w _ C _ _ _ R) as (L & N).
  set (ratio := w_root w (discharge / suction) (length (sn_stages t))) in *.
  assert (K : forall i st r, nth_error (sn_stages t) i = Some st -> nth_error (sv_stages v) i = Some r ->
     s_pressure (ss_inlet r) = suction * raised ratio i /\ s_pressure (ss_outlet r) = suction * raised ratio (Datatypes.S i) /\
     s_temperature (ss_inlet r) = si_temperature st /\ s_model (ss_inlet r) = sn_model t /\ s_model (ss_outlet r) = sn_model t /\
     s_mass_rate (ss_inlet r) = s_mass_rate x /\ s_mass_rate (ss_outlet r) = s_mass_rate x).
  { intros i st r H1 H2. destruct (N i st r H1 H2) as (y & Y1 & Y2 & Y3 & Y4).
    destruct (stage_ends _ _ _ _ _ C Y4) as (A1 & A2 & A3 & A4 & A5 & A6 & A7). rewrite Y1, X1 in *. rewrite X2 in Y3. rewrite A3, A7, Y3, A2, A6, Y2.
    repeat split; try assumption. cbn [raised]. ring. }
  assert (P : (0 < length (sn_stages t))%nat) by (rewrite S; cbn [length]; lia).
  split; [exact P|]. split; [exact L|]. split; [exact M|]. split; [exact K|].
  assert (I0 : exists st, nth_error (sn_stages t) 0 = Some st) by (rewrite S; eexists; reflexivity). destruct I0 as (s0 & I0).
  destruct (K 0%nat _ _ I0 F1) as (A1 & _ & _ & _ & _ & A2 & _).
  rewrite L in L1. destruct (nth_error (sn_stages t) (length (sn_stages t) - 1)) as [s1|] eqn:I1; [|apply nth_error_None in I1; lia].
  destruct (K _ _ _ I1 L1) as (_ & B1 & _ & _ & _ & _ & B2).
  replace (Datatypes.S (length (sn_stages t) - 1)) with (length (sn_stages t)) in B1 by lia.
  rewrite F2, L2. split; [rewrite A1; cbn [raised]; ring|]. split; [exact B1|]. split; [exact A2|]. split; [exact B2|].
  intros Q. assert (D : s_pressure (ss_outlet r1) = discharge) by (rewrite B1, Q; field; exact Z). split; [exact D|].
  rewrite ST, F2, L2, D. unfold status_of. cbn [c_discharge c_interstage]. cbv zeta. rewrite !not_over. reflexivity.
Qed.

Theorem stages_proof : forall w t suction discharge rate v, consistent_service (ph_service (w_physics w)) ->
  (forall st, In st (sn_stages t) -> regular_chart (si_chart st)) ->
  sim_constraints w t suction discharge rate = Return (SRunning v) ->
  let ratio := w_root w (discharge / suction) (length (sn_stages t)) in
  let mass := rate * standard_density_of (ph_service (w_physics w)) (sn_model t) / qz 24 in
  forall i st r, nth_error (sn_stages t) i = Some st -> nth_error (sv_stages v) i = Some r ->
    lifts w (si_chart st) (si_temperature st) (sn_model t) mass (suction * raised ratio i) (suction * raised ratio (S i)) r.
Proof.
  intros w t suction discharge rate v C RG E ratio mass i st r H1 H2. subst ratio mass.
  destruct (sim_inv _ _ _ _ _ _ E) as (st0 & rest & x & S & Z & X & M & R & _).
  destruct (inlet_stream_is _ _ _ _ _ _ C X) as (X1 & X2 & X3). unfold w_service in *. rewrite <- X3.
  destruct (run_inv w _ C _ _ _ R) as (L & N). destruct (N i st r H1 H2) as (y & Y1 & Y2 & Y3 & Y4).
  assert (M' : 0 < s_mass_rate y) by (rewrite Y2; exact M).
  pose proof (stage_inv _ _ _ _ _ (RG st (nth_error_In _ _ H1)) M' Y4) as G. rewrite X2 in Y3. rewrite X1 in Y1.
  rewrite Y1, Y2, Y3 in G. cbn [raised]. set (q := w_root w _ _) in *.
  replace (suction * (q * raised q i)) with (suction * raised q i * q) by ring. exact G.
Qed.

(** ** Power and validity *)

Lemma nsum_some : forall l total, nsum (map ss_power l) = Some total <-> total_power l total.
Proof.
  intros l. induction l as [|r l IH]; intros total.
  - cbn. split; [intros E; injection E as <-; exists []; split; [constructor|reflexivity]|].
    intros (p & F & ->). inversion F. reflexivity.
  - cbn [map nsum fold_right]. fold (nsum (map ss_power l)). split.
    + intros E. destruct (ss_power r) as [a|] eqn:A; [|discriminate E]. destruct (nsum (map ss_power l)) as [b|] eqn:B; [|discriminate E].
      cbn in E. injection E as <-. destruct (proj1 (IH b) eq_refl) as (p & F & ->). exists (a :: p). split; [constructor; assumption|reflexivity].
    + intros (p & F & ->). inversion F as [|? a ? p' A F' ]. subst. rewrite A. rewrite (proj2 (IH (qsum p')) (ex_intro _ p' (conj F' eq_refl))). reflexivity.
Qed.
Lemma nsum_none : forall l, nsum (map ss_power l) = None <-> exists r, In r l /\ ss_power r = None.
Proof.
  intros l. induction l as [|r l IH].
  - cbn. split; [discriminate|intros (r & [] & _)].
  - cbn [map nsum fold_right]. fold (nsum (map ss_power l)). split.
    + intros E. destruct (ss_power r) as [a|] eqn:A; [|exists r; split; [now left|exact A]].
      destruct (nsum (map ss_power l)) as [b|] eqn:B; [discriminate E|]. destruct (proj1 IH eq_refl) as (r' & H & P). exists r'. split; [now right|exact P].
    + intros (r' & [<-|H] & P); [rewrite P; reflexivity|]. rewrite (proj2 IH (ex_intro _ r' (conj H P))). destruct (ss_power r); reflexivity.
Qed.

Lemma stage_failure_none : forall l, forallb ss_within l = true -> sim_stage_failure l = None.
Proof.
  intros l. induction l as [|r l IH]; intros H; [reflexivity|]. cbn [forallb] in H. apply andb_prop in H. destruct H as [A B].
  cbn [sim_stage_failure]. rewrite A. exact (IH B).
Qed.

(** the largest power, unless none is given or it is zero *)

Lemma above_power_iff : forall limit l total, nsum (map ss_power l) = Some total ->
  (sim_above_power limit l = false <-> power_allows limit total).
Proof.
  intros limit l total E. unfold sim_above_power, power_allows. destruct limit as [p|].
  - destruct (Qceqb p 0) eqn:Z; [apply Qceqb_eq in Z; split; [intros _ q X N; congruence|reflexivity]|]. apply Qceqb_neq in Z.
    rewrite E. rewrite Qcltb_ge. split; [intros L q X _; injection X as <-; exact L|intros H; exact (H p eq_refl Z)].
  - split; [intros _ p X; discriminate X|reflexivity].
Qed.

Lemma within_power : forall w t suction discharge rate v, consistent_service (ph_service (w_physics w)) ->
  (forall st, In st (sn_stages t) -> regular_chart (si_chart st)) ->
  sim_constraints w t suction discharge rate = Return (SRunning v) ->
  forall r, In r (sv_stages v) -> (ss_within r = true <-> exists p, ss_power r = Some p).
Proof.
  intros w t suction discharge rate v C RG E r H. destruct (In_nth_error _ _ H) as (i & I).
  destruct (pressures_proof _ _ _ _ _ _ C E) as (_ & L & _).
  destruct (nth_error (sn_stages t) i) as [st|] eqn:S.
  - destruct (stages_proof _ _ _ _ _ _ C RG E i st r S I) as [_ _ (eff & head & m & k & h & e & _ & _ & _ & _ & _ & _ & _ & P1 & P2 & W)].
    rewrite W. split; [intros X; eexists; exact (P1 X)|].
    intros (p & P). set (rate' := Qcmax m _) in *. set (head' := Qcmax k head) in *.
    destruct (Qclt_le_dec e rate') as [A|A].
    { rewrite P2 in P; [discriminate P|]. intros [B _]. qc_lra. }
    destruct (Qclt_le_dec h head') as [B|B]; [|split; assumption].
    rewrite P2 in P; [discriminate P|]. intros [_ D]. qc_lra.
  - apply nth_error_None in S. assert (nth_error (sv_stages v) i <> None) by congruence. apply nth_error_Some in H0. lia.
Qed.

Theorem validity_proof : forall w t suction discharge rate v, consistent_service (ph_service (w_physics w)) ->
  (forall st, In st (sn_stages t) -> regular_chart (si_chart st)) ->
  let n := length (sn_stages t) in
  raised (w_root w (discharge / suction) n) n = discharge / suction ->
  sim_constraints w t suction discharge rate = Return (SRunning v) ->
  ((exists total, sim_power (SRunning v) = Some total) <-> forall r, In r (sv_stages v) -> ss_within r = true) /\
  (forall total, sim_power (SRunning v) = Some total <-> total_power (sv_stages v) total) /\
  (sim_valid (SRunning v) = true <->
     (forall r, In r (sv_stages v) -> ss_within r = true) /\
     (forall total, total_power (sv_stages v) total -> power_allows (sn_max_power t) total)) /\
  (sim_valid (SRunning v) = true -> sim_failure (SRunning v) = NoFailure) /\
  ((forall r, In r (sv_stages v) -> ss_within r = true) ->
     (sim_failure (SRunning v) = NoFailure \/ sim_failure (SRunning v) = AboveMaximumPower)).
Proof.
  intros w t suction discharge rate v C RG n Q E.
  pose proof (within_power _ _ _ _ _ _ C RG E) as W.
  destruct (pressures_proof _ _ _ _ _ _ C E) as (_ & _ & _ & _ & _ & _ & _ & _ & P). destruct (P Q) as [_ ST]. clear P.
  destruct (sim_inv _ _ _ _ _ _ E) as (_ & _ & _ & _ & _ & _ & _ & _ & _ & _ & _ & AP).
  unfold sim_valid, sim_failure, sim_power.
  assert (T : (exists total, nsum (map ss_power (sv_stages v)) = Some total) <-> forall r, In r (sv_stages v) -> ss_within r = true).
  { split.
    - intros (total & X) r H. apply (W r H). destruct (ss_power r) as [p|] eqn:PR; [eauto|].
      pose proof (proj2 (nsum_none (sv_stages v)) (ex_intro _ r (conj H PR))) as Y. congruence.
    - intros H. destruct (nsum (map ss_power (sv_stages v))) as [x|] eqn:X; [eauto|]. apply nsum_none in X. destruct X as (r & H1 & H2).
      destruct (proj1 (W r H1) (H r H1)) as (p & Y). congruence. }
  assert (FA : forallb ss_within (sv_stages v) = true <-> forall r, In r (sv_stages v) -> ss_within r = true) by apply forallb_forall.
  split; [exact T|]. split; [intros total; apply nsum_some|]. rewrite ST. rewrite AP.
  split; [|split].
  - split.
    + intros V. apply andb_prop in V. destruct V as [V1 V2]. pose proof (proj1 FA V2) as A. split; [exact A|].
      intros total TP. apply nsum_some in TP. rewrite (stage_failure_none _ V2) in V1.
      apply (above_power_iff _ _ _ TP). destruct (sim_above_power (sn_max_power t) (sv_stages v)); [discriminate V1|reflexivity].
    + intros [A B]. rewrite (proj2 FA A), (stage_failure_none _ (proj2 FA A)). destruct (proj2 T A) as (total & X).
      rewrite (proj2 (above_power_iff (sn_max_power t) _ _ X) (B total (proj1 (nsum_some _ _) X))). reflexivity.
  - intros V. apply andb_prop in V. destruct V as [V1 V2]. destruct (match sim_stage_failure (sv_stages v) with Some _ => _ | None => _ end); try discriminate V1. reflexivity.
  - intros A. rewrite (stage_failure_none _ (proj2 FA A)). destruct (sim_above_power _ _); [now right|now left].
Qed.

(** ** Standing still, and what is refused *)
Theorem idle_proof : forall w t suction discharge rate st rest props, consistent_service (ph_service (w_physics w)) ->
  sn_stages t = st :: rest -> suction <> 0 ->
  flash_pt (ph_service (w_physics w)) (sn_model t) suction (si_temperature st) = Return props ->
  (rate = 0 -> sim_constraints w t suction discharge rate = Return (SIdle (length (sn_stages t)))) /\
  (rate < 0 -> sim_constraints w t suction discharge rate = Raise NegativeMassRate) /\
  (0 < rate -> forall n, sim_constraints w t suction discharge rate <> Return (SIdle n)) /\
  sim_power (SIdle (length (sn_stages t))) = Some 0 /\ sim_valid (SIdle (length (sn_stages t))) = true.
Proof.
  intros w t suction discharge rate st rest props (CD & _) S Z F.
  assert (B : sim_constraints w t suction discharge rate =
    let! x := new_stream (mk_fluid (sn_model t) props) (rate * standard_density_of (ph_service (w_physics w)) (sn_model t) / qz 24) in
    if Qcltb 0 (s_mass_rate x) then
      let! l := run_stages w (w_root w (discharge / suction) (length (sn_stages t))) (sn_stages t) x in
      match l, last_opt l with
      | r :: _, Some z =>
        let status := status_of (mk_constraints suction (Some discharge) None [rate]) (s_pressure (ss_inlet r)) (s_pressure (ss_inlet r))
                        (s_pressure (ss_outlet z)) None in
        Return (SRunning (mk_sim_running (ss_inlet r) (ss_outlet z) l status (sim_above_power (sn_max_power t) l)))
      | _, _ => Raise IndexErr
      end
    else Return (SIdle (length (sn_stages t)))).
  { unfold sim_constraints. rewrite S. cbn [length ratio_per_stage]. apply Qceqb_neq in Z. rewrite Z. cbn [obind].
    unfold create_stream_from_standard_rate, create_fluid, w_service. rewrite F. reflexivity. }
  rewrite B. clear B. set (d := standard_density_of (ph_service (w_physics w)) (sn_model t)) in *. assert (D : 0 < d) by apply CD. clearbody d.
  assert (T : 0 < / qz 24) by reflexivity.
  split; [|split; [|split; [|split]]].
  - intros ->. unfold new_stream. replace (0 * d / qz 24) with 0 by (unfold Qcdiv; ring). cbn [Qcltb]. reflexivity.
  - intros L. unfold new_stream. assert (M : rate * d / qz 24 < 0).
    { unfold Qcdiv. assert (rate * d < 0) by qc_nra. qc_nra. }
    apply Qcltb_lt in M. rewrite M. reflexivity.
  - intros L n. unfold new_stream. assert (M : 0 < rate * d / qz 24).
    { unfold Qcdiv. assert (0 < rate * d) by qc_nra. qc_nra. }
    assert (M2 : Qcltb (rate * d / qz 24) 0 = false) by (apply Qcltb_ge; qc_lra). rewrite M2. cbn [obind s_mass_rate]. apply Qcltb_lt in M. rewrite M.
    destruct (run_stages _ _ _ _) as [[|r l]|]; cbn [obind]; try discriminate.
  - reflexivity.
  - reflexivity.
Qed.

Theorem refused_proof : forall w t suction discharge rate,
  (sn_stages t = [] -> sim_constraints w t suction discharge rate = Raise ValueErr) /\
  (sn_stages t <> [] -> suction = 0 -> sim_constraints w t suction discharge rate = Raise ZeroDivisionErr).
Proof.
  intros w t suction discharge rate. unfold sim_constraints. destruct (sn_stages t) as [|st rest].
  - split; [reflexivity|intros N; contradiction].
  - split; [discriminate|]. intros _ ->. reflexivity.
Qed.

(** ** The series of periods *)
Theorem periods_proof : forall w t calculate periods answers,
  sim_evaluate w t calculate periods = Return answers <->
  Forall2 (fun p a => sim_constraints w t (fst (fst p)) (snd (fst p)) (snd p) = Return (fst a) /\
                      (if calculate : bool then sim_max_rate_reported w t (fst (fst p)) (snd (fst p)) = Return (snd a) else snd a = None))
    periods answers.
Proof.
  intros w t calculate periods answers. unfold sim_evaluate. split.
  - intros E. destruct (obind_inv _ _ _ _ _ E) as (evs & E1 & E2); clear E. destruct (obind_inv _ _ _ _ _ E2) as (rates & E3 & E4); clear E2.
    injection E4 as <-. apply mapO_Return in E1.
    assert (R : Forall2 (fun p a => if calculate : bool then sim_max_rate_reported w t (fst (fst p)) (snd (fst p)) = Return a else a = None) periods rates).
    { destruct calculate; [apply mapO_Return in E3; exact E3|]. injection E3 as <-. clear. induction periods; constructor; [reflexivity|assumption]. }
    clear E3. revert rates R. induction E1 as [|p v periods evs A F IH]; intros rates R.
    + inversion R. constructor.
    + inversion R as [|? a ? rates' B R' ]. subst. cbn [combine]. constructor; [split; assumption|exact (IH rates' R')].
  - intros F.
    assert (E1 : mapO (fun p => sim_constraints w t (fst (fst p)) (snd (fst p)) (snd p)) periods = Return (map fst answers)).
    { apply mapO_Return. induction F as [|p a ps as' [A _] F IH]; constructor; [exact A|exact IH]. }
    rewrite E1. cbn [obind].
    assert (E2 : (if calculate then mapO (fun p => sim_max_rate_reported w t (fst (fst p)) (snd (fst p))) periods
                else Return (map (fun _ => None) periods)) = Return (map snd answers)).
    { destruct calculate.
      - apply mapO_Return. clear E1. induction F as [|p a ps as' [_ A] F IH]; constructor; [exact A|exact IH].
      - clear E1. f_equal. induction F as [|p a ps as' [_ A] F IH]; [reflexivity|]. cbn [map]. now rewrite A, IH. }
    rewrite E2. cbn [obind]. f_equal. clear. induction answers as [|[a b] l IH]; [reflexivity|]. cbn [map combine fst snd]. now rewrite IH.
Qed.

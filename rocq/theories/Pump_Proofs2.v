(** The theorems about pump evaluations. *)
From Coq Require Import PeanoNat.
From Verif Require Import QcTac Base BaseLemmas Num Units_Model Interp_Model Interp_Spec Time_Proofs Interp_Proofs
  Chart_Model Chart_Spec Chart_Proofs Chart_Proofs2 Pump_Model Pump_Spec Pump_Proofs.
Local Open Scope list_scope.
Local Open Scope Qc_scope.

Lemma qmax_l : forall a b, a <= Qcmax a b. Proof. intros. qc_cases; qc_lra. Qed.
Lemma qmax_r : forall a b, b <= Qcmax a b. Proof. intros. qc_cases; qc_lra. Qed.
Lemma qmax_is_r : forall a b, a <= b -> Qcmax a b = b. Proof. intros. apply Qcle_antisym; qc_cases; qc_lra. Qed.
Lemma qmax_is_l : forall a b, b <= a -> Qcmax a b = a. Proof. intros. apply Qcle_antisym; qc_cases; qc_lra. Qed.
Lemma qmin_is_r : forall a b, b <= a -> Qcmin a b = b. Proof. intros. apply Qcle_antisym; qc_cases; qc_lra. Qed.

(** the pieces of an evaluation of a running pump *)
Definition evaluation_pieces (closest : list (Qc * Qc) -> Qc -> Qc -> Qc * (Qc * Qc)) (np_std : list Qc -> Qc)
    (p : pump) (s : liquid) (pd : Qc) (r : pump_result) : Prop :=
  let required := head_between (l_pressure s) pd (l_density s) in
  exists line edge top right e speed,
    minimum_rate_at (pu_chart p) required = Ok line /\
    pr_rate r = Qcmax (Qcmax (requested s) (pu_min_flow p)) line /\
    minimum_head_at (pu_chart p) (pr_rate r) = Ok edge /\
    pr_head r = Qcmax required edge /\
    pump_efficiency closest np_std (pu_chart p) (pr_rate r) (pr_head r) = Ok e /\ 0 < e /\ e <= 1 /\
    speed_at (pu_chart p) (pr_rate r) (pr_head r) = Ok speed /\
    maximum_head_at (pu_chart p) (pr_rate r) = Ok top /\ chart_max_rate (pu_chart p) = Ok right /\
    r = mkPumpResult s (pr_rate r * l_density s * (pr_head r / e) / qz 3600 / qz 1000000) (Some e) (Some (pr_head r / e)) required
          (pr_head r) (pr_rate r) (pr_rate r - requested s) pd (l_pressure s + pr_head r * l_density s / qz 100000) (Some speed)
          (failure_of (Qcltb top (pr_head r)) (Qcltb right (pr_rate r))).

Lemma evaluate_pieces : forall closest np_std, (forall pts x y, 0 <= fst (closest pts x y)) ->
  forall curves min_flow p s pd, Forall proper_curve curves -> make_pump curves min_flow = Ok p ->
  physical s -> 0 < pd -> 0 < requested s ->
  exists r, pump_evaluate closest np_std p s pd = Ok r /\ evaluation_pieces closest np_std p s pd r.
Proof.
  intros closest np_std D curves min_flow p s pd F M (S1 & S2 & S3) Hpd Hrate.
  destruct (proj1 (make_pump_proof curves min_flow F) p M) as (N & Echart & Pos & _). 
  unfold pump_evaluate. destruct (Qcleb pd 0) eqn:X; [apply Qcleb_le in X; exfalso; qc_lra|]. clear X.
  rewrite head_of_ok by exact S1. cbn [bind].
  unfold l_rate_per_hour. fold (requested s). destruct (Qcleb (requested s) 0) eqn:X; [apply Qcleb_le in X; exfalso; qc_lra|]. clear X.
  set (required := head_between _ _ _). unfold evaluation_pieces. fold required. rewrite Echart.
  destruct (minimum_rate_ok curves required N F) as (line & El). rewrite El. cbn [bind].
  set (rate := Qcmax _ line).
  destruct (bounded_list (flat_map cv_head curves)) as (lo & hi & B).
  destruct (minimum_head_ok curves rate lo hi N F) as (edge & Ee & _).
  { intros c y Hc Hy. apply B. apply in_flat_map. eauto. }
  rewrite Ee. cbn [bind]. set (head := Qcmax required edge).
  destruct (pump_efficiency_ok closest np_std D curves rate head N F Pos) as (e & Eeff & E1 & E2). rewrite Eeff. cbn [bind].
  destruct (speed_at_ok curves rate head N F) as (speed & Es & _). rewrite Es. cbn [bind].
  destruct (Qceqb e 0) eqn:X; [apply Qceqb_eq in X; elim (lt_neq e E1 X)|]. clear X. cbn [bind]. rewrite pascal_bara. cbn [bind].
  destruct (maximum_head_ok curves rate N F) as (top & Et). rewrite Et. cbn [bind].
  destruct (chart_max_rate_ok curves N F) as (right & Er & _). rewrite Er. cbn [bind].
  eexists. split; [reflexivity|]. cbn [pr_rate pr_head].
  exists line, edge, top, right, e, speed. repeat (split; [assumption || reflexivity|]). reflexivity.
Qed.

Theorem running_proof : forall closest np_std, (forall pts x y, 0 <= fst (closest pts x y)) ->
  forall curves min_flow p s pd, Forall proper_curve curves -> make_pump curves min_flow = Ok p ->
  physical s -> 0 < pd -> 0 < requested s ->
  exists r e speed, pump_evaluate closest np_std p s pd = Ok r /\
    (* rates *)
    requested s <= pr_rate r /\ pu_min_flow p <= pr_rate r /\
    pr_recirculation r = pr_rate r - requested s /\ 0 <= pr_recirculation r /\
    (* heads and pressures *)
    pr_required_head r = head_between (l_pressure s) pd (l_density s) /\ pr_required_head r <= pr_head r /\
    pr_required_discharge r = pd /\ pd <= pr_discharge r /\
    pr_head r = head_between (l_pressure s) (pr_discharge r) (l_density s) /\
    choke_drop r = pr_discharge r - pd /\ 0 <= choke_drop r /\
    (* power *)
    pr_efficiency r = Some e /\ 0 < e /\ e <= 1 /\
    pr_power r = shaft_power (pr_rate r * l_density s) (pr_head r) e /\ pr_work r = Some (pr_head r / e) /\
    ((forall c h, In c curves -> In h (cv_head c) -> 0 <= h) -> 0 <= pr_power r) /\
    (* speed *)
    pr_speed r = Some speed /\ (exists c, In c curves /\ cv_speed c <= speed) /\ (exists c, In c curves /\ speed <= cv_speed c).
Proof.
  intros closest np_std D curves min_flow p s pd F M HS Hpd Hrate.
  destruct (evaluate_pieces closest np_std D curves min_flow p s pd F M HS Hpd Hrate) as (r & E & line & edge & top & right & e & speed & P1 & P2 & P3 & P4 & P5 & P6 & P7 & P8 & P9 & P10 & P11).
  destruct HS as (S1 & S2 & S3).
  destruct (proj1 (make_pump_proof curves min_flow F) p M) as (N & Echart & Pos & _). rewrite Echart in *.
  exists r, e, speed. split; [exact E|].
  assert (requested s <= pr_rate r) as R1. { rewrite P2. pose proof (qmax_l (requested s) (pu_min_flow p)). pose proof (qmax_l (Qcmax (requested s) (pu_min_flow p)) line). qc_lra. }
  assert (pu_min_flow p <= pr_rate r) as R2. { rewrite P2. pose proof (qmax_r (requested s) (pu_min_flow p)). pose proof (qmax_l (Qcmax (requested s) (pu_min_flow p)) line). qc_lra. }
  assert (head_between (l_pressure s) pd (l_density s) <= pr_head r) as R3 by (rewrite P4; apply qmax_l).
  assert (pr_discharge r = l_pressure s + pr_head r * l_density s / qz 100000) as ED by (rewrite P11 at 1; reflexivity).
  assert (pd <= pr_discharge r) as R4.
  { rewrite ED. assert (pd = l_pressure s + head_between (l_pressure s) pd (l_density s) * l_density s / qz 100000) as EQ.
    { unfold head_between. field. split; first [now apply lt_neq | apply lt_neq; reflexivity]. }
    assert (0 <= (pr_head r - head_between (l_pressure s) pd (l_density s)) * l_density s / qz 100000) as Q.
    { apply div_nn; [|reflexivity]. apply mul_nn; [qc_lra|now apply Qclt_le_weak]. }
    replace ((pr_head r - head_between (l_pressure s) pd (l_density s)) * l_density s / qz 100000) with
      (pr_head r * l_density s / qz 100000 - head_between (l_pressure s) pd (l_density s) * l_density s / qz 100000) in Q by (field; discriminate). qc_lra. }
  split; [exact R1|]. split; [exact R2|]. split; [rewrite P11 at 1; reflexivity|].
  split; [rewrite P11; cbn [pr_recirculation]; qc_lra|]. split; [rewrite P11 at 1; reflexivity|].
  split; [replace (pr_required_head r) with (head_between (l_pressure s) pd (l_density s)) by (rewrite P11; reflexivity); exact R3|].
  split; [rewrite P11 at 1; reflexivity|]. split; [exact R4|].
  split. { rewrite ED. unfold head_between. field. split; first [now apply lt_neq | discriminate]. }
  assert (pr_required_discharge r = pd) as EP by (rewrite P11; reflexivity).
  split. { unfold choke_drop. rewrite EP. apply qmax_is_r. qc_lra. }
  split. { unfold choke_drop. apply qmax_l. }
  split; [rewrite P11 at 1; reflexivity|]. split; [exact P6|]. split; [exact P7|].
  assert (pr_power r = shaft_power (pr_rate r * l_density s) (pr_head r) e) as EPow.
  { replace (pr_power r) with (pr_rate r * l_density s * (pr_head r / e) / qz 3600 / qz 1000000) by (rewrite P11; reflexivity). unfold shaft_power. field.
    repeat split; first [now apply lt_neq | discriminate]. }
  split; [exact EPow|]. split; [rewrite P11 at 1; reflexivity|].
  split.
  { intros HH. rewrite EPow. unfold shaft_power. apply div_nn; [|reflexivity]. apply div_nn; [|exact P6]. apply mul_nn.
    - apply mul_nn; [qc_lra|now apply Qclt_le_weak].
    - destruct (bounded_list (flat_map cv_head curves)) as (lo & hi & B).
      destruct (minimum_head_ok curves (pr_rate r) 0 hi N F) as (edge' & Ee & L & _).
      { intros c y Hc Hy. split; [eauto|]. apply B. apply in_flat_map. eauto. }
      assert (edge' = edge) by congruence. subst edge'. rewrite P4. pose proof (qmax_r (head_between (l_pressure s) pd (l_density s)) edge). qc_lra. }
  split; [rewrite P11 at 1; reflexivity|].
  destruct (speed_at_ok curves (pr_rate r) (pr_head r) N F) as (sp & Esp & H1 & H2). assert (sp = speed) by congruence. subst sp. auto.
Qed.

Theorem failure_proof : forall closest np_std, (forall pts x y, 0 <= fst (closest pts x y)) ->
  forall curves min_flow p s pd fast r, Forall proper_curve curves -> make_pump curves min_flow = Ok p ->
  physical s -> 0 < requested s -> last_opt curves = Some fast -> NoDup (cv_rate fast) ->
  pump_evaluate closest np_std p s pd = Ok r ->
  reports (pr_failure r) (beyond_chart curves (pr_rate r)) (above_curve fast (pr_rate r) (pr_head r)) /\
  (pr_valid r = true <-> ~ beyond_chart curves (pr_rate r) /\ ~ above_curve fast (pr_rate r) (pr_head r)).
Proof.
  intros closest np_std D curves min_flow p s pd fast r F M HS Hrate EF ND E.
  assert (0 < pd) as Hpd. { unfold pump_evaluate in E. destruct (Qcleb pd 0) eqn:X; [discriminate E|]. now apply Qcleb_gt. }
  destruct (evaluate_pieces closest np_std D curves min_flow p s pd F M HS Hpd Hrate) as (r' & E' & line & edge & top & right & e & speed & P1 & P2 & P3 & P4 & P5 & P6 & P7 & P8 & P9 & P10 & P11).
  assert (r' = r) by congruence. subst r'.
  destruct (proj1 (make_pump_proof curves min_flow F) p M) as (N & Echart & _). rewrite Echart in *.
  assert (reports (pr_failure r) (beyond_chart curves (pr_rate r)) (above_curve fast (pr_rate r) (pr_head r))) as R.
  { replace (pr_failure r) with (failure_of (Qcltb top (pr_head r)) (Qcltb right (pr_rate r))) by (rewrite P11; reflexivity).
    apply failure_reports.
    - rewrite Qcltb_lt. unfold maximum_head_at, fast_curve in P9. rewrite EF in P9. cbn [of_option bind] in P9.
      assert (proper_curve fast) as PF by (rewrite Forall_forall in F; apply F; now apply last_opt_in).
      pose proof (curve_head_value fast (pr_rate r) top PF ND P9) as V. split.
      + intros L. exists top. auto.
      + intros (m & V' & L). replace top with m; [exact L|]. apply (value_at_unique (head_points fast) (pr_rate r)); auto. apply curve_rising; auto. apply PF.
    - rewrite Qcltb_lt. destruct (chart_max_rate_ok curves N F) as (right' & Er & (c & Hc & Hr) & B). assert (right' = right) by congruence. subst right'.
      split.
      + intros L c' r' Hc' Hr'. apply (B c' r' Hc') in Hr'. qc_lra.
      + intros H. apply (H c right Hc Hr). }
  split; [exact R|]. unfold pr_valid. destruct (pr_failure r); cbn in R; destruct R as [R1 R2].
  - split; auto.
  - split; [discriminate|]. intros [A B]. contradiction.
  - split; [discriminate|]. intros [A B]. contradiction.
  - split; [discriminate|]. intros [A B]. contradiction.
Qed.

Theorem stopped_proof : forall closest np_std curves min_flow p s pd, Forall proper_curve curves -> make_pump curves min_flow = Ok p ->
  physical s -> 0 < pd -> requested s <= 0 ->
  pump_evaluate closest np_std p s pd =
    Ok (mkPumpResult s 0 None None (head_between (l_pressure s) pd (l_density s)) 0 0 0 pd (l_pressure s) None NO_FAILURE).
Proof.
  intros closest np_std curves min_flow p s pd F M (S1 & S2 & S3) Hpd Hrate. unfold pump_evaluate.
  destruct (Qcleb pd 0) eqn:X; [apply Qcleb_le in X; exfalso; qc_lra|]. clear X.
  rewrite head_of_ok by exact S1. cbn [bind]. unfold l_rate_per_hour. fold (requested s).
  destruct (Qcleb (requested s) 0) eqn:X; [reflexivity|apply Qcleb_gt in X; exfalso; qc_lra].
Qed.

Theorem refused_proof : forall closest np_std p s pd, pd <= 0 -> pump_evaluate closest np_std p s pd = Err DomainError.
Proof. intros closest np_std p s pd H. unfold pump_evaluate. apply Qcleb_le in H. now rewrite H. Qed.

(** the streams on the connections *)
Theorem streams_proof : forall closest np_std, (forall pts x y, 0 <= fst (closest pts x y)) ->
  forall curves min_flow p s pd, Forall proper_curve curves -> make_pump curves min_flow = Ok p -> physical s -> 0 < pd ->
  exists r s1 s2 s3 s4,
    pump_evaluate closest np_std p s pd = Ok r /\
    simulate_one closest np_std p (s, pd) = Ok (r, [s; s1; s2; s3; s4]) /\
    pump_propagate closest np_std p (Some pd) s = Ok s3 /\
    (* the recirculated mass joins before the pump and leaves after it *)
    l_mass s1 = l_mass s + pr_recirculation r * l_density s /\ l_mass s2 = l_mass s1 /\ l_mass s3 = l_mass s /\ l_mass s4 = l_mass s /\
    (* pressures: raised by the pump only, lowered by the choke only *)
    l_pressure s1 = l_pressure s /\ l_pressure s2 = pr_discharge r /\ l_pressure s3 = pr_discharge r /\
    (0 < requested s -> l_pressure s4 = pd /\ l_pressure s3 - l_pressure s4 = choke_drop r) /\
    (requested s <= 0 -> l_pressure s3 = l_pressure s /\ l_pressure s4 = Qcmin (l_pressure s) pd) /\
    (* one density, and only physical streams *)
    (forall t, In t [s; s1; s2; s3; s4] -> l_density t = l_density s /\ physical t).
Proof.
  intros closest np_std D curves min_flow p s pd F M HS Hpd.
  destruct (Qclt_le_dec 0 (requested s)) as [Hrate|Hrate].
  - destruct (running_proof closest np_std D curves min_flow p s pd F M HS Hpd Hrate) as
      (r & e & speed & E & R1 & R2 & R3 & R4 & R5 & R6 & R7 & R8 & R9 & R10 & R11 & _).
    assert (pr_inlet r = s) as EI.
    { destruct (evaluate_pieces closest np_std D curves min_flow p s pd F M HS Hpd Hrate) as (r' & E' & line & edge & top & right & e' & speed' & P1 & P2 & P3 & P4 & P5 & P6 & P7 & P8 & P9 & P10 & P11).
      assert (r' = r) by congruence. subst r'. rewrite P11. reflexivity. }
    destruct HS as (S1 & S2 & S3). assert (physical s) as HS by (repeat split; assumption).
    assert (0 < pr_discharge r) as PD by qc_lra.
    assert (0 <= pr_rate r * l_density s) as PM by (apply mul_nn; [qc_lra|now apply Qclt_le_weak]).
    assert (Qcmin (pr_discharge r) (pr_required_discharge r) = pd) as EM by (rewrite R7; now apply qmin_is_r).
    assert (project_streams r = Ok [s; mkLiquid (l_pressure s) (l_density s) (pr_rate r * l_density s);
        mkLiquid (pr_discharge r) (l_density s) (pr_rate r * l_density s); mkLiquid (pr_discharge r) (l_density s) (l_mass s);
        mkLiquid pd (l_density s) (l_mass s)]) as EP.
    { unfold project_streams, with_mass, with_pressure. rewrite EI, EM.
      rewrite new_liquid_ok by assumption. cbn [bind l_pressure l_density l_mass]. rewrite new_liquid_ok by assumption. cbn [bind].
      rewrite new_liquid_ok by assumption. cbn [bind]. rewrite new_liquid_ok by assumption. cbn [bind]. reflexivity. }
    exists r. do 4 eexists. split; [exact E|]. split.
    { unfold simulate_one. cbn [fst snd]. rewrite E. cbn [bind]. rewrite EP. reflexivity. }
    cbn [l_mass l_pressure l_density]. split.
    { unfold pump_propagate. rewrite E. cbn [bind]. unfold with_pressure. rewrite new_liquid_ok by assumption. reflexivity. }
    split. { rewrite R3. unfold requested. field. now apply lt_neq. }
    split; [reflexivity|]. split; [reflexivity|]. split; [reflexivity|]. split; [reflexivity|]. split; [reflexivity|]. split; [reflexivity|].
    split; [intros _; split; [reflexivity|now symmetry]|]. split; [intros X; exfalso; qc_lra|].
    intros t [<-|[<-|[<-|[<-|[<-|[]]]]]]; cbn [l_density]; (split; [reflexivity|]); try exact HS; repeat split; assumption.
  - pose proof (stopped_proof closest np_std curves min_flow p s pd F M HS Hpd Hrate) as E.
    destruct HS as (S1 & S2 & S3). assert (physical s) as HS by (repeat split; assumption).
    set (r := mkPumpResult s 0 None None (head_between (l_pressure s) pd (l_density s)) 0 0 0 pd (l_pressure s) None NO_FAILURE) in *.
    assert (l_mass s = 0) as M0.
    { apply Qcle_antisym; [|exact S2]. unfold requested in Hrate. destruct (Qclt_le_dec 0 (l_mass s)) as [C|C]; auto.
      exfalso. pose proof (div_pos _ _ C S1). qc_lra. }
    assert (0 < Qcmin (l_pressure s) pd) as PM by (qc_cases; assumption).
    assert (project_streams r = Ok [s; mkLiquid (l_pressure s) (l_density s) 0; mkLiquid (l_pressure s) (l_density s) 0;
        mkLiquid (l_pressure s) (l_density s) (l_mass s); mkLiquid (Qcmin (l_pressure s) pd) (l_density s) (l_mass s)]) as EP.
    { unfold project_streams, with_mass, with_pressure, r. cbn [pr_inlet pr_rate pr_discharge pr_required_discharge].
      replace (0 * l_density s) with 0 by ring. rewrite new_liquid_ok; [|assumption|apply Qcle_refl|assumption]. cbn [bind l_pressure l_density l_mass].
      rewrite new_liquid_ok; [|assumption|apply Qcle_refl|assumption]. cbn [bind].
      rewrite new_liquid_ok by assumption. cbn [bind]. rewrite new_liquid_ok by assumption. reflexivity. }
    exists r. do 4 eexists. split; [exact E|]. split.
    { unfold simulate_one. cbn [fst snd]. rewrite E. cbn [bind]. rewrite EP. reflexivity. }
    cbn [l_mass l_pressure l_density]. split.
    { unfold pump_propagate. rewrite E. cbn [bind]. unfold with_pressure, r. cbn [pr_discharge]. rewrite new_liquid_ok by assumption. reflexivity. }
    split. { rewrite M0. cbn [pr_recirculation r]. ring. }
    split; [reflexivity|]. split; [reflexivity|]. split; [reflexivity|]. split; [reflexivity|]. split; [reflexivity|]. split; [reflexivity|].
    split; [intros X; exfalso; qc_lra|]. split; [intros _; split; reflexivity|].
    intros t [<-|[<-|[<-|[<-|[<-|[]]]]]]; cbn [l_density]; (split; [reflexivity|]); try exact HS; repeat split; cbn [l_density l_mass l_pressure]; try assumption; apply Qcle_refl.
Qed.

(** a whole series of inputs *)
Theorem series_proof : forall closest np_std, (forall pts x y, 0 <= fst (closest pts x y)) ->
  forall curves min_flow p inputs, Forall proper_curve curves -> make_pump curves min_flow = Ok p ->
  Forall (fun i => physical (fst i) /\ 0 < snd i) inputs ->
  exists results, simulate closest np_std p inputs = Ok results /\
    Forall2 (fun i r => simulate_one closest np_std p i = Ok r) inputs results.
Proof.
  intros closest np_std D curves min_flow p inputs F M H. unfold simulate.
  destruct (mapM_total _ _ (simulate_one closest np_std p) inputs) as [rs E].
  { intros [s pd] Hi. rewrite Forall_forall in H. destruct (H _ Hi) as [A B].
    destruct (streams_proof closest np_std D curves min_flow p s pd F M A B) as (r & s1 & s2 & s3 & s4 & _ & E & _). eauto. }
  exists rs. split; [exact E|]. now apply mapM_Ok.
Qed.

(** ** how far the operating point is moved *)
Lemma interp_pair : forall h0 r0 h1 r1 x y, h0 < h1 -> interp1d_at [h0; h1] [r0; r1] r0 r1 x = Ok y -> value_at [(h0, r0); (h1, r1)] x y.
Proof.
  intros h0 r0 h1 r1 x y L E. apply (interp1d_ends_value [h0; h1] [r0; r1] x y); [reflexivity| |exact E].
  cbn. split; [|split; auto; intros q []]. intros q [<-|[]]. exact L.
Qed.
Lemma interp_same : forall h r x y, interp1d_at [h; h] [r; r] r r x = Ok y -> y = r.
Proof.
  intros h r x y E. destruct (interp1d_at_bounds [h; h] [r; r] r r x r r) as (y' & E' & L1 & L2); try (apply Qcle_refl); try reflexivity; [discriminate| |].
  - intros z [<-|[<-|[]]]; split; apply Qcle_refl.
  - assert (y' = y) by congruence. subst. now apply Qcle_antisym.
Qed.

Theorem rate_line_proof : forall closest np_std, (forall pts x y, 0 <= fst (closest pts x y)) ->
  forall curves min_flow p s pd r slow fast h0 r0 e0 h1 r1 e1, Forall proper_curve curves -> make_pump curves min_flow = Ok p ->
  physical s -> 0 < requested s -> pump_evaluate closest np_std p s pd = Ok r ->
  hd_error curves = Some slow -> last_opt curves = Some fast ->
  hd_error (cv_points slow) = Some (r0, h0, e0) -> hd_error (cv_points fast) = Some (r1, h1, e1) ->
  (h0 < h1 -> forall m, value_at [(h0, r0); (h1, r1)] (pr_required_head r) m ->
     pr_rate r = Qcmax (Qcmax (requested s) (pu_min_flow p)) m) /\
  (curves = [slow] -> pr_rate r = Qcmax (requested s) (pu_min_flow p)).
Proof.
  intros closest np_std D curves min_flow p s pd r slow fast h0 r0 e0 h1 r1 e1 F M HS Hrate E EH EF P0 P1.
  assert (0 < pd) as Hpd. { unfold pump_evaluate in E. destruct (Qcleb pd 0) eqn:X; [discriminate E|]. now apply Qcleb_gt. }
  destruct (evaluate_pieces closest np_std D curves min_flow p s pd F M HS Hpd Hrate) as (r' & E' & line & edge & top & right & e & speed & Q1 & Q2 & Q3 & Q4 & Q5 & Q6 & Q7 & Q8 & Q9 & Q10 & Q11).
  assert (r' = r) by congruence. subst r'.
  destruct (proj1 (make_pump_proof curves min_flow F) p M) as (N & Echart & _ & _ & _ & (c & q & Hc & Hq & Hle & Hmin)). rewrite Echart in *.
  assert (pr_required_head r = head_between (l_pressure s) pd (l_density s)) as ER by (rewrite Q11; reflexivity).
  unfold minimum_rate_at, slow_curve, fast_curve in Q1. rewrite EH, EF in Q1. cbn [of_option bind] in Q1.
  unfold curve_min_rate, cv_rate, cv_head in Q1.
  destruct (cv_points slow) as [|p0 ps0] eqn:EPS; [discriminate P0|]. destruct (cv_points fast) as [|p1 ps1] eqn:EPF; [discriminate P1|].
  cbn [hd_error] in P0, P1. injection P0 as ->. injection P1 as ->. cbn [map hd_error of_option bind p_rate p_head fst snd] in Q1.
  split.
  - intros L m V. rewrite Q2. f_equal. pose proof (interp_pair _ _ _ _ _ _ L Q1) as V'. rewrite ER in V.
    apply (value_at_unique [(h0, r0); (h1, r1)] (head_between (l_pressure s) pd (l_density s))); auto.
    cbn. split; [|split; auto; intros z []]. intros z [<-|[]]. exact L.
  - intros ES. assert (slow = fast) as <- by (rewrite ES in EF; cbn in EF; congruence). assert (h1 = h0 /\ r1 = r0) as [-> ->] by (split; congruence).
    apply interp_same in Q1. subst line. rewrite Q2.
    assert (r0 <= pu_min_flow p) as L0.
    { rewrite ES in Hc. destruct Hc as [<-|[]]. assert (q = q) by reflexivity.
      rewrite Forall_forall in F. destruct (curve_min_rate_ok slow) as (rm & Em & Im & Bm); [apply F; rewrite ES; now left|].
      unfold curve_min_rate, cv_rate in Em. rewrite EPS in Em. cbn in Em. injection Em as <-. apply Bm in Hq. unfold p_rate in Hq. cbn in Hq. qc_lra. }
    pose proof (qmax_r (requested s) (pu_min_flow p)). clear - L0 H. revert H. generalize (Qcmax (requested s) (pu_min_flow p)). intros z H.
    apply qmax_is_l. qc_lra.
Qed.

(** the lower edge of the chart: the slowest curve, continued to the right end of the fastest when that lies further right *)
Theorem head_edge_proof : forall closest np_std, (forall pts x y, 0 <= fst (closest pts x y)) ->
  forall curves min_flow p s pd r slow fast rs hs es rf hf ef, Forall proper_curve curves -> make_pump curves min_flow = Ok p ->
  physical s -> 0 < requested s -> pump_evaluate closest np_std p s pd = Ok r ->
  hd_error curves = Some slow -> last_opt curves = Some fast -> NoDup (cv_rate slow) ->
  last_opt (cv_points slow) = Some (rs, hs, es) -> last_opt (cv_points fast) = Some (rf, hf, ef) ->
  (rf <= rs -> forall m, value_at (head_points slow) (pr_rate r) m -> pr_head r = Qcmax (pr_required_head r) m) /\
  (rs < rf -> forall m, value_at (head_points slow ++ [(rf, hf)]) (pr_rate r) m -> pr_head r = Qcmax (pr_required_head r) m).
Proof.
  intros closest np_std D curves min_flow p s pd r slow fast rs hs es rf hf ef F M HS Hrate E EH EF ND P0 P1.
  assert (0 < pd) as Hpd. { unfold pump_evaluate in E. destruct (Qcleb pd 0) eqn:X; [discriminate E|]. now apply Qcleb_gt. }
  destruct (evaluate_pieces closest np_std D curves min_flow p s pd F M HS Hpd Hrate) as (r' & E' & line & edge & top & right & e & speed & Q1 & Q2 & Q3 & Q4 & Q5 & Q6 & Q7 & Q8 & Q9 & Q10 & Q11).
  assert (r' = r) by congruence. subst r'.
  destruct (proj1 (make_pump_proof curves min_flow F) p M) as (N & Echart & _). rewrite Echart in *.
  assert (pr_required_head r = head_between (l_pressure s) pd (l_density s)) as ER by (rewrite Q11; reflexivity).
  unfold minimum_head_at, slow_curve, fast_curve in Q3. rewrite EH, EF in Q3. cbn [of_option bind] in Q3.
  assert (forall (f : Qc * Qc * Qc -> Qc) l q, last_opt l = Some q -> last_opt (map f l) = Some (f q)) as LM.
  { clear. intros f [|x l] q E; [discriminate|]. cbn [map last_opt] in *. injection E as <-. f_equal. revert x. induction l as [|y l IH]; intros x; [reflexivity|].
    cbn [map]. rewrite !last_shift. apply IH. }
  unfold curve_max_rate in Q3. unfold cv_rate at 1 2 in Q3. rewrite (LM _ _ _ P0), (LM _ _ _ P1) in Q3. unfold cv_head at 1 in Q3. rewrite (LM _ _ _ P1) in Q3.
  cbn [of_option bind p_rate p_head fst snd] in Q3.
  assert (proper_curve slow) as PS by (rewrite Forall_forall in F; apply F; now apply hd_error_in).
  assert (rising (head_points slow)) as RS by (apply curve_rising; auto; apply PS).
  destruct (cv_lengths slow) as (L1 & L2 & _).
  split.
  - intros L m V. replace (Qcltb rs rf) with false in Q3 by (symmetry; now apply Qcltb_ge).
    apply interp1d_ends_value in Q3; [|congruence|exact RS]. rewrite Q4, ER. f_equal. eapply value_at_unique; eauto.
  - intros L m V. replace (Qcltb rs rf) with true in Q3 by (symmetry; now apply Qcltb_lt).
    assert (head_points slow ++ [(rf, hf)] = combine (cv_rate slow ++ [rf]) (cv_head slow ++ [hf])) as EC.
    { unfold head_points. assert (List.length (cv_rate slow) = List.length (cv_head slow)) as L' by congruence. revert L'. generalize (cv_rate slow) (cv_head slow). clear.
      induction l as [|a l IH]; intros [|b k] L; try discriminate L; [reflexivity|]. cbn. f_equal. apply IH. now injection L. }
    assert (rising (head_points slow ++ [(rf, hf)])) as R2.
    { assert (forall q, In q (head_points slow) -> fst q < rf) as B.
      { intros [a b] Hq. cbn [fst]. unfold head_points in Hq. apply in_combine_l in Hq.
        destruct (curve_max_rate_ok slow PS) as (rm & Em & _ & Bm). unfold curve_max_rate in Em. unfold cv_rate in Em. rewrite (LM _ _ _ P0) in Em. injection Em as <-.
        apply Bm in Hq. unfold p_rate in Hq. cbn in Hq. qc_lra. }
      clear - RS B. induction (head_points slow) as [|q l IH]; cbn.
      - split; auto. intros q [].
      - destruct RS as [RS1 RS2]. split; [|apply IH; [auto|intros z Hz; apply B; now right]].
        intros z Hz. apply in_app_or in Hz as [Hz|[<-|[]]]; [auto|]. cbn. apply B. now left. }
    apply interp1d_ends_value in Q3; [|rewrite !app_length; cbn; congruence|rewrite <- EC; exact R2]. rewrite <- EC in Q3.
    rewrite Q4, ER. f_equal. eapply value_at_unique; eauto.
Qed.

(** Property C42 (pumps): theorems. *)
From Coq Require Import PeanoNat.
From Verif Require Import QcTac Base BaseLemmas Num Interp_Model Interp_Spec Chart_Model Chart_Spec Chart_Proofs2 Pump_Model Pump_Spec
  Pump_Proofs Pump_Proofs2 Pump_Proofs3.
Local Open Scope list_scope.
Local Open Scope Qc_scope.

(** ** C42 Pump evaluation keeps mass and energy consistent

    In all theorems [closest] stands for shapely's closest point on a polyline, of which only a distance that is not
    negative is assumed, and [np_std] for numpy's standard deviation, of which nothing is assumed. *)

(** What chart curves, liquid streams and pumps are accepted. *)
Theorem C42_curve : forall rates heads effs speed,
  (forall c, make_curve rates heads effs speed = Ok c ->
     proper_curve c /\ cv_speed c = speed /\ Permutation (cv_points c) (combine (combine rates heads) effs)) /\
  ((exists c, make_curve rates heads effs speed = Ok c) <->
     (forall e, In e effs -> 0 <= e /\ e <= 1) /\ List.length rates = List.length heads /\
     List.length heads = List.length effs /\ (2 <= List.length rates)%nat) /\
  (forall e, make_curve rates heads effs speed = Err e -> e = ValidationError).
Proof. exact make_curve_proof. Qed.
Print Assumptions C42_curve.
Theorem C42_liquid : forall p d m,
  (forall s, new_liquid p d m = Ok s -> s = mkLiquid p d m /\ physical s) /\
  ((exists s, new_liquid p d m = Ok s) <-> 0 < d /\ 0 <= m /\ 0 < p).
Proof. exact new_liquid_proof. Qed.
Print Assumptions C42_liquid.
Theorem C42_accepted : forall curves min_flow, Forall proper_curve curves ->
  (forall p, make_pump curves min_flow = Ok p ->
     curves <> [] /\ pu_chart p = curves /\
     (forall c e, In c curves -> In e (cv_eff c) -> 0 < e) /\
     (forall m, min_flow = Some m -> pu_min_flow p = m) /\
     (min_flow = None -> exists c, In c curves /\ In (pu_min_flow p) (cv_rate c)) /\
     (exists c r, In c curves /\ In r (cv_rate c) /\ r <= pu_min_flow p /\
        forall c' r', In c' curves -> In r' (cv_rate c') -> r <= r')) /\
  ((exists p, make_pump curves min_flow = Ok p) <->
     curves <> [] /\ (forall c e, In c curves -> In e (cv_eff c) -> 0 < e) /\
     (forall m, min_flow = Some m -> exists c r, In c curves /\ In r (cv_rate c) /\ r <= m)) /\
  (forall e, make_pump curves min_flow = Err e -> e = ValidationError).
Proof. exact make_pump_proof. Qed.
Print Assumptions C42_accepted.

(** A running pump: every physical stream and positive discharge pressure is evaluated, with a consistent result. *)
Theorem C42_running : forall closest np_std, (forall pts x y, 0 <= fst (closest pts x y)) ->
  forall curves min_flow p s pd, Forall proper_curve curves -> make_pump curves min_flow = Ok p ->
  physical s -> 0 < pd -> 0 < requested s ->
  exists r e speed, pump_evaluate closest np_std p s pd = Ok r /\
    (* rates *)
    requested s <= pr_rate r /\ pu_min_flow p <= pr_rate r /\
    pr_recirculation r = pr_rate r - requested s /\ 0 <= pr_recirculation r /\
    (* heads and pressures *)
    pr_required_head r = head_between (l_pressure s) pd (l_density s) /\ pr_required_head r <= pr_head r /\
    pr_required_discharge r = pd /\ pd <= pr_discharge r /\
    pr_head r = head_between (l_pressure s) (pr_discharge r) (l_density s) /\
    choke_drop r = pr_discharge r - pd /\ 0 <= choke_drop r /\
    (* power *)
    pr_efficiency r = Some e /\ 0 < e /\ e <= 1 /\
    pr_power r = shaft_power (pr_rate r * l_density s) (pr_head r) e /\ pr_work r = Some (pr_head r / e) /\
    ((forall c h, In c curves -> In h (cv_head c) -> 0 <= h) -> 0 <= pr_power r) /\
    (* speed *)
    pr_speed r = Some speed /\ (exists c, In c curves /\ cv_speed c <= speed) /\ (exists c, In c curves /\ speed <= cv_speed c).
Proof. exact running_proof. Qed.
Print Assumptions C42_running.

(** A pump that is not running. *)
Theorem C42_stopped : forall closest np_std curves min_flow p s pd, Forall proper_curve curves -> make_pump curves min_flow = Ok p ->
  physical s -> 0 < pd -> requested s <= 0 ->
  pump_evaluate closest np_std p s pd =
    Ok (mkPumpResult s 0 None None (head_between (l_pressure s) pd (l_density s)) 0 0 0 pd (l_pressure s) None NO_FAILURE).
Proof. exact stopped_proof. Qed.
Print Assumptions C42_stopped.

(** A discharge pressure that is not positive is refused. *)
Theorem C42_refused : forall closest np_std p s pd, pd <= 0 -> pump_evaluate closest np_std p s pd = Err DomainError.
Proof. exact refused_proof. Qed.
Print Assumptions C42_refused.

(** Failure is reported exactly when the operating point is to the right of the chart or above the fastest curve. *)
Theorem C42_failure : forall closest np_std, (forall pts x y, 0 <= fst (closest pts x y)) ->
  forall curves min_flow p s pd fast r, Forall proper_curve curves -> make_pump curves min_flow = Ok p ->
  physical s -> 0 < requested s -> last_opt curves = Some fast -> NoDup (cv_rate fast) ->
  pump_evaluate closest np_std p s pd = Ok r ->
  reports (pr_failure r) (beyond_chart curves (pr_rate r)) (above_curve fast (pr_rate r) (pr_head r)) /\
  (pr_valid r = true <-> ~ beyond_chart curves (pr_rate r) /\ ~ above_curve fast (pr_rate r) (pr_head r)).
Proof. exact failure_proof. Qed.
Print Assumptions C42_failure.

(** The operating point is moved no further than necessary: the rate up to the minimum flow line, the head up to the lower
    edge. *)
Theorem C42_rate : forall closest np_std, (forall pts x y, 0 <= fst (closest pts x y)) ->
  forall curves min_flow p s pd r slow fast h0 r0 e0 h1 r1 e1, Forall proper_curve curves -> make_pump curves min_flow = Ok p ->
  physical s -> 0 < requested s -> pump_evaluate closest np_std p s pd = Ok r ->
  hd_error curves = Some slow -> last_opt curves = Some fast ->
  hd_error (cv_points slow) = Some (r0, h0, e0) -> hd_error (cv_points fast) = Some (r1, h1, e1) ->
  (h0 < h1 -> forall m, value_at [(h0, r0); (h1, r1)] (pr_required_head r) m ->
     pr_rate r = Qcmax (Qcmax (requested s) (pu_min_flow p)) m) /\
  (curves = [slow] -> pr_rate r = Qcmax (requested s) (pu_min_flow p)).
Proof. exact rate_line_proof. Qed.
Print Assumptions C42_rate.
Theorem C42_head : forall closest np_std, (forall pts x y, 0 <= fst (closest pts x y)) ->
  forall curves min_flow p s pd r slow fast rs hs es rf hf ef, Forall proper_curve curves -> make_pump curves min_flow = Ok p ->
  physical s -> 0 < requested s -> pump_evaluate closest np_std p s pd = Ok r ->
  hd_error curves = Some slow -> last_opt curves = Some fast -> NoDup (cv_rate slow) ->
  last_opt (cv_points slow) = Some (rs, hs, es) -> last_opt (cv_points fast) = Some (rf, hf, ef) ->
  (rf <= rs -> forall m, value_at (head_points slow) (pr_rate r) m -> pr_head r = Qcmax (pr_required_head r) m) /\
  (rs < rf -> forall m, value_at (head_points slow ++ [(rf, hf)]) (pr_rate r) m -> pr_head r = Qcmax (pr_required_head r) m).
Proof. exact head_edge_proof. Qed.
Print Assumptions C42_head.

(** The streams on the five connections of the pump process. *)
Theorem C42_streams : forall closest np_std, (forall pts x y, 0 <= fst (closest pts x y)) ->
  forall curves min_flow p s pd, Forall proper_curve curves -> make_pump curves min_flow = Ok p -> physical s -> 0 < pd ->
  exists r s1 s2 s3 s4,
    pump_evaluate closest np_std p s pd = Ok r /\
    simulate_one closest np_std p (s, pd) = Ok (r, [s; s1; s2; s3; s4]) /\
    pump_propagate closest np_std p (Some pd) s = Ok s3 /\
    (* the recirculated mass joins before the pump and leaves after it *)
    l_mass s1 = l_mass s + pr_recirculation r * l_density s /\ l_mass s2 = l_mass s1 /\ l_mass s3 = l_mass s /\ l_mass s4 = l_mass s /\
    (* pressures: raised by the pump only, lowered by the choke only *)
    l_pressure s1 = l_pressure s /\ l_pressure s2 = pr_discharge r /\ l_pressure s3 = pr_discharge r /\
    (0 < requested s -> l_pressure s4 = pd /\ l_pressure s3 - l_pressure s4 = choke_drop r) /\
    (requested s <= 0 -> l_pressure s3 = l_pressure s /\ l_pressure s4 = Qcmin (l_pressure s) pd) /\
    (* one density, and only physical streams *)
    (forall t, In t [s; s1; s2; s3; s4] -> l_density t = l_density s /\ physical t).
Proof. exact streams_proof. Qed.
Print Assumptions C42_streams.
Theorem C42_series : forall closest np_std, (forall pts x y, 0 <= fst (closest pts x y)) ->
  forall curves min_flow p inputs, Forall proper_curve curves -> make_pump curves min_flow = Ok p ->
  Forall (fun i => physical (fst i) /\ 0 < snd i) inputs ->
  exists results, simulate closest np_std p inputs = Ok results /\
    Forall2 (fun i r => simulate_one closest np_std p i = Ok r) inputs results.
Proof. exact series_proof. Qed.
Print Assumptions C42_series.

(** The reported maximum rate separates valid from failing evaluations. *)
Theorem C42_maximum : forall closest np_std, (forall pts x y, 0 <= fst (closest pts x y)) ->
  forall curves min_flow p s pd fast r maximum, Forall proper_curve curves -> make_pump curves min_flow = Ok p ->
  physical s -> 0 < requested s -> last_opt curves = Some fast -> NoDup (cv_rate fast) -> falling (head_points fast) ->
  pump_evaluate closest np_std p s pd = Ok r ->
  max_rate_per_day p (l_pressure s) pd (l_density s) = Ok maximum ->
  (exists h, In h (cv_head fast) /\ pr_required_head r <= h) ->
  (* above it the evaluation fails, when no other curve reaches further right *)
  ((forall c q, In c curves -> In q (cv_rate c) -> exists q', In q' (cv_rate fast) /\ q <= q') ->
   maximum < requested s * qz 24 -> pr_valid r = false) /\
  (* up to it a single-speed pump succeeds, when its minimum flow allows it *)
  (curves = [fast] -> requested s * qz 24 <= maximum -> pu_min_flow p * qz 24 <= maximum -> pr_valid r = true).
Proof. exact maximum_rate_proof. Qed.
Print Assumptions C42_maximum.

(** For an unreachable head it does not: no rate is valid, but the smallest rate of the fastest curve is reported. *)
Theorem C42_unreachable : forall closest np_std, (forall pts x y, 0 <= fst (closest pts x y)) ->
  forall curves min_flow p s pd fast r, Forall proper_curve curves -> make_pump curves min_flow = Ok p ->
  physical s -> 0 < requested s -> last_opt curves = Some fast -> NoDup (cv_rate fast) -> falling (head_points fast) ->
  pump_evaluate closest np_std p s pd = Ok r -> (forall h, In h (cv_head fast) -> h < pr_required_head r) ->
  pr_valid r = false /\
  exists m, max_rate_per_day p (l_pressure s) pd (l_density s) = Ok (m * qz 24) /\ In m (cv_rate fast) /\
    forall q, In q (cv_rate fast) -> m <= q.
Proof. exact unreachable_proof. Qed.
Print Assumptions C42_unreachable.

(** Power can be negative, as the heads of a chart are not checked. *)
Theorem C42_power_refuted : forall closest np_std, exists curves p s pd r,
  Forall proper_curve curves /\ make_pump curves None = Ok p /\ physical s /\ 0 < pd /\
  pump_evaluate closest np_std p s pd = Ok r /\ pr_power r < 0.
Proof. exact negative_power_refuted_proof. Qed.
Print Assumptions C42_power_refuted.

(** The older pump model. *)
Theorem C42_model : forall closest np_std bump, (forall pts x y, 0 <= fst (closest pts x y)) -> (forall x, x <= bump x) ->
  forall cs fast margin rate suction discharge density, cs <> [] -> Forall proper_curve cs ->
  (forall c e, In c cs -> In e (cv_eff c) -> 0 < e) -> last_opt cs = Some fast -> NoDup (cv_rate fast) ->
  0 < rate -> 0 < density ->
  let required := head_between suction discharge density in
  exists power status r h e, model_simulate closest np_std bump cs margin rate suction discharge density = Ok (power, required, status) /\
    rate / qz 24 <= r /\
    (required <= h \/ (value_at (head_points fast) r h /\ required <= h + margin)) /\
    reports status (beyond_chart cs r) (above_curve fast r h) /\
    0 < e /\ e <= 1 /\ power = shaft_power (density * r) h e /\
    ((forall c y, In c cs -> In y (cv_head c) -> 0 <= y) -> 0 <= power).
Proof. exact model_proof. Qed.
Print Assumptions C42_model.
Theorem C42_model_stopped : forall closest np_std bump cs margin rate suction discharge density, rate <= 0 ->
  model_simulate closest np_std bump cs margin rate suction discharge density = Ok (0, 0, NO_FAILURE).
Proof. exact model_stopped_proof. Qed.
Print Assumptions C42_model_stopped.
Theorem C42_model_series : forall closest np_std bump cs margin inputs out,
  model_evaluate closest np_std bump cs margin inputs = Ok out ->
  Forall2 (fun i o => let '(rate, suction, discharge, density) := i in
    exists head status, model_simulate closest np_std bump cs margin rate suction discharge density = Ok (fst o, head, status) /\
      (snd o = true <-> status = NO_FAILURE)) inputs out.
Proof. exact model_series_proof. Qed.
Print Assumptions C42_model_series.

(** A case: a pump with two speeds, recirculating. *)
Definition C42_slow : curve := mkCurve [(qz 10, qz 500, qc 1 2); (qz 30, qz 300, qc 3 5)] (qz 1000).
Definition C42_fast : curve := mkCurve [(qz 20, qz 2000, qc 1 2); (qz 60, qz 1000, qc 7 10)] (qz 2000).
Definition C42_closest (pts : list (Qc * Qc)) (x y : Qc) : Qc * (Qc * Qc) := (Qcabs (y - qz 3), (x, qz 3)).
Definition C42_std (l : list Qc) : Qc := 1.
Definition C42_stream : liquid := mkLiquid (qz 5) (qz 1000) (qz 12000).
Definition C42_pump : pump := mkPump [C42_slow; C42_fast] (qz 10).
Example C42_case_accepted : Forall proper_curve [C42_slow; C42_fast] /\ make_pump [C42_slow; C42_fast] None = Ok C42_pump /\
  physical C42_stream /\ 0 < requested C42_stream /\ (forall pts x y, 0 <= fst (C42_closest pts x y)) /\
  NoDup (cv_rate C42_fast) /\ falling (head_points C42_fast).
Proof.
  assert (forall c, In c [C42_slow; C42_fast] -> proper_curve c) as H.
  { intros c Hc. split; [destruct Hc as [<-|[<-|[]]]; cbn; lia|]. split.
    - destruct Hc as [<-|[<-|[]]]; cbn; (constructor; [constructor; [constructor|constructor]|constructor; [discriminate|constructor]]).
    - destruct Hc as [<-|[<-|[]]]; cbn; intros e [<-|[<-|[]]]; split; discriminate. }
  split; [now apply Forall_forall|]. split; [reflexivity|]. split; [repeat split; discriminate|]. split; [reflexivity|].
  split; [intros pts x y; unfold C42_closest; cbn [fst]; qc_cases; qc_lra|]. split.
  - cbn. constructor; [intros [E|[]]; discriminate E|constructor; [intros []|constructor]].
  - cbn. intros a ya b yb [Ea|[Ea|[]]] [Eb|[Eb|[]]] L;
      apply (f_equal fst) in Ea as Ea1; apply (f_equal snd) in Ea as Ea2; apply (f_equal fst) in Eb as Eb1; apply (f_equal snd) in Eb as Eb2;
      cbn [fst snd] in Ea1, Ea2, Eb1, Eb2; subst; try reflexivity; discriminate L.
Qed.
(** 12 m3/h are asked for from 5 to 15 bar: the line between the left ends asks for 40/3 m3/h at that head.  (Equality of
    rationals is decided by [Qceqb].) *)
Example C42_case_running : match pump_evaluate C42_closest C42_std C42_pump C42_stream (qz 15) with
  | Ok r => Qceqb (pr_rate r) (qc 40 3) && Qceqb (pr_recirculation r) (qc 4 3) && Qceqb (pr_required_head r) (qz 1000) &&
            Qceqb (pr_head r) (qz 1000) && Qceqb (pr_discharge r) (qz 15) && Qcltb 0 (pr_power r) && pr_valid r
  | Err _ => false end = true.
Proof. vm_compute. reflexivity. Qed.
(** At 80 m3/h it fails. *)
Example C42_case_failing : match pump_evaluate C42_closest C42_std C42_pump (mkLiquid (qz 5) (qz 1000) (qz 80000)) (qz 15) with
  | Ok r => match pr_failure r with ABOVE_RATE => true | _ => false end | Err _ => false end = true.
Proof. vm_compute. reflexivity. Qed.
(** The single-speed pump: the reported maximum rate for this head is 60 m3/h, or 1440 m3/day. *)
Example C42_case_maximum :
  match max_rate_per_day (mkPump [C42_fast] (qz 20)) (qz 5) (qz 15) (qz 1000) with Ok m => Qceqb m (qz 1440) | Err _ => false end = true /\
  Qcleb (head_between (qz 5) (qz 15) (qz 1000)) (qz 2000) && Qcleb (requested C42_stream * qz 24) (qz 1440) = true.
Proof. split; vm_compute; reflexivity. Qed.
(** From 5 to 30 bar no rate is possible; the pump reports 20 m3/h, or 480 m3/day. *)
Example C42_case_unreachable :
  match max_rate_per_day C42_pump (qz 5) (qz 30) (qz 1000) with Ok m => Qceqb m (qz 480) | Err _ => false end = true /\
  match pump_evaluate C42_closest C42_std C42_pump C42_stream (qz 30) with Ok r => negb (pr_valid r) && Qcltb (qz 2000) (pr_required_head r) | Err _ => false end = true.
Proof. split; vm_compute; reflexivity. Qed.
(** The older model on the same chart, with no head margin. *)
Example C42_case_model : match model_simulate C42_closest C42_std (fun x => x) [C42_slow; C42_fast] 0 (qz 288) (qz 5) (qz 15) (qz 1000) with
  | Ok (power, head, NO_FAILURE) => Qcltb 0 power && Qceqb head (qz 1000) | _ => false end = true.
Proof. vm_compute. reflexivity. Qed.

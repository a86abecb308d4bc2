(** Vocabulary for pump and compressor consumers. *)
From Coq Require Import String.
From Verif Require Import QcTac Base Time_Model Time_Spec Num Expr_Model Expr_Spec Units_Model Rates_Model Input_Model Interp_Model Energy_Model Emitters_Spec
  Chart_Model Chart_Spec Pump_Model Pump_Spec Consumer_Model Consumer_Spec Equipment_Model.
Local Open Scope list_scope.
Local Open Scope Qc_scope.

(** What a model asks of its machine: the expressions of the rates, the pressures and the density. *)
Record plan : Type := mkPlan {
  pl_machine : machine; pl_rates : list expression_input; pl_suction : option expression_input; pl_discharge : option expression_input;
  pl_intermediate : option expression_input; pl_density : option expression_input; pl_common : conditions_and_loss }.
Definition streams_plan (m : streams_model) : plan :=
  mkPlan (sm_machine m) (sm_rates m) (Some (sm_suction m)) (Some (sm_discharge m)) (sm_interstage m) None (sm_common m).
Definition compressor_plan (m : compressor_model) : plan :=
  mkPlan (cm_machine m) [cm_rate m] (cm_suction m) (cm_discharge m) None None (cm_common m).
Definition pump_plan (mc : machine) (m : pump_model) : plan :=
  mkPlan mc [pm_rate m] (Some (pm_suction m)) (Some (pm_discharge m)) None (Some (pm_density m)) (pm_common m).

Section Plan.
  Variable pow : Qc -> Qc -> Qc.
  Variables (vars : variables_dict) (n : nat) (g : list Qc).

  (** the rate per producing day in period number [k]: the expression gives it per calendar day, [g] is the regularity;
      zero where the model is not in use *)
  Definition rate_at (c : conditions_and_loss) (e : expression_input) (k : nat) (w : Qc) : Prop :=
    exists x b gk, input_at pow vars n e k x /\ in_use pow vars n c k b /\ nth_error g k = Some gk /\ stream_rate_means CALENDAR_DAY x b gk w.
  Definition optional_at (e : option expression_input) (k : nat) (v : option Qc) : Prop :=
    match e with Some e => exists x, v = Some x /\ input_at pow vars n e k x | None => v = None end.
  (** the point the machine is operated at in period number [k] *)
  Definition point_at (pl : plan) (k : nat) (pt : operating_point) : Prop :=
    Forall2 (fun e w => rate_at (pl_common pl) e k w) (pl_rates pl) (op_rates pt) /\
    optional_at (pl_suction pl) k (op_suction pt) /\ optional_at (pl_discharge pl) k (op_discharge pt) /\
    optional_at (pl_intermediate pl) k (op_intermediate pt) /\ optional_at (pl_density pl) k (op_density pt).
  (** something flows in period number [k] (per calendar day) *)
  Definition flowing (k : nat) (pt : operating_point) : Prop :=
    exists gk, nth_error g k = Some gk /\ 0 < fold_right Qcplus 0 (op_rates pt) * gk.
  (** pressures that make sense: no negative ones; suction, intermediate and discharge pressure are positive and in this order *)
  Definition sensible_pressures (pt : operating_point) : Prop :=
    (forall x, op_suction pt = Some x \/ op_discharge pt = Some x \/ op_intermediate pt = Some x -> 0 <= x) /\
    (forall s d, op_suction pt = Some s -> op_discharge pt = Some d ->
       0 < s /\ s <= d /\ forall i, op_intermediate pt = Some i -> s <= i /\ i <= d).
  (** what a consumer accepts in period number [k]: a machine of its kind, no negative rate, and, where something flows, sensible pressures *)
  Definition plan_acceptable (consumes : energy_usage_type) (pl : plan) (k : nat) : Prop :=
    mc_type (pl_machine pl) = consumes /\
    forall pt, point_at pl k pt -> (forall w, In w (op_rates pt) -> 0 <= w) /\ (flowing k pt -> sensible_pressures pt).
  (** the machine can be evaluated at the point *)
  Definition plan_works (pl : plan) (k : nat) : Prop := forall pt, point_at pl k pt -> exists o, mc_run (pl_machine pl) pt = Ok o.

  Definition supplied_num (x : num) (f : Qc) (y : num) : Prop := match x with Some q => supplied q f y | None => y = None end.
  (** the energy usage and the validity reported for period number [k]: those of the machine at the point, with the loss *)
  Definition plan_energy (pl : plan) (k : nat) (e : num) (v : bool) : Prop :=
    exists pt o f, point_at pl k pt /\ mc_run (pl_machine pl) pt = Ok o /\ lost pow vars n (pl_common pl) k f /\
      supplied_num (mo_energy o) f e /\ v = mo_valid o.
  Definition plan_power (pl : plan) (k : nat) (w : num) : Prop :=
    exists pt o f, point_at pl k pt /\ mc_run (pl_machine pl) pt = Ok o /\ lost pow vars n (pl_common pl) k f /\ supplied_num (mo_power o) f w.

  Definition all_evaluable (e : option expression_input) : Prop := match e with Some e => evaluable pow vars n e | None => True end.
  (** at least one stream, and every expression can be evaluated; an intermediate pressure lies between two others *)
  Definition plan_ok (pl : plan) : Prop :=
    pl_rates pl <> [] /\ (forall e, In e (pl_rates pl) -> evaluable pow vars n e) /\ all_evaluable (pl_suction pl) /\ all_evaluable (pl_discharge pl) /\
    all_evaluable (pl_intermediate pl) /\ all_evaluable (pl_density pl) /\ common_ok pow vars n (pl_common pl) /\
    (pl_intermediate pl <> None -> pl_suction pl <> None /\ pl_discharge pl <> None).
End Plan.

(** the result of a consumer: series over all periods of the run, energy usage in the unit of its kind and power in MW;
    there is a power if every model in force has one, none otherwise; where no model is in force the usage and the power
    are zero, and valid *)
Definition equipment_result {M} (ps : list period) (consumes : energy_usage_type) (data : temporal_data M) (target : period)
    (energy : M -> nat -> num -> bool -> Prop) (power : M -> nat -> num -> Prop) (has_power : M -> bool) (s : consumer_series) : Prop :=
  s_periods (cs_energy s) = ps /\ s_periods (cs_valid s) = ps /\
  s_unit (cs_energy s) = (match consumes with POWER => MEGA_WATT | FUEL => STANDARD_CUBIC_METER_PER_DAY end) /\
  List.length (s_values (cs_energy s)) = List.length ps /\ List.length (s_values (cs_valid s)) = List.length ps /\
  (forall k, (k < List.length ps)%nat -> exists e v, nth_error (s_values (cs_energy s)) k = Some e /\ nth_error (s_values (cs_valid s)) k = Some v /\
     (forall m, in_force_at ps data target k m -> energy m k e v) /\
     ((forall m, ~ in_force_at ps data target k m) -> e = Some 0 /\ v = true)) /\
  ((exists k m, in_force_at ps data target k m /\ has_power m = false) -> cs_power s = None) /\
  ((forall k m, in_force_at ps data target k m -> has_power m = true) ->
     exists pw, cs_power s = Some pw /\ s_periods pw = ps /\ s_unit pw = MEGA_WATT /\ List.length (s_values pw) = List.length ps /\
       forall k, (k < List.length ps)%nat -> exists w, nth_error (s_values pw) k = Some w /\
         (forall m, in_force_at ps data target k m -> power m k w) /\
         ((forall m, ~ in_force_at ps data target k m) -> w = Some 0)).

(** ** Pumps *)
(** charts the pump model is made for *)
Definition usable_chart (cs : list curve) : Prop :=
  cs <> [] /\ Forall proper_curve cs /\ (forall c e, In c cs -> In e (cv_eff c) -> 0 < e) /\
  forall fast, last_opt cs = Some fast -> NoDup (cv_rate fast).
(** the power (MW) of a pump that delivers [rate] (m3/day): nothing when stopped; otherwise the shaft power of a rate that is
    not smaller and a head that reaches the discharge pressure (up to the margin of the chart, on its fastest curve); valid if
    that point is in the chart *)
Definition pumped (cs : list curve) (margin rate suction discharge density power : Qc) (valid : bool) : Prop :=
  (rate <= 0 -> power = 0 /\ valid = true) /\
  (0 < rate -> exists fast r h e, last_opt cs = Some fast /\
     rate / qz 24 <= r /\
     (head_between suction discharge density <= h \/
      (value_at (head_points fast) r h /\ head_between suction discharge density <= h + margin)) /\
     0 < e /\ e <= 1 /\ power = shaft_power (density * r) h e /\
     (valid = true <-> ~ beyond_chart cs r /\ ~ above_curve fast r h)).
Section PumpConsumer.
  Variable pow : Qc -> Qc -> Qc.
  Variables (vars : variables_dict) (n : nat) (g : list Qc).
  Definition pump_at (m : pump_model) (k : nat) (rate suction discharge density : Qc) : Prop :=
    rate_at pow vars n g (pm_common m) (pm_rate m) k rate /\ input_at pow vars n (pm_suction m) k suction /\
    input_at pow vars n (pm_discharge m) k discharge /\ input_at pow vars n (pm_density m) k density.
  Definition pump_ok (m : pump_model) : Prop :=
    evaluable pow vars n (pm_rate m) /\ evaluable pow vars n (pm_suction m) /\ evaluable pow vars n (pm_discharge m) /\
    evaluable pow vars n (pm_density m) /\ common_ok pow vars n (pm_common m) /\ usable_chart (pm_curves m).
  (** accepted: no negative rate, and, where something flows, positive pressures of which the discharge pressure is not the lower *)
  Definition pump_acceptable (m : pump_model) (k : nat) : Prop :=
    forall rate suction discharge density gk, pump_at m k rate suction discharge density -> nth_error g k = Some gk ->
      0 <= rate /\ (0 < rate * gk -> 0 < suction /\ suction <= discharge).
  Definition pump_energy (m : pump_model) (k : nat) (e : num) (v : bool) : Prop :=
    exists rate suction discharge density power f, pump_at m k rate suction discharge density /\
      pumped (pm_curves m) (pm_margin m) rate suction discharge density power v /\
      lost pow vars n (pm_common m) k f /\ supplied power f e.
End PumpConsumer.

(** ** Compressors driven by a turbine *)
(** the load of the turbine when the compressor needs [power]: adjusted where there is any *)
Definition adjusted (factor constant power : Qc) (load : Qc) : Prop :=
  (0 < power -> load = power * factor + constant) /\ (power <= 0 -> load = power).

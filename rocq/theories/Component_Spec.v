(** Vocabulary for the consumers of a system. *)
From Coq Require Import String.
From Verif Require Import QcTac Base Num Interp_Model Interp_Spec Energy_Model Chart_Model Chart_Spec Pump_Spec Equipment_Model Equipment_Spec System_Model System_Spec Systems_Spec.
Local Open Scope list_scope.
Local Open Scope Qc_scope.

(** the point of one rate: a pump is given the density, a compressor is not *)
Definition operated_at (pumps : bool) (rate suction discharge density : Qc) (pt : operating_point) : Prop :=
  op_rates pt = [rate] /\ op_suction pt = Some suction /\ op_discharge pt = Some discharge /\ op_intermediate pt = None /\
  op_density pt = (if pumps then Some density else None).
(** what a machine in a system means: at the values it can be run at it gives its own answers, and its largest rate is [max],
    where that is a number *)
Definition meaning_of_machine (pumps : bool) (mc : machine) (max : Qc -> Qc -> Qc -> result num) (me : meaning) : Prop :=
  me_power me = mc_has_power mc /\
  (forall x s d rho, me_takes me x s d rho <-> exists pt o, operated_at pumps x s d rho pt /\ mc_run mc pt = Ok o) /\
  (forall x s d rho pt o, operated_at pumps x s d rho pt -> mc_run mc pt = Ok o ->
     pt_energy (me_point me x s d rho) = mo_energy o /\ pt_power (me_point me x s d rho) = mo_power o /\ pt_valid (me_point me x s d rho) = mo_valid o) /\
  (forall s d rho, me_max_known me s d rho <-> exists m, max s d rho = Ok (Some m)) /\
  (forall s d rho m, max s d rho = Ok (Some m) -> me_max me s d rho = m).

(** the largest rate (m3/day) of a pump: that of its fastest curve at the head asked for, read between the points of the curve;
    below all heads of the curve it is the largest rate of the curve, above all of them the smallest *)
Definition largest_pumped (cs : list curve) (suction discharge density m : Qc) : Prop :=
  let h := head_between suction discharge density in
  exists fast r, last_opt cs = Some fast /\ m = r * qz 24 /\
    ((in_range (map (fun p => (snd p, fst p)) (head_points fast)) h /\ interpolates (head_points fast) r h) \/
     (In r (cv_rate fast) /\ (forall q y, In (q, y) (head_points fast) -> h < y) /\ (forall q, In q (cv_rate fast) -> q <= r)) \/
     (In r (cv_rate fast) /\ (forall q y, In (q, y) (head_points fast) -> y < h) /\ (forall q, In q (cv_rate fast) -> r <= q))).
(** charts with a falling fastest curve *)
Definition falling_chart (cs : list curve) : Prop := forall fast, last_opt cs = Some fast -> falling (head_points fast).

(** what a pump of a system means: it takes every rate (with a positive density where it runs), with the power of [pumped], and
    its largest rate is known wherever the density is positive *)
Definition pump_means (cs : list curve) (margin : Qc) (me : meaning) : Prop :=
  me_power me = true /\
  (forall x s d rho, (0 < x -> 0 < rho) ->
     me_takes me x s d rho /\ exists power, pt_energy (me_point me x s d rho) = Some power /\ pt_power (me_point me x s d rho) = Some power /\
       pumped cs margin x s d rho power (pt_valid (me_point me x s d rho))) /\
  (forall s d rho, 0 < rho -> me_max_known me s d rho /\ largest_pumped cs s d rho (me_max me s d rho)).

(** ** Root finders: one that answers with a point of its interval; one that answers with a point whose value is at most
    [delta] from zero *)
Definition stays (root : Qc -> Qc -> (Qc -> result num) -> result Qc) : Prop :=
  forall lower upper f x, lower <= upper -> root lower upper f = Ok x -> lower <= x /\ x <= upper.
Definition finds (delta : Qc) (root : Qc -> Qc -> (Qc -> result num) -> result Qc) : Prop :=
  forall lower upper f x, root lower upper f = Ok x -> exists y, f x = Ok (Some y) /\ - delta <= y /\ y <= delta.
(** the power a turbine can deliver: its largest load, adjusted *)
Definition turbine_capacity (t : turbine) : Qc := tu_maximum_load t * tu_factor t - tu_constant t.
(** the compressor needs [power] for the rate [x] *)
Definition needs (c : compressor) (x suction discharge : Qc) (power : num) : Prop :=
  exists pt o, operated_at false x suction discharge 1 pt /\ co_run c pt = Ok o /\ co_power o = power.

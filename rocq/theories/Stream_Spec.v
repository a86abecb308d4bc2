(** Vocabulary for the properties of streams (C43). *)
From Coq Require Import List Bool ZArith Lia.
From Verif Require Import QcTac Num Search_Model Stream_Model.
Import ListNotations.
Local Open Scope Qc_scope.

(** A composition: one non-negative fraction for each of the eleven components, not all zero. *)
Definition proper_composition (c : composition) : Prop :=
  length c = 11%nat /\ (forall x, In x c -> 0 <= x) /\ 0 < qsum c.
(** Fraction of component [i] when the fractions are scaled to sum to one. *)
Definition mole_fraction (c : composition) (i : nat) : Qc := nth i c 0 / qsum c.
(** Average molar mass [kg/mol]. *)
Definition average_molar_mass (c : composition) : Qc :=
  qsum (map (fun i => mole_fraction c i * nth i molecular_weights 0) (seq 0 11)).

(** A stream as the fluid service makes them: proper composition, molar mass of that composition, mass rate not negative. *)
Definition proper_stream (s : stream) : Prop :=
  proper_composition (fm_composition (s_model s)) /\
  s_molar_mass s = average_molar_mass (fm_composition (s_model s)) /\
  0 <= s_mass_rate s.

(** Molar rate of component [i] in a stream of [mass_rate] with composition [c]. *)
Definition component_molar_rate (mass_rate : Qc) (c : composition) (i : nat) : Qc :=
  mass_rate / average_molar_mass c * mole_fraction c i.

(** Totals over a list of streams. *)
Definition total (f : stream -> Qc) (l : list stream) : Qc := qsum (map f l).
(** [p] is the lowest pressure among the streams. *)
Definition lowest_pressure (l : list stream) (p : Qc) : Prop :=
  (exists s, In s l /\ s_pressure s = p) /\ forall s, In s l -> p <= s_pressure s.

(** What flows out of mixing [streams]. *)
Definition is_mixture (streams : list stream) (m : fluid_model) (pressure enthalpy mass_rate : Qc) : Prop :=
  mass_rate = total s_mass_rate streams /\
  lowest_pressure streams pressure /\
  mass_rate * enthalpy = total (fun s => s_mass_rate s * s_enthalpy s) streams /\
  (forall s, In s streams -> fm_eos (s_model s) = fm_eos m) /\
  proper_composition (fm_composition m) /\ qsum (fm_composition m) = 1 /\
  forall i, (i < 11)%nat ->
    component_molar_rate mass_rate (fm_composition m) i =
    total (fun s => component_molar_rate (s_mass_rate s) (fm_composition (s_model s)) i) streams.

(** A thermodynamic backend whose flashes answer at the pressure (and temperature) asked for, whose gas density at standard
    conditions is positive and the same for every state of one fluid model, and which reports the molar mass of the composition. *)
Definition consistent_service (sv : service) : Prop :=
  (forall m, 0 < standard_density_of sv m) /\
  (forall m p t props, flash_pt sv m p t = Return props ->
     p_pressure props = p /\ p_temperature props = t /\ p_standard_density props = standard_density_of sv m /\
     p_molar_mass props = average_molar_mass (fm_composition m)) /\
  (forall m p h g props, flash_ph sv m p h g = Return props ->
     p_pressure props = p /\ p_standard_density props = standard_density_of sv m /\
     p_molar_mass props = average_molar_mass (fm_composition m)).

(** Model of fluid streams: compositions, fluids, the fluid service and the
    mixing of streams.  Floats are exact rationals; NaN and infinity, which a
    thermodynamic backend may return, are not modelled. *)
From Coq Require Import List Bool ZArith Lia.
From Verif Require Import QcTac Num Search_Model.
Import ListNotations.
Open Scope Qc_scope.

(** Sequencing of calls that may raise. *)
Definition obind {A B} (m : outcome A) (k : A -> outcome B) : outcome B :=
  match m with Return a => k a | Raise e => Raise e end.
Notation "'let!' x ':=' m 'in' k" := (obind m (fun x => k))
  (at level 200, x pattern, right associativity).

(** ** Composition *)

(** FluidComposition: the mole fractions in the order of the fields (water,
    nitrogen, CO2, methane, ethane, propane, i_butane, n_butane, i_pentane,
    n_pentane, n_hexane).
    src/libecalc/process/fluid_stream/fluid_model.py:27-39 *)
Definition composition : Type := list Qc.

(** Molar masses [kg/mol] in the same order.
    src/libecalc/process/fluid_stream/constants.py:30-97 *)
Definition molecular_weights : list Qc :=
  [qc 1801534 100000000; qc 2801340 100000000; qc 4400995 100000000; qc 1604246 100000000;
   qc 3006904 100000000; qc 4409562 100000000; qc 5812220 100000000; qc 5812220 100000000;
   qc 7214878 100000000; qc 7214878 100000000; qc 8617536 100000000].
Definition components : nat := length molecular_weights.

(** FluidComposition with the given values: negative fractions are refused.  The number of
    fields is fixed by the class and not checked here.
    src/libecalc/process/fluid_stream/fluid_model.py:41-44 *)
Definition mk_composition (values : list Qc) : outcome composition :=
  if existsb (fun v => Qcltb v 0) values then Raise CompositionError else Return values.

(** src/libecalc/process/fluid_stream/fluid_model.py:46-56 *)
Definition normalized (c : composition) : outcome composition :=
  let total := qsum c in
  if Qceqb total 0 then Raise CompositionError
  else mk_composition (map (fun v => v / total) c).

(** Components with fraction zero are skipped, which does not change the sum.
    src/libecalc/process/fluid_stream/fluid_model.py:82-94 *)
Definition molar_mass_mixture (c : composition) : outcome Qc :=
  let! n := normalized c in
  Return (qsum (map (fun p => if Qcltb 0 (fst p) then fst p * snd p else 0) (combine n molecular_weights))).

(** ** Fluids and streams *)

(** src/libecalc/process/fluid_stream/fluid_model.py:14-24 *)
Inductive eos_model : Type := SRK | PR | GERG_SRK | GERG_PR.
Definition eos_eqb (a b : eos_model) : bool :=
  match a, b with
  | SRK, SRK | PR, PR | GERG_SRK, GERG_SRK | GERG_PR, GERG_PR => true
  | _, _ => false
  end.
Record fluid_model : Type := mk_model { fm_eos : eos_model; fm_composition : composition }.

(** FluidProperties.
    src/libecalc/process/fluid_stream/fluid_properties.py:7-39 *)
Record properties : Type := mk_properties {
  p_temperature : Qc; p_pressure : Qc; p_density : Qc; p_enthalpy : Qc; p_z : Qc; p_kappa : Qc;
  p_vapor_fraction : Qc; p_molar_mass : Qc; p_standard_density : Qc }.

(** src/libecalc/process/fluid_stream/fluid.py:17-43 *)
Record fluid : Type := mk_fluid { f_model : fluid_model; f_properties : properties }.

(** FluidStream; [new_stream] is the constructor, which refuses a negative
    mass rate.
    src/libecalc/process/fluid_stream/fluid_stream.py:24-56 *)
Record stream : Type := mk_stream { s_fluid : fluid; s_mass_rate : Qc }.
Definition new_stream (f : fluid) (mass_rate : Qc) : outcome stream :=
  if Qcltb mass_rate 0 then Raise NegativeMassRate else Return (mk_stream f mass_rate).

(** The properties that delegate to the fluid.
    src/libecalc/process/fluid_stream/fluid_stream.py:58-122 *)
Definition s_model (s : stream) : fluid_model := f_model (s_fluid s).
Definition s_temperature (s : stream) : Qc := p_temperature (f_properties (s_fluid s)).
Definition s_pressure (s : stream) : Qc := p_pressure (f_properties (s_fluid s)).
Definition s_density (s : stream) : Qc := p_density (f_properties (s_fluid s)).
Definition s_molar_mass (s : stream) : Qc := p_molar_mass (f_properties (s_fluid s)).
Definition s_standard_density (s : stream) : Qc := p_standard_density (f_properties (s_fluid s)).
Definition s_enthalpy (s : stream) : Qc := p_enthalpy (f_properties (s_fluid s)).
Definition s_z (s : stream) : Qc := p_z (f_properties (s_fluid s)).
Definition s_kappa (s : stream) : Qc := p_kappa (f_properties (s_fluid s)).
Definition s_vapor_fraction (s : stream) : Qc := p_vapor_fraction (f_properties (s_fluid s)).

(** UnitConstants.HOURS_PER_DAY. src/libecalc/common/units.py:37 *)
Definition hours_per_day : Qc := qz 24.

(** The rates.  Division by a zero density, which raises in Python, gives 0
    here; the theorems assume positive densities.
    src/libecalc/process/fluid_stream/fluid_stream.py:124-132 *)
Definition volumetric_rate (s : stream) : Qc := s_mass_rate s / s_density s.
Definition standard_rate (s : stream) : Qc := s_mass_rate s / s_standard_density s * hours_per_day.

(** src/libecalc/process/fluid_stream/fluid_stream.py:134-143 *)
Definition with_mass_rate (s : stream) (mass_rate : Qc) : outcome stream := new_stream (s_fluid s) mass_rate.
(** src/libecalc/process/fluid_stream/fluid_stream.py:145-152 *)
Definition with_standard_rate (s : stream) (rate : Qc) : outcome stream :=
  new_stream (s_fluid s) (rate * s_standard_density s / hours_per_day).
(** src/libecalc/process/fluid_stream/fluid_stream.py:154-173 *)
Definition with_new_fluid (s : stream) (f : fluid) : outcome stream := new_stream f (s_mass_rate s).
(** src/libecalc/process/fluid_stream/fluid_stream.py:175-193 *)
Definition from_standard_rate (rate : Qc) (m : fluid_model) (p : properties) : outcome stream :=
  let f := mk_fluid m p in
  new_stream f (rate * p_standard_density p / hours_per_day).

(** ** The fluid service *)

(** What the thermodynamic backend computes: the two flashes, the gas phase of
    a fluid, and the gas density of a fluid model at standard conditions.  They
    are arbitrary functions that may raise.
    src/libecalc/process/fluid_stream/fluid_service.py:22-100,
    src/ecalc_neqsim_wrapper/fluid_service.py:226-252 (_get_standard_density) *)
Record service : Type := mk_service {
  flash_pt : fluid_model -> Qc -> Qc -> outcome properties;             (* pressure, temperature *)
  flash_ph : fluid_model -> Qc -> Qc -> option Qc -> outcome properties; (* pressure, enthalpy, temperature guess *)
  remove_liquid : fluid -> outcome fluid;
  standard_density_of : fluid_model -> Qc }.

(** src/ecalc_neqsim_wrapper/fluid_service.py:418-435 *)
Definition create_fluid (sv : service) (m : fluid_model) (pressure temperature : Qc) : outcome fluid :=
  let! p := flash_pt sv m pressure temperature in Return (mk_fluid m p).

(** src/ecalc_neqsim_wrapper/fluid_service.py:480-495, 497-512 *)
Definition standard_rate_to_mass_rate (sv : service) (m : fluid_model) (rate : Qc) : Qc :=
  rate * standard_density_of sv m / qz 24.
Definition mass_rate_to_standard_rate (sv : service) (m : fluid_model) (mass_rate : Qc) : Qc :=
  mass_rate * qz 24 / standard_density_of sv m.

(** src/ecalc_neqsim_wrapper/fluid_service.py:437-457 *)
Definition create_stream_from_standard_rate (sv : service) (m : fluid_model) (pressure temperature rate : Qc) : outcome stream :=
  let! f := create_fluid sv m pressure temperature in
  new_stream f (standard_rate_to_mass_rate sv m rate).
(** src/ecalc_neqsim_wrapper/fluid_service.py:459-478 *)
Definition create_stream_from_mass_rate (sv : service) (m : fluid_model) (pressure temperature mass_rate : Qc) : outcome stream :=
  let! f := create_fluid sv m pressure temperature in
  new_stream f mass_rate.

(** ** Mixing *)

Fixpoint mapO {A B} (f : A -> outcome B) (l : list A) : outcome (list B) :=
  match l with
  | [] => Return []
  | x :: l' => let! y := f x in let! ys := mapO f l' in Return (y :: ys)
  end.

(** min over a non-empty list *)
Fixpoint qmin (x : Qc) (l : list Qc) : Qc :=
  match l with [] => x | y :: l' => qmin (Qcmin x y) l' end.

(** Sum of the component rates over the streams, component by component
    (mix_component_molar_rate_dict).
    src/libecalc/process/fluid_stream/stream_mixer.py:84-89 *)
Definition add_rates (a b : list Qc) : list Qc := map (fun p => fst p + snd p) (combine a b).
Fixpoint component_rates (acc : list Qc) (l : list (stream * Qc)) : outcome (list Qc) :=
  match l with
  | [] => Return acc
  | (s, rate) :: l' =>
      let! n := normalized (fm_composition (s_model s)) in
      component_rates (add_rates acc (map (fun x => rate * x) n)) l'
  end.

(** StreamMixer.mix_streams.
    src/libecalc/process/fluid_stream/stream_mixer.py:38-111 *)
Definition mix_streams (sv : service) (streams : list stream) : outcome stream :=
  match streams with
  | [] => Raise EmptyStreamList
  | s0 :: rest =>
      let total_mass_rate := qsum (map s_mass_rate streams) in
      if Qceqb total_mass_rate 0 then Raise ZeroTotalMassRate
      else
        let reference := fm_eos (s_model s0) in
        if existsb (fun s => negb (eos_eqb (fm_eos (s_model s)) reference)) rest then Raise IncompatibleEoS
        else
          let outlet_pressure := qmin (s_pressure s0) (map s_pressure rest) in
          let temperature_guess := qsum (map (fun s => s_mass_rate s * s_temperature s) streams) / total_mass_rate in
          let outlet_enthalpy := qsum (map (fun s => s_mass_rate s * s_enthalpy s) streams) / total_mass_rate in
          let molar_rates := map (fun s => s_mass_rate s / s_molar_mass s) streams in
          let mix_total := qsum molar_rates in
          let! rates := component_rates (repeat 0 components) (combine streams molar_rates) in
          let! mixed := mk_composition (map (fun r => r / mix_total) rates) in
          let! mix_composition := normalized mixed in
          let mix_model := mk_model reference mix_composition in
          let! props := flash_ph sv mix_model outlet_pressure outlet_enthalpy (Some temperature_guess) in
          new_stream (mk_fluid mix_model props) total_mass_rate
  end.

(** Vocabulary for the property of the fluid service (C58): the calculations without caches. *)
From Coq Require Import List Bool ZArith.
From Verif Require Import QcTac Num Base Search_Model Stream_Model Cache_Model Flash_Model.
Import ListNotations.
Local Open Scope list_scope.
Local Open Scope Qc_scope.

Section Fresh.
Context {Sys : Type}.
Variable E : @engine Sys.

(** The NeqSim fluid of a model at standard conditions, and the gas density there. *)
Definition fresh_reference (m : fluid_model) : outcome Sys :=
  let! c := normalized (fm_composition m) in e_create E c (fm_eos m).
Definition fresh_density (m : fluid_model) : outcome Qc :=
  let! ref := fresh_reference m in
  if Qcleb pure_vapor_threshold (e_vapor_fraction E ref) then Return (e_density E ref)
  else let! gas := e_gas_phase E ref in Return (e_density E gas).

(** The properties of an engine state for model [m], taking the gas density at standard conditions from model [md]. *)
Definition fresh_properties (md m : fluid_model) (s : Sys) : outcome properties :=
  let! mm := molar_mass_mixture (fm_composition m) in
  let! d := fresh_density md in
  Return (read_properties E s mm d).

(** The gas phase of a fluid, from the reference fluid of model [mr]: engine state and composition. *)
Definition fresh_gas (mr : fluid_model) (f : fluid) : outcome (Sys * composition) :=
  let! ref := fresh_reference mr in
  let! s := e_pt E ref (p_pressure (f_properties f)) (p_temperature (f_properties f)) in
  let! gas := e_gas_phase E s in
  let! c := e_composition E gas in
  Return (gas, c).

(** The answer calculated anew, with the reference fluid of [mr] and the standard density of [md]. *)
Definition fresh_with (mr md : fluid_model) (r : request) : outcome answer :=
  match r with
  | FlashPT m p t =>
      let! ref := fresh_reference mr in
      let! s := e_pt E ref p t in
      let! props := fresh_properties md m s in
      Return (AProperties props)
  | FlashPH m p h g =>
      let! ref := fresh_reference mr in
      let! seeded := match g with Some t => e_pt E ref p t | None => Return ref end in
      let! s := e_ph E seeded p h in
      let! props := fresh_properties md m s in
      let! _ := validate_ph props h in
      Return (AProperties props)
  | RemoveLiquid f =>
      if Qcleb pure_vapor_threshold (p_vapor_fraction (f_properties f)) then Return (AFluid f)
      else
        let! gc := fresh_gas mr f in
        let m := mk_model (fm_eos (f_model f)) (snd gc) in
        let! props := fresh_properties md m (fst gc) in
        Return (AFluid (mk_fluid m props))
  | StandardDensity m => let! d := fresh_density md in Return (ADensity d)
  | ClearCaches => Return ADone
  end.

(** The fluid model a request is about. *)
Definition request_model (r : request) : option fluid_model :=
  match r with
  | FlashPT m _ _ | FlashPH m _ _ _ | StandardDensity m => Some m
  | RemoveLiquid f => Some (f_model f)
  | ClearCaches => None
  end.
(** Models that can play a role when the requests [asked] are made: theirs, and gas phases the engine reports. *)
Definition used_model (asked : list request) (m : fluid_model) : Prop :=
  (exists r, In r asked /\ request_model r = Some m) \/
  (exists f gas, In (RemoveLiquid f) asked /\ fm_eos m = fm_eos (f_model f) /\ e_composition E gas = Return (fm_composition m)).
(** Two models are not told apart: equation of state equal, normalised fractions equal to eight decimals. *)
Definition same_fluid (m m' : fluid_model) : Prop :=
  fm_eos m = fm_eos m' /\
  exists c c', normalized (fm_composition m) = Return c /\ normalized (fm_composition m') = Return c' /\ map eight_decimals c = map eight_decimals c'.
Definition stands_for (asked : list request) (m' m : fluid_model) : Prop := m' = m \/ (used_model asked m' /\ same_fluid m' m).

(** Two flashes are not told apart: same kind, fluids not told apart, pressure and temperature (or enthalpy) equal to six
    decimals; the temperature guess does not matter. *)
Definition same_flash (r r' : request) : Prop :=
  match r, r' with
  | FlashPT m p t, FlashPT m' p' t' => same_fluid m m' /\ six_decimals p = six_decimals p' /\ six_decimals t = six_decimals t'
  | FlashPH m p h _, FlashPH m' p' h' _ => same_fluid m m' /\ six_decimals p = six_decimals p' /\ six_decimals h = six_decimals h'
  | _, _ => False
  end.

(** [x] is a fresh answer to [r], up to which of the fluids not told apart the reference and the standard density are from. *)
Definition fresh_answer (asked : list request) (r : request) (x : outcome answer) : Prop :=
  exists mr md, x = fresh_with mr md r /\
    (forall m, request_model r = Some m -> stands_for asked mr m) /\
    match r with
    | RemoveLiquid f => forall gas c, fresh_gas mr f = Return (gas, c) -> stands_for asked md (mk_model (fm_eos (f_model f)) c)
    | _ => forall m, request_model r = Some m -> stands_for asked md m
    end.

(** The plain answer to a request, without any cache. *)
Definition plain_answer (r : request) : outcome answer :=
  match r with
  | RemoveLiquid f =>
      match fresh_gas (f_model f) f with
      | Return (_, c) => fresh_with (f_model f) (mk_model (fm_eos (f_model f)) c) r
      | Raise _ => fresh_with (f_model f) (f_model f) r
      end
  | _ => match request_model r with Some m => fresh_with m m r | None => Return ADone end
  end.

(** The requests made tell everything apart that the caches do not: no two different fluids, and no two different flashes. *)
Definition told_apart (asked : list request) : Prop :=
  (forall m m', used_model asked m -> used_model asked m' -> same_fluid m m' -> m = m') /\
  (forall r r', In r asked -> In r' asked -> same_flash r r' -> r = r').
End Fresh.

(** An engine whose flashes end at the pressure (and temperature) they were asked for. *)
Definition accurate {Sys} (E : @engine Sys) : Prop :=
  (forall s p t s', e_pt E s p t = Return s' -> e_pressure E s' = p /\ e_temperature E s' = t) /\
  (forall s p h s', e_ph E s p h = Return s' -> e_pressure E s' = p).
(** [x] and [y] differ by at most a millionth. *)
Definition within_millionth (x y : Qc) : Prop := Qcabs (x - y) <= qc 1 1000000.

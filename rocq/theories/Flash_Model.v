(** Model of NeqSimFluidService: the flashes with their two caches, called by
    any number of threads.  The NeqSim engine is an arbitrary record of
    functions that may raise.  NaN and infinity are not modelled. *)
From Coq Require Import List Bool ZArith Qround.
From Verif Require Import QcTac Num Base Search_Model Stream_Model Cache_Model.
Import ListNotations.
Local Open Scope list_scope.
Local Open Scope Qc_scope.

(** round(x, digits): nearest decimal, ties to the even one (Python's float
    round; the result is the exact decimal here, the nearest float there). *)
Definition nearest (x : Qc) : Z :=
  let f := Qfloor (this x) in
  match Qccompare (x - qz f) (qc 1 2) with
  | Lt => f
  | Gt => (f + 1)%Z
  | Eq => if Z.even f then f else (f + 1)%Z
  end.
Definition py_round (scale : Z) (x : Qc) : Qc := qz (nearest (x * qz scale)) / qz scale.

(** _PRESSURE_DECIMALS = _TEMPERATURE_DECIMALS = _ENTHALPY_DECIMALS = 6, _COMPOSITION_DECIMALS = 8.
    src/ecalc_neqsim_wrapper/fluid_service.py:32-37 *)
Definition six_decimals : Qc -> Qc := py_round 1000000.
Definition eight_decimals : Qc -> Qc := py_round 100000000.

(** What can be read off a NeqsimFluid (the last two fields are those FluidProperties adds).
    src/ecalc_neqsim_wrapper/thermo.py:229-306 *)
Section Flash.
Context {Sys : Type}.
Record engine : Type := mk_engine {
  e_create : composition -> eos_model -> outcome Sys;   (* NeqsimFluid.create_thermo_system at standard conditions, thermo.py:132-176 *)
  e_pt : Sys -> Qc -> Qc -> outcome Sys;                (* set_new_pressure_and_temperature, thermo.py:399-418 *)
  e_ph : Sys -> Qc -> Qc -> outcome Sys;                (* set_new_pressure_and_enthalpy, thermo.py:374-394 *)
  e_gas_phase : Sys -> outcome Sys;                     (* clone_gas_phase, thermo.py:356-366 *)
  e_composition : Sys -> outcome composition;           (* composition, thermo.py:271-296 *)
  e_temperature : Sys -> Qc; e_pressure : Sys -> Qc; e_density : Sys -> Qc; e_enthalpy : Sys -> Qc;
  e_z : Sys -> Qc; e_kappa : Sys -> Qc; e_vapor_fraction : Sys -> Qc }.
Variable E : engine.

(** Keys.  The composition key lists rounded fractions with their names in
    alphabetical order; here they are in the order of the fields.
    src/ecalc_neqsim_wrapper/fluid_service.py:44-49, 171, 187-228 *)
Definition ref_key : Type := list Qc * eos_model.
Inductive flash_key : Type :=
| KPT (c : list Qc) (e : eos_model) (p t : Qc)
| KPH (c : list Qc) (e : eos_model) (p h : Qc).
Fixpoint qlist_eqb (a b : list Qc) : bool :=
  match a, b with
  | [], [] => true
  | x :: a', y :: b' => Qceqb x y && qlist_eqb a' b'
  | _, _ => false
  end.
Definition ref_key_eqb (a b : ref_key) : bool := qlist_eqb (fst a) (fst b) && eos_eqb (snd a) (snd b).
Definition flash_key_eqb (a b : flash_key) : bool :=
  match a, b with
  | KPT c e p t, KPT c' e' p' t' | KPH c e p t, KPH c' e' p' t' => qlist_eqb c c' && eos_eqb e e' && Qceqb p p' && Qceqb t t'
  | _, _ => false
  end.

(** The calls. *)
Inductive request : Type :=
| FlashPT (m : fluid_model) (pressure temperature : Qc)
| FlashPH (m : fluid_model) (pressure enthalpy : Qc) (guess : option Qc)
| RemoveLiquid (f : fluid)
| StandardDensity (m : fluid_model)        (* _get_standard_density, behind the two rate conversions *)
| ClearCaches.                             (* CacheService.clear_all, on shutdown *)
Inductive answer : Type := AProperties (p : properties) | AFluid (f : fluid) | ADensity (d : Qc) | ADone.

(** A call in progress: what it does next with the caches. *)
Inductive act : Type :=
| Done (r : outcome answer)
| RefGet (k : ref_key) (cont : option Sys -> act)
| RefPut (k : ref_key) (v : Sys) (cont : act)
| FlashGet (k : flash_key) (cont : option properties -> act)
| FlashPut (k : flash_key) (v : properties) (cont : act)
| RefClear (cont : act)
| FlashClear (cont : act).

Definition attempt {A} (m : outcome A) (k : A -> act) : act :=
  match m with Return a => k a | Raise e => Done (Raise e) end.

(** _get_reference_fluid. src/ecalc_neqsim_wrapper/fluid_service.py:164-184 *)
Definition get_reference_fluid (m : fluid_model) (k : Sys -> act) : act :=
  attempt (normalized (fm_composition m)) (fun c =>
    let key := (map eight_decimals c, fm_eos m) in
    RefGet key (fun cached =>
      match cached with
      | Some ref => k ref
      | None => attempt (e_create E c (fm_eos m)) (fun ref => RefPut key ref (k ref))
      end)).

(** PURE_VAPOR_THRESHOLD. src/libecalc/process/fluid_stream/constants.py:28 *)
Definition pure_vapor_threshold : Qc := qc 9999 10000.

(** _get_standard_density. src/ecalc_neqsim_wrapper/fluid_service.py:230-256 *)
Definition get_standard_density (m : fluid_model) (k : Qc -> act) : act :=
  get_reference_fluid m (fun ref =>
    if Qcleb pure_vapor_threshold (e_vapor_fraction E ref) then k (e_density E ref)
    else attempt (e_gas_phase E ref) (fun gas => k (e_density E gas))).

(** _extract_properties. src/ecalc_neqsim_wrapper/fluid_service.py:258-283 *)
Definition read_properties (s : Sys) (molar_mass density : Qc) : properties :=
  mk_properties (e_temperature E s) (e_pressure E s) (e_density E s) (e_enthalpy E s) (e_z E s) (e_kappa E s)
    (e_vapor_fraction E s) molar_mass density.
Definition extract_properties (s : Sys) (m : fluid_model) (k : properties -> act) : act :=
  attempt (molar_mass_mixture (fm_composition m)) (fun mm =>
    get_standard_density m (fun d => k (read_properties s mm d))).

(** validate_ph_flash_result; the checks for finite values are vacuous for rationals.
    src/libecalc/process/fluid_stream/fluid_property_validation.py:9-76 *)
Definition ph_tolerance (target : Qc) : Qc := Qcmax (qz 10) (Qcabs target * qc 1 10000).
Definition vapor_tolerance : Qc := qc 1 100000.
Definition validate_ph (p : properties) (target : Qc) : outcome unit :=
  if Qcleb (p_pressure p) 0 then Raise FlashError
  else if Qcleb (p_temperature p) 0 then Raise FlashError
  else if Qcleb (p_density p) 0 then Raise FlashError
  else if Qcleb (p_z p) 0 then Raise FlashError
  else if Qcleb (p_kappa p) 0 then Raise FlashError
  else if Qcleb (p_standard_density p) 0 then Raise FlashError
  else if negb (Qcleb (- vapor_tolerance) (p_vapor_fraction p) && Qcleb (p_vapor_fraction p) (1 + vapor_tolerance)) then Raise FlashError
  else if Qcltb (ph_tolerance target) (Qcabs (p_enthalpy p - target)) then Raise FlashError
  else Return tt.

(** flash_pt. src/ecalc_neqsim_wrapper/fluid_service.py:285-318 *)
Definition flash_pt_act (m : fluid_model) (pressure temperature : Qc) : act :=
  attempt (normalized (fm_composition m)) (fun c =>
    let key := KPT (map eight_decimals c) (fm_eos m) (six_decimals pressure) (six_decimals temperature) in
    FlashGet key (fun cached =>
      match cached with
      | Some p => Done (Return (AProperties p))
      | None =>
          get_reference_fluid m (fun ref =>
          attempt (e_pt E ref pressure temperature) (fun flashed =>
          extract_properties flashed m (fun p => FlashPut key p (Done (Return (AProperties p))))))
      end)).

(** flash_ph. src/ecalc_neqsim_wrapper/fluid_service.py:320-380 *)
Definition flash_ph_act (m : fluid_model) (pressure enthalpy : Qc) (guess : option Qc) : act :=
  attempt (normalized (fm_composition m)) (fun c =>
    let key := KPH (map eight_decimals c) (fm_eos m) (six_decimals pressure) (six_decimals enthalpy) in
    FlashGet key (fun cached =>
      match cached with
      | Some p => Done (Return (AProperties p))
      | None =>
          get_reference_fluid m (fun ref =>
          let after seeded :=
            attempt (e_ph E seeded pressure enthalpy) (fun flashed =>
            extract_properties flashed m (fun p =>
            attempt (validate_ph p enthalpy) (fun _ => FlashPut key p (Done (Return (AProperties p)))))) in
          match guess with
          | Some t => attempt (e_pt E ref pressure t) after
          | None => after ref
          end)
      end)).

(** remove_liquid. src/ecalc_neqsim_wrapper/fluid_service.py:382-414 *)
Definition remove_liquid_act (f : fluid) : act :=
  if Qcleb pure_vapor_threshold (p_vapor_fraction (f_properties f)) then Done (Return (AFluid f))
  else
    get_reference_fluid (f_model f) (fun ref =>
    attempt (e_pt E ref (p_pressure (f_properties f)) (p_temperature (f_properties f))) (fun flashed =>
    attempt (e_gas_phase E flashed) (fun gas =>
    attempt (e_composition E gas) (fun c =>
      let m := mk_model (fm_eos (f_model f)) c in
      extract_properties gas m (fun p => Done (Return (AFluid (mk_fluid m p)))))))).

Definition act_of (r : request) : act :=
  match r with
  | FlashPT m p t => flash_pt_act m p t
  | FlashPH m p h g => flash_ph_act m p h g
  | RemoveLiquid f => remove_liquid_act f
  | StandardDensity m => get_standard_density m (fun d => Done (Return (ADensity d)))
  | ClearCaches => RefClear (FlashClear (Done (Return ADone)))
  end.

(** ** Threads.  One call of a cache method is one step (C44: under the lock
    they behave as if one after another); between two of them other threads
    may run. *)
Record worker : Type := mk_worker { w_todo : list request; w_current : option (request * act); w_answers : list (request * outcome answer) }.
Record state : Type := mk_state { refs : @lru ref_key Sys; flashes : @lru flash_key properties; workers : list worker }.

Definition raised {A} (e : error) : outcome A := match e with KeyError => Raise KeyErr | _ => Raise OtherProcessError end.
(** One step of a call: the caches and what it does next. *)
Definition act_step (a : act) (r : @lru ref_key Sys) (f : @lru flash_key properties) : @lru ref_key Sys * @lru flash_key properties * act :=
  match a with
  | Done x => (r, f, Done x)
  | RefGet k cont =>
      let (r', res) := call ref_key_eqb (Get k) r in
      (r', f, match res with Ok (OValue v) => cont v | Ok _ => Done (Raise OtherProcessError) | Err e => Done (raised e) end)
  | RefPut k v cont =>
      let (r', res) := call ref_key_eqb (Put k v) r in
      (r', f, match res with Ok _ => cont | Err e => Done (raised e) end)
  | FlashGet k cont =>
      let (f', res) := call flash_key_eqb (Get k) f in
      (r, f', match res with Ok (OValue v) => cont v | Ok _ => Done (Raise OtherProcessError) | Err e => Done (raised e) end)
  | FlashPut k v cont =>
      let (f', res) := call flash_key_eqb (Put k v) f in
      (r, f', match res with Ok _ => cont | Err e => Done (raised e) end)
  | RefClear cont => let (r', _) := call ref_key_eqb Clear r in (r', f, cont)
  | FlashClear cont => let (f', _) := call flash_key_eqb Clear f in (r, f', cont)
  end.

Definition set_worker (i : nat) (w : worker) (l : list worker) : list worker := firstn i l ++ w :: skipn (S i) l.

Inductive wstep : state -> state -> Prop :=
| wstep_begin : forall s i w r rest,
    nth_error (workers s) i = Some w -> w_current w = None -> w_todo w = r :: rest ->
    wstep s (mk_state (refs s) (flashes s) (set_worker i (mk_worker rest (Some (r, act_of r)) (w_answers w)) (workers s)))
| wstep_act : forall s i w r a r' f' a',
    nth_error (workers s) i = Some w -> w_current w = Some (r, a) -> (forall x, a <> Done x) ->
    act_step a (refs s) (flashes s) = (r', f', a') ->
    wstep s (mk_state r' f' (set_worker i (mk_worker (w_todo w) (Some (r, a')) (w_answers w)) (workers s)))
| wstep_end : forall s i w r x,
    nth_error (workers s) i = Some w -> w_current w = Some (r, Done x) ->
    wstep s (mk_state (refs s) (flashes s) (set_worker i (mk_worker (w_todo w) None (w_answers w ++ [(r, x)])) (workers s))).
Inductive wsteps : state -> state -> Prop :=
| wsteps_refl : forall s, wsteps s s
| wsteps_more : forall s s' s'', wsteps s s' -> wstep s' s'' -> wsteps s s''.

Definition wstart (ref_size flash_size : Z) (programs : list (list request)) : state :=
  mk_state (new_lru ref_size) (new_lru flash_size) (map (fun rs => mk_worker rs None []) programs).
End Flash.

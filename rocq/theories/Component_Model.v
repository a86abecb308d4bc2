(** Model of the consumers of a system (pumps and compressors) as components, and of the largest rate of a compressor
    that is driven by a turbine. *)
From Coq Require Import PeanoNat String.
From Verif Require Import QcTac Base BaseLemmas Num Interp_Model Energy_Model Consumer_Model Chart_Model Pump_Model Equipment_Model System_Model.
Local Open Scope list_scope.
Local Open Scope Qc_scope.

(** ** legacy_consumer/system/types.py:15-118, ConsumerSystemComponent: the machine is evaluated, and its largest rate
    found, period by period.  The density only goes to pumps.  The arrays of a system have one length and hold numbers;
    what NaN or arrays of different lengths lead to is not modelled ([numbers] refuses a NaN, [zip] cuts). *)
Definition numbers (l : list num) : result (list Qc) := mapM (of_option TypeError) l.
Definition component_densities (count : nat) (fd : density) : result (list Qc) :=
  match fd with One => Ok (repeat 1 count) | Per l => numbers l end.
Definition component_point (pumps : bool) (rate suction discharge density : Qc) : operating_point :=
  mkPoint [rate] (Some suction) (Some discharge) None (if pumps then Some density else None).
(** 31-65, get_max_standard_rate *)
Definition component_max_rate (max : Qc -> Qc -> Qc -> result num) (suction discharge : list num) (fd : density) : result (list num) :=
  do ss <- numbers suction;
  do ds <- numbers discharge;
  do rhos <- component_densities (List.length ss) fd;
  mapM (fun x => max (fst (fst x)) (snd (fst x)) (snd x)) (zip (zip ss ds) rhos).
(** 67-118, evaluate, with the energy usage, power and validity of the result of the machine *)
Definition component_evaluate (pumps : bool) (mc : machine) (rate suction discharge : list num) (fd : density) : result energy_result :=
  do xs <- numbers rate;
  do ss <- numbers suction;
  do ds <- numbers discharge;
  do rhos <- component_densities (List.length ss) fd;
  do os <- mapM (fun x => mc_run mc (component_point pumps (fst (fst (fst x))) (snd (fst (fst x))) (snd (fst x)) (snd x)))
                (zip (zip (zip xs ss) ds) rhos);
  Ok (mkER (map mo_energy os) (if mc_has_power mc then Some (map mo_power os) else None) (map mo_valid os)).
Definition machine_component (name : string) (pumps : bool) (mc : machine) (max : Qc -> Qc -> Qc -> result num) : consumer :=
  mkConsumer name (component_max_rate max) (component_evaluate pumps mc).

(** ** A pump: pump.py:40-91 and 113-168 *)
Definition pump_component (closest : list (Qc * Qc) -> Qc -> Qc -> Qc * (Qc * Qc)) (np_std : list Qc -> Qc) (bump : Qc -> Qc)
    (name : string) (curves : list curve) (margin : Qc) : consumer :=
  machine_component name true (pump_machine closest np_std bump curves margin)
    (fun suction discharge density => do r <- model_max_rate curves suction discharge density; Ok (Some r)).

(** ** compressor/core/base.py:72-133, CompressorWithTurbineModel.get_max_standard_rate, for one period.  [own] is the
    largest rate of the compressor by itself; [root] is find_root (numeric_methods.py:71-126).  A sampled compressor has no
    attribute _fluid_model: reading it (100 and 108) raises an AttributeError, here [OtherError].  That a compressor train
    is evaluated at the rate NaN without an exception, where its largest rate is NaN, is taken for granted. *)
Definition power_tolerance : Qc := qc 1 1000.
Definition remaining_capacity (t : turbine) (c : compressor) (suction discharge rate : Qc) : result num :=
  do o <- co_run c (component_point false rate suction discharge 1);
  if co_has_power c then Ok (nsub (co_power o) (Some (turbine_max_power t - power_tolerance))) else Ok (Some 0).
Definition turbine_max_rate (root : Qc -> Qc -> (Qc -> result num) -> result Qc) (t : turbine) (sampled : bool) (c : compressor)
    (own : Qc -> Qc -> result num) (suction discharge : Qc) : result num :=
  do top <- own suction discharge;
  if sampled then Err OtherError
  else match top with
       | None => Ok None
       | Some rate =>
           do o <- co_run c (component_point false rate suction discharge 1);
           match (if co_has_power c then co_power o else None) with
           | Some power =>
               if Qcltb (turbine_max_power t) power
               then do r <- root 0 rate (remaining_capacity t c suction discharge); Ok (Some r)
               else Ok (Some rate)
           | None => Ok (Some rate)
           end
       end.
(** compressors of a system, driven by electricity (or sampled) or by a turbine *)
Definition compressor_component (name : string) (c : compressor) (own : Qc -> Qc -> result num) : consumer :=
  machine_component name false (compressor_machine c) (fun suction discharge _ => own suction discharge).
Definition turbine_component (root : Qc -> Qc -> (Qc -> result num) -> result Qc) (name : string) (t : turbine) (factor constant : Qc)
    (sampled : bool) (c : compressor) (own : Qc -> Qc -> result num) : consumer :=
  machine_component name false (turbine_machine t factor constant c)
    (fun suction discharge _ => turbine_max_rate root t sampled c own suction discharge).

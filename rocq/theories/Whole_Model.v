(** Model of all energy usage models a consumer of a model file can have, so that a whole model is evaluated from its text
    without further arguments than the numerical libraries. *)
From Coq Require Import PeanoNat String.
From Verif Require Import QcTac Num Base BaseLemmas Time_Model Expr_Model Vars_Model Interp_Model Energy_Model Chart_Model Pump_Model Consumer_Model Equipment_Model
  System_Model Systems_Model Machines_Model.
Local Open Scope list_scope.

(** ** consumer_function_mapper.py:1656-1690: the energy usage models.  A compressor model refers to a machine; whether it
    is sampled is a property of the machine (1313-1323).  Several streams need a train (1160-1190). *)
Inductive energy_usage_model : Type :=
| UDirect (m : direct_model)
| UTabulated (m : tabulated_model)
| UPump (m : pump_model)
| UCompressor (k : machine_kind) (rate : expression_input) (suction discharge : option expression_input) (common : conditions_and_loss)
| UStreams (t : option (turbine * Qc * Qc)) (d : driven_train) (rates : list expression_input) (suction discharge : expression_input)
    (interstage : option expression_input) (common : conditions_and_loss)
| USystem (m : system_model).

Definition is_sampled (k : machine_kind) : bool :=
  match k with KElectric (KSampled _) | KTurbine _ _ _ (KSampled _) => true | _ => false end.
Definition train_machine (t : option (turbine * Qc * Qc)) (d : driven_train) : machine :=
  machine_of (match t with Some (t, factor, constant) => KTurbine t factor constant (KTrain d) | None => KElectric (KTrain d) end).

Section Whole.
  Variable np_pow : Qc -> Qc -> Qc.
  Variable interpolate_nd : tabular_data -> list num -> num.
  Variable closest : list (Qc * Qc) -> Qc -> Qc -> Qc * (Qc * Qc).
  Variable np_std : list Qc -> Qc.
  Variable bump : Qc -> Qc.

  (** 1656-1690, from_yaml_to_dto, for one model, and its evaluation *)
  Definition usage_of (consumes : energy_usage_type) (m : energy_usage_model) (regularity : list Qc) (vm : variables_map)
    : result function_result :=
    match m with
    | UDirect m => direct_evaluate np_pow consumes m regularity vm
    | UTabulated m => tabulated_evaluate np_pow interpolate_nd consumes m regularity vm
    | UPump m => pump_evaluate_model np_pow closest np_std bump consumes m regularity vm
    | UCompressor k rate suction discharge common =>
        compressor_evaluate np_pow consumes (mkCompressorModel (machine_of k) (is_sampled k) rate suction discharge common) regularity vm
    | UStreams t d rates suction discharge interstage common =>
        streams_evaluate np_pow consumes (mkStreams (train_machine t d) rates suction discharge interstage common) regularity vm
    | USystem m => do _ <- check_description m; system_evaluate np_pow consumes m regularity vm
    end.
End Whole.

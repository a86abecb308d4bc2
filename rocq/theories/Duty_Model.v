(** Model of the pump process simulations of a model file: presentation/yaml/mappers/pump_process_simulation_mapper.py and
    presentation/yaml/model.py.  The charts are those made from the facility inputs (C42, C50). *)
From Coq Require Import PeanoNat String.
From Verif Require Import QcTac Base Time_Model Num Expr_Model Vars_Model Units_Model Rates_Model Input_Model Interp_Model Energy_Model
  Chart_Model Pump_Model Consumer_Model Equipment_Model.
Local Open Scope list_scope.
Local Open Scope Qc_scope.

(** yaml_process_simulation.py:127-176, YamlPumpProcessSimulation, with the pump model it refers to (its curves and its head
    margin).  The name and the identities are not modelled. *)
Record duty : Type := mkDuty {
  du_curves : list curve; du_head_margin : Qc; du_minimum_flow : option Qc;
  du_rate : expression_input; du_pressure : expression_input; du_density : expression_input; du_discharge : expression_input }.

(** model.py:82, DEFAULT_START_TIME: 1 January 1900 *)
Definition DEFAULT_START : datetime := 59926608000%Z.
(** model.py:272-277, YamlModel.period (END is required) *)
Definition model_period (start : option datetime) (stop : datetime) : period :=
  mkPeriod (match start with Some s => s | None => DEFAULT_START end) stop.

(** pump_process_simulation_mapper.py:142-145, _require_positive (EcalcValidationException is [ValidationError]) *)
Definition require_positive (x : Qc) : result unit := if Qcleb x 0 then Err ValidationError else Ok tt.
(** 109-139, _to_operating_input *)
Definition to_operating_input (rate suction discharge density : Qc) : result (liquid * Qc) :=
  do _ <- require_positive suction;
  do _ <- require_positive density;
  do inlet <- liquid_from_volume rate suction density;
  if Qcltb 0 rate then
    do _ <- require_positive discharge;
    Ok (inlet, discharge)
  else Ok (inlet, if Qcltb 0 discharge then discharge else suction).
(** 91-104, the values zipped; a difference in length is a ValueError, raised when the shorter ones are used up *)
Fixpoint operating_inputs (rates suctions discharges densities : list Qc) : result (list (liquid * Qc)) :=
  match rates, suctions, discharges, densities with
  | [], [], [], [] => Ok []
  | r :: rs, s :: ss, d :: ds, rho :: rhos =>
      do i <- to_operating_input r s d rho;
      do rest <- operating_inputs rs ss ds rhos;
      Ok (i :: rest)
  | _, _, _, _ => Err ValueError
  end.

Section Duty.
  Variable np_pow : Qc -> Qc -> Qc.

  (** expression_time_series_pressure.py:21-44 without a mask *)
  Definition duty_pressures (vm : variables_map) (e : expression_input) : result (list Qc) :=
    do values <- vm_evaluate np_pow vm (input_tokens e);
    if existsb (fun x => Qcltb x 0) values then Err ValidationError else Ok values.

  (** 38-107 and 147-150, map: the pump, its input in every period, and the periods *)
  Definition map_duty (vm : variables_map) (d : duty) : result (pump * list (liquid * Qc) * list period) :=
    if negb (Qceqb (du_head_margin d) 0) then Err ValidationError
    else
      do p <- make_pump (du_curves d) (du_minimum_flow d);
      do target <- vm_period vm;
      do regularity <- regularity_values np_pow None target vm;
      do rates <- equipment_rate np_pow vm (mkCommon None None None) regularity (du_rate d);
      do suctions <- duty_pressures vm (du_pressure d);
      do discharges <- duty_pressures vm (du_discharge d);
      do densities <- vm_evaluate np_pow vm (input_tokens (du_density d));
      do inputs <- operating_inputs rates suctions discharges densities;
      if negb (Nat.eqb (List.length (vm_periods vm)) (List.length inputs)) then Err ValueError
      else Ok (p, inputs, vm_periods vm).

  (** model.py:185-199, get_pump_process_simulations, and 26-36: the variables for the period of the model *)
  Definition pump_process_simulations (vm : variables_map) (start : option datetime) (stop : datetime) (duties : list duty)
    : result (list (pump * list (liquid * Qc) * list period)) :=
    do sub <- get_subset_for_period vm (model_period start stop);
    mapM (map_duty sub) duties.
End Duty.

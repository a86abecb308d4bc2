(** Model of a whole model of an asset: how the installations, generator sets, consumers and venting emitters written in
    the model text become the energy model, how the energy model is evaluated, and what the totals are made of. *)
From Coq Require Import PeanoNat String.
From Verif Require Import QcTac Base Time_Model Num Expr_Model Vars_Model Units_Model Rates_Model Input_Model Interp_Model Energy_Model
  Emitters_Model Consumer_Model Graph_Model Totals_Model.
Local Open Scope list_scope.

(** ** What is written: presentation/yaml/yaml_types/components.
    The energy usage models are of any type [M] (direct, tabulated, pump, compressor, system: Consumer_Model,
    Equipment_Model, Systems_Model).  CABLE_LOSS, MAX_USAGE_FROM_SHORE and CATEGORY are left out: they change neither the
    fuel nor the power requirement (Energy_Model.power_production, Attributes_Model).  None for a fuel: not given, or an
    empty mapping. *)
Record yaml_electricity_consumer (M : Type) : Type := mkYE { ye_name : string; ye_model : temporal_data M }.
Record yaml_fuel_consumer (M : Type) : Type := mkYF {
  yf_name : string; yf_fuel : option (temporal_data string); yf_model : temporal_data M }.
Record yaml_generator_set (M : Type) : Type := mkYG {
  yg_name : string; yg_fuel : option (temporal_data string); yg_electricity2fuel : temporal_data string;
  yg_consumers : list (yaml_electricity_consumer M) }.
(** TYPE: DIRECT_EMISSION with its emissions, TYPE: OIL_VOLUME with the volume and its emissions *)
Inductive emitter : Type :=
| DirectEmitter (emissions : list (string * rate_input))
| OilEmitter (volume : rate_input) (emissions : list (string * list token)).
Record yaml_venting_emitter : Type := mkYV { yv_name : string; yv_emitter : emitter }.
Record yaml_installation (M : Type) : Type := mkYI {
  yi_name : string; yi_fuel : option (temporal_data string); yi_regularity : option (temporal_data expression_input);
  yi_export : option (temporal_data expression_input); yi_generator_sets : list (yaml_generator_set M);
  yi_fuel_consumers : list (yaml_fuel_consumer M); yi_venting_emitters : list yaml_venting_emitter }.
Arguments mkYE {M}. Arguments ye_name {M}. Arguments ye_model {M}.
Arguments mkYF {M}. Arguments yf_name {M}. Arguments yf_fuel {M}. Arguments yf_model {M}.
Arguments mkYG {M}. Arguments yg_name {M}. Arguments yg_fuel {M}. Arguments yg_electricity2fuel {M}. Arguments yg_consumers {M}.
Arguments mkYI {M}. Arguments yi_name {M}. Arguments yi_fuel {M}. Arguments yi_regularity {M}. Arguments yi_export {M}.
Arguments yi_generator_sets {M}. Arguments yi_fuel_consumers {M}. Arguments yi_venting_emitters {M}.

(** ** The components: energy_components/*/*.py, the fields that are used.
    A regularity is kept as written and as the values it evaluates to (domain/regularity.py:23-76). *)
Record regularity : Type := mkRegularity { rg_input : option (temporal_data expression_input); rg_values : list Qc }.
Record electricity_consumer (M : Type) : Type := mkEC {
  ec_id : node_id; ec_name : string; ec_regularity : regularity; ec_model : temporal_data M }.
Record fuel_consumer (M : Type) : Type := mkFC {
  fu_id : node_id; fu_name : string; fu_regularity : regularity; fu_fuel : list (period * fuel_type); fu_model : temporal_data M }.
Record generator_set_component (M : Type) : Type := mkGC {
  ge_id : node_id; ge_name : string; ge_regularity : regularity; ge_fuel : list (period * fuel_type);
  ge_models : list (period * generator_set); ge_consumers : list (electricity_consumer M) }.
Record venting_emitter : Type := mkVE { ve_id : node_id; ve_name : string; ve_regularity : regularity; ve_emitter : emitter }.
(** installation.py:55-76: [fuel_consumers] are the generator sets and then the fuel consumers *)
Record installation_component (M : Type) : Type := mkIC {
  ic_id : node_id; ic_name : string; ic_regularity : regularity; ic_export : rate_series;
  ic_fuel_consumers : list (generator_set_component M + fuel_consumer M); ic_venting_emitters : list venting_emitter }.
(** asset.py: the id of the Asset object is that of the model (model.py:153), not that of its node *)
Record asset (M : Type) : Type := mkAsset { as_id : node_id; as_name : string; as_installations : list (installation_component M) }.
Arguments mkEC {M}. Arguments ec_id {M}. Arguments ec_name {M}. Arguments ec_regularity {M}. Arguments ec_model {M}.
Arguments mkFC {M}. Arguments fu_id {M}. Arguments fu_name {M}. Arguments fu_regularity {M}. Arguments fu_fuel {M}. Arguments fu_model {M}.
Arguments mkGC {M}. Arguments ge_id {M}. Arguments ge_name {M}. Arguments ge_regularity {M}. Arguments ge_fuel {M}.
Arguments ge_models {M}. Arguments ge_consumers {M}.
Arguments mkIC {M}. Arguments ic_id {M}. Arguments ic_name {M}. Arguments ic_regularity {M}. Arguments ic_export {M}.
Arguments ic_fuel_consumers {M}. Arguments ic_venting_emitters {M}.
Arguments mkAsset {M}. Arguments as_id {M}. Arguments as_name {M}. Arguments as_installations {M}.

Inductive component (M : Type) : Type :=
| CElectricity (c : electricity_consumer M)
| CFuel (c : fuel_consumer M)
| CGenset (c : generator_set_component M)
| CVenting (c : venting_emitter)
| CInstallation (c : installation_component M)
| CAsset (c : asset M).
Arguments CElectricity {M}. Arguments CFuel {M}. Arguments CGenset {M}. Arguments CVenting {M}. Arguments CInstallation {M}.
Arguments CAsset {M}.
(** get_name of each *)
Definition get_name {M} (c : component M) : string :=
  match c with
  | CElectricity c => ec_name c | CFuel c => fu_name c | CGenset c => ge_name c
  | CVenting c => ve_name c | CInstallation c => ic_name c | CAsset c => as_name c
  end.
(** get_fuel (generator_set_component.py:254-255, fuel_consumer.py:124-125); None for a component without the method *)
Definition get_fuel {M} (c : component M) : option (list (period * fuel_type)) :=
  match c with CFuel c => Some (fu_fuel c) | CGenset c => Some (ge_fuel c) | _ => None end.
(** get_id of each *)
Definition get_id {M} (c : component M) : node_id :=
  match c with
  | CElectricity c => ec_id c | CFuel c => fu_id c | CGenset c => ge_id c
  | CVenting c => ve_id c | CInstallation c => ic_id c | CAsset c => as_id c
  end.

(** ** What has been registered while mapping: the next new id (uuid.uuid4(), assumed never to repeat) and the energy
    containers with their parents, in order (energy_container_energy_model_builder.py:42-47) *)
Record mapping (M : Type) : Type := mkMapping { mp_next : nat; mp_registered : list (node_id * option node_id * component M) }.
Arguments mkMapping {M}. Arguments mp_next {M}. Arguments mp_registered {M}.
(** A step of the mapping: a value or an exception; what has been registered stays registered in both cases. *)
Definition mapper (M A : Type) : Type := mapping M -> (A * mapping M) + (error * mapping M).
Definition returns {M A} (a : A) : mapper M A := fun s => inl (a, s).
Definition lift {M A} (r : result A) : mapper M A := fun s => match r with Ok a => inl (a, s) | Err e => inr (e, s) end.
Definition andthen {M A B} (m : mapper M A) (f : A -> mapper M B) : mapper M B :=
  fun s => match m s with inl p => f (fst p) (snd p) | inr e => inr e end.
Notation "'let*' x := m 'in' k" := (andthen m (fun x => k)) (at level 200, x name, m at level 100, k at level 200).
Definition new_id {M} : mapper M node_id := fun s => inl (NUuid (mp_next s), mkMapping (S (mp_next s)) (mp_registered s)).
Definition register {M} (id : node_id) (parent : option node_id) (c : component M) : mapper M unit :=
  fun s => inl (tt, mkMapping (mp_next s) (mp_registered s ++ [(id, parent, c)])).
(** a loop that appends what is not None *)
Fixpoint each {M A B} (f : A -> mapper M (option B)) (l : list A) : mapper M (list B) :=
  match l with
  | [] => returns []
  | a :: rest =>
      let* b := f a in
      let* bs := each f rest in
      returns (match b with Some b => b :: bs | None => bs end)
  end.

(** an exception that is caught and raised again as ModelValidationException *)
Definition refused {A} (r : result A) : result A := match r with Ok a => Ok a | Err _ => Err ValidationError end.

Section Mapper.
  Context {M : Type}.
  Variable np_pow : Qc -> Qc -> Qc.
  Variable vm : variables_map.
  Variable target : period.
  (** the fuels, and the tables of the generator set models, that can be referred to (yaml_reference_service.py); a
      reference to something else, or to a resource that does not exist, is refused *)
  Variable fuels : list (string * fuel_type).
  Variable tables : list (string * tabular_data).

  (** ** presentation/yaml/mappers/component_mapper.py *)

  (** 205-252, _resolve_fuel: the consumer's own fuel unless it is not given or empty; MissingFuelReference and
      InvalidReferenceException become ModelValidationException (286-287, 523-530) *)
  Definition own_or_default (own default : option (temporal_data string)) : option (temporal_data string) :=
    match own with
    | None | Some (TDPlain EmptyString) => default
    | Some _ => own
    end.
  Definition resolve_fuel (own default : option (temporal_data string)) : result (list (period * fuel_type)) :=
    match own_or_default own default with
    | None => Err ValidationError
    | Some fuel =>
        do resolved <- mapM (fun e => do f <- of_option ValidationError (dict_get String.eqb (snd e) fuels); Ok (fst e, f))
                            (define_time_model_for_period fuel target);
        refused (temporal_model_of_periods resolved)
    end.

  (** 254-266 and 287-300, the models of a generator set *)
  Definition generator_set_models (data : temporal_data string) : result (list (period * generator_set)) :=
    do models <- mapM (fun e => do t <- of_option ValidationError (dict_get String.eqb (snd e) tables);
                                do g <- make_generator_set t; Ok (fst e, g))
                      (define_time_model_for_period data target);
    refused (temporal_model_of_periods models).

  (** consumer_function_mapper.py:1656-1706, from_yaml_to_dto, as far as the periods are concerned: None without a model in
      the run.  The models themselves are mapped when they are evaluated here (Consumer_Model.model_results). *)
  Definition map_usage_model (data : temporal_data M) : result (option (temporal_data M)) :=
    match define_time_model_for_period data target with
    | [] => Ok None
    | adjusted => do _ <- refused (temporal_model_of_periods adjusted); Ok (Some data)
    end.

  (** 463-554 and 619-687, map_consumer and map_yaml_component for an electricity consumer: nothing is registered for a
      consumer without a model in the run *)
  Definition map_electricity_consumer (r : regularity) (parent : node_id) (y : yaml_electricity_consumer M)
    : mapper M (option (electricity_consumer M)) :=
    let* id := new_id in
    let* model := lift (map_usage_model (ye_model y)) in
    match model with
    | None => returns None
    | Some model =>
        let c := mkEC id (ye_name y) r model in
        let* _ := register id (Some parent) (CElectricity c) in
        returns (Some c)
    end.

  (** the same for a fuel consumer (505-546; fuel_consumer.py:50-55) *)
  Definition map_fuel_consumer (r : regularity) (default : option (temporal_data string)) (parent : node_id) (y : yaml_fuel_consumer M)
    : mapper M (option (fuel_consumer M)) :=
    let* id := new_id in
    let* model := lift (map_usage_model (yf_model y)) in
    match model with
    | None => returns None
    | Some model =>
        let* fuel := lift (resolve_fuel (yf_fuel y) default) in
        let* _ := lift (make_fuel_consumer fuel (define_time_model_for_period model target)) in
        let c := mkFC id (yf_name y) r fuel model in
        let* _ := register id (Some parent) (CFuel c) in
        returns (Some c)
    end.

  (** 268-365, map_generator_set (generator_set_component.py:58-62) *)
  Definition map_generator_set (r : regularity) (default : option (temporal_data string)) (parent : node_id) (y : yaml_generator_set M)
    : mapper M (option (generator_set_component M)) :=
    let* id := new_id in
    let* fuel := lift (resolve_fuel (yg_fuel y) default) in
    let* models := lift (generator_set_models (yg_electricity2fuel y)) in
    let* consumers := each (map_electricity_consumer r id) (yg_consumers y) in
    let* _ := lift (make_fuel_consumer fuel models) in
    let c := mkGC id (yg_name y) r fuel models consumers in
    let* _ := register id (Some parent) (CGenset c) in
    returns (Some c).

  (** 556-617, map_venting_emitter: what is wrong with an expression is found when it is evaluated here *)
  Definition map_venting_emitter (r : regularity) (parent : node_id) (y : yaml_venting_emitter) : mapper M (option venting_emitter) :=
    let* id := new_id in
    let c := mkVE id (yv_name y) r (yv_emitter y) in
    let* _ := register id (Some parent) (CVenting c) in
    returns (Some c).

  (** 367-461, map_installation *)
  Definition map_installation (parent : node_id) (y : yaml_installation M) : mapper M (option (installation_component M)) :=
    let* id := new_id in
    let* values := lift (regularity_values np_pow (yi_regularity y) target vm) in
    let r := mkRegularity (yi_regularity y) values in
    let* export := lift (hydrocarbon_export np_pow (yi_export y) values target vm) in
    let* generator_sets := each (map_generator_set r (yi_fuel y) id) (yi_generator_sets y) in
    let* fuel_consumers := each (map_fuel_consumer r (yi_fuel y) id) (yi_fuel_consumers y) in
    let* venting := each (map_venting_emitter r id) (yi_venting_emitters y) in
    let c := mkIC id (yi_name y) r export (map inl generator_sets ++ map inr fuel_consumers) venting in
    let* _ := register id (Some parent) (CInstallation c) in
    returns (Some c).

  (** 689-724, from_yaml_to_domain *)
  Definition map_asset (model_id : node_id) (name : string) (installations : list (yaml_installation M)) : mapper M (asset M) :=
    let* id := new_id in
    let* mapped := each (map_installation id) installations in
    let a := mkAsset model_id name mapped in
    let* _ := register id None (CAsset a) in
    returns a.
  (** model.py:147-153: the id of the model is made first *)
  Definition map_model (name : string) (installations : list (yaml_installation M)) : result (asset M * mapping M) :=
    match (let* model_id := new_id in map_asset model_id name installations) (mkMapping 0 []) with
    | inl mapped => Ok mapped
    | inr failed => Err (fst failed)
    end.
End Mapper.

(** ** presentation/yaml/model.py *)

(** the result of a component: core/result/results.py.  Generator sets also have a power capacity margin. *)
Record component_result : Type := mkCR {
  re_energy : series num; re_power : option (series num); re_valid : series bool; re_margin : option (series num) }.

Section Evaluate.
  Context {M : Type}.
  Variable np_pow : Qc -> Qc -> Qc.
  (** maps and evaluates one energy usage model on the part of the run it applies to *)
  Variable usage : energy_usage_type -> M -> list Qc -> variables_map -> result function_result.
  Variable vm : variables_map.
  Variable target : period.
  Notation registered := (list (node_id * option node_id * component M)).

  (** the nodes of EnergyContainerEnergyModelBuilder (energy_container_energy_model_builder.py:39-47) *)
  Definition nodes_of (l : registered) : list (node_id * component M) :=
    fold_left (fun d r => dict_set node_eqb (fst (fst r)) (snd r) d) l [].
  (** energy_container_energy_model_builder.py:12-13, get_energy_container *)
  Definition get_energy_container (l : registered) (id : node_id) : result (component M) :=
    of_option KeyError (dict_get node_eqb id (nodes_of l)).

  (** 96-111, Context.get_power_requirement: the results of the consumers; a consumer without a result is a KeyError.  The
      power of a consumer is always in megawatt (Consumer_Model.result_power). *)
  Definition context_power_requirement (g : graph) (results : list (node_id * component_result)) (id : node_id)
    : result (option (list num)) :=
    do consumers <- get_children g id;
    do rs <- mapM (fun c => of_option KeyError (dict_get node_eqb c results)) consumers;
    power_requirement (map (fun r => option_map s_values (re_power r)) rs).

  (** electricity_consumer.py:70-83 and fuel_consumer.py:84-97, evaluate_energy_usage, and the results of pumps and
      compressors from the domain models (model.py:461-468 and 566-629), which are made from the same evaluation of the
      same models: a consumer has a result because it has a model in the run *)
  Definition evaluate_usage (consumes : energy_usage_type) (r : regularity) (data : temporal_data M) : result component_result :=
    do s <- evaluate_consumer np_pow (usage consumes) (rg_input r) vm data target;
    match s with
    | None => Err AssertionError
    | Some s => Ok (mkCR (cs_energy s) (cs_power s) (cs_valid s) None)
    end.
  (** generator_set_component.py:105-183: the result as series over all the periods *)
  Definition evaluate_generator_set (c : generator_set_component M) (requirement : option (list num)) : result component_result :=
    do r <- evaluate_process_model vm (ge_models c) requirement;
    do valid <- make_series (vm_periods vm) (gr_valid r) NONE;
    do margin <- make_series (vm_periods vm) (gr_margin r) MEGA_WATT;
    do power <- make_series (vm_periods vm) (gr_power r) MEGA_WATT;
    do energy <- make_series (vm_periods vm) (gr_fuel r) STANDARD_CUBIC_METER_PER_DAY;
    Ok (mkCR energy (Some power) valid (Some margin)).

  (** 473-482, the body of the loop: None for a component without evaluate_energy_usage *)
  Definition evaluate_component (g : graph) (results : list (node_id * component_result)) (c : component M)
    : result (option component_result) :=
    match c with
    | CElectricity c => do r <- evaluate_usage POWER (ec_regularity c) (ec_model c); Ok (Some r)
    | CFuel c => do r <- evaluate_usage FUEL (fu_regularity c) (fu_model c); Ok (Some r)
    | CGenset c =>
        do requirement <- context_power_requirement g results (ge_id c);
        do r <- evaluate_generator_set c requirement; Ok (Some r)
    | _ => Ok None
    end.
  Fixpoint evaluate_containers (l : registered) (g : graph) (ids : list node_id) (results : list (node_id * component_result))
    : result (list (node_id * component_result)) :=
    match ids with
    | [] => Ok results
    | id :: rest =>
        do c <- get_energy_container l id;
        do r <- evaluate_component g results c;
        evaluate_containers l g rest (match r with Some r => dict_set node_eqb (get_id c) r results | None => results end)
    end.
  (** 453-482, evaluate_energy_usage: the components in the order of get_energy_components
      (energy_container_energy_model_builder.py:15-19, the nodes of the graph in order of registration) *)
  Definition evaluate_energy_usage (l : registered) : result (list (node_id * component_result)) :=
    do g <- build (map fst l);
    evaluate_containers l g (get_energy_containers g) [].
  (** 240-242, get_container_result *)
  Definition get_container_result (results : list (node_id * component_result)) (id : node_id) : result component_result :=
    of_option KeyError (dict_get node_eqb id results).

  (** ** After the evaluation: what Totals_Model adds up *)
  (** a component keeps the result it was given (model.py:468, generator_set_component.py:155, fuel_consumer.py:96) *)
  Definition consumer_result_of (results : list (node_id * component_result)) (id : node_id) : result consumer_result :=
    do r <- get_container_result results id;
    Ok (mkConsumerResult (vm_periods vm) (re_energy r) (re_power r)).
  (** generator_set_component.py:246-264 and fuel_consumer.py:99-135 (the same code), installation.py:112-151 *)
  Definition fuel_component_of (results : list (node_id * component_result)) (c : generator_set_component M + fuel_consumer M)
    : result fuel_component :=
    match c with
    | inl c =>
        let reg := rg_values (ge_regularity c) in
        do r <- consumer_result_of results (ge_id c);
        do fuel <- fuel_consumption vm reg r;
        do emissions <- fuel_consumer_emissions np_pow vm reg (ge_fuel c) r;
        do powers <- mapM (fun e => do r <- consumer_result_of results (ec_id e);
                                    electricity_consumer_power vm (rg_values (ec_regularity e)) r) (ge_consumers c);
        Ok (mkFuelComponent fuel emissions (Electrical powers))
    | inr c =>
        let reg := rg_values (fu_regularity c) in
        do r <- consumer_result_of results (fu_id c);
        do fuel <- fuel_consumption vm reg r;
        do emissions <- fuel_consumer_emissions np_pow vm reg (fu_fuel c) r;
        do power <- fuel_consumer_power vm reg r;
        Ok (mkFuelComponent fuel emissions (Mechanical power))
    end.
  (** venting_emitter.py:147-151 *)
  Definition emitter_emissions (c : venting_emitter) : result (list (string * rate_series)) :=
    let reg := rg_values (ve_regularity c) in
    match ve_emitter c with
    | DirectEmitter es => direct_get_emissions np_pow vm reg es
    | OilEmitter volume es => oil_get_emissions np_pow vm reg volume es
    end.
  Definition installation_of (results : list (node_id * component_result)) (c : installation_component M) : result installation :=
    do components <- mapM (fuel_component_of results) (ic_fuel_consumers c);
    do venting <- mapM emitter_emissions (ic_venting_emitters c);
    Ok (mkInstallation components venting (ic_export c)).
  (** json_result/mapper.py:1430-1522 *)
  Definition report (a : asset M) (results : list (node_id * component_result)) : result totals :=
    do installations <- mapM (installation_of results) (as_installations a);
    asset_totals (vm_periods vm) installations.
End Evaluate.

(** Vocabulary for C112 to C114: what the text of a model says about its components, and what can be seen of the energy
    model through its interface. *)
From Coq Require Import PeanoNat String.
From Verif Require Import QcTac Base Time_Model Time_Spec Num Expr_Model Vars_Model Units_Model Rates_Model Input_Model
  Interp_Model Energy_Model Emitters_Model Consumer_Model Graph_Model Asset_Model.
Local Open Scope list_scope.

(** A container as it is seen: its name, its fuel and its result if it has one, and the containers below it. *)
Inductive shown : Type :=
| Shown (name : string) (fuel : option (list (period * fuel_type))) (result : option component_result) (below : list shown).

(** [shows … id s]: asking the energy model and the evaluated model about [id], and about everything below it, gives [s] *)
Inductive shows {M} (l : list (node_id * option node_id * component M)) (g : graph) (results : list (node_id * component_result))
  : node_id -> shown -> Prop :=
| shows_result : forall id c r ids below,
    get_energy_container l id = Ok c -> get_children g id = Ok ids -> get_container_result results id = Ok r ->
    Forall2 (shows l g results) ids below -> shows l g results id (Shown (get_name c) (get_fuel c) (Some r) below)
| shows_nothing : forall id c ids below,
    get_energy_container l id = Ok c -> get_children g id = Ok ids -> get_container_result results id = Err KeyError ->
    Forall2 (shows l g results) ids below -> shows l g results id (Shown (get_name c) (get_fuel c) None below).

(** [kept P l m]: [m] are the elements of [l] with property [P], in their order *)
Inductive kept {A} (P : A -> Prop) : list A -> list A -> Prop :=
| kept_nil : kept P [] []
| kept_in : forall a l m, P a -> kept P l m -> kept P (a :: l) (a :: m)
| kept_out : forall a l m, ~ P a -> kept P l m -> kept P (a :: l) m.

(** the model applies at some time of the run *)
Definition in_run {M} (target : period) (data : temporal_data M) : Prop :=
  exists t m, In_period t target /\ data_in_force data t m.

Fixpoint qsum_of (l : list Qc) : Qc := match l with [] => 0%Qc | x :: l => (x + qsum_of l)%Qc end.

(** the power in the result of what is seen, if there is one *)
Definition power_shown (s : shown) : option (list num) :=
  match s with Shown _ _ (Some r) _ => option_map s_values (re_power r) | _ => None end.
(** [total] is the sum of the powers in every period where they are numbers *)
Definition powers_add (below : list shown) (total : list num) : Prop :=
  forall k xs, Forall2 (fun s x => match power_shown s with Some v => nth_error v k = Some (Some x) | None => x = 0%Qc end) below xs ->
    nth_error total k = Some (Some (qsum_of xs)).

Section Expected.
  Context {M : Type}.
  Variable np_pow : Qc -> Qc -> Qc.
  Variable usage : energy_usage_type -> M -> list Qc -> variables_map -> result function_result.
  Variable vm : variables_map.
  Variable target : period.
  Variable fuels : list (string * fuel_type).
  Variable tables : list (string * tabular_data).

  (** the result of a consumer evaluated by itself, with the regularity of its installation (C100 to C111) *)
  Definition alone (consumes : energy_usage_type) (i : yaml_installation M) (data : temporal_data M) (r : component_result) : Prop :=
    exists s, evaluate_consumer np_pow (usage consumes) (yi_regularity i) vm data target = Ok (Some s) /\
      r = mkCR (cs_energy s) (cs_power s) (cs_valid s) None.

  (** the fuel of a component: its own if one is written, otherwise that of the installation; at every time of the run the
      fuel of that name *)
  Definition written_fuel (own default : option (temporal_data string)) (data : temporal_data string) : Prop :=
    (own = Some data /\ data <> TDPlain EmptyString) \/
    ((own = None \/ own = Some (TDPlain EmptyString)) /\ default = Some data).
  Definition uses_fuel (own default : option (temporal_data string)) (tm : list (period * fuel_type)) : Prop :=
    exists data, written_fuel own default data /\
      forall t f, in_force tm t f <-> In_period t target /\ exists name, data_in_force data t name /\ dict_get String.eqb name fuels = Some f.

  Definition consumer_shown (i : yaml_installation M) (y : yaml_electricity_consumer M) (s : shown) : Prop :=
    exists r, alone POWER i (ye_model y) r /\ s = Shown (ye_name y) None (Some r) [].
  Definition fuel_consumer_shown (i : yaml_installation M) (y : yaml_fuel_consumer M) (s : shown) : Prop :=
    exists r fuel, alone FUEL i (yf_model y) r /\ uses_fuel (yf_fuel y) (yi_fuel i) fuel /\ s = Shown (yf_name y) (Some fuel) (Some r) [].

  (** what a generator set makes of the power [total]: in every period in which the table [name] applies, the fuel and the
      margin of that table at that power (C27_generator_set), and valid when the margin is not negative *)
  Definition supplies (data : temporal_data string) (total : list num) (r : component_result) : Prop :=
    (exists power, re_power r = Some power /\ s_periods power = vm_periods vm /\ s_values power = total /\ s_unit power = MEGA_WATT) /\
    s_periods (re_energy r) = vm_periods vm /\ List.length (s_values (re_energy r)) = List.length (vm_periods vm) /\
    s_unit (re_energy r) = STANDARD_CUBIC_METER_PER_DAY /\
    s_periods (re_valid r) = vm_periods vm /\ List.length (s_values (re_valid r)) = List.length (vm_periods vm) /\
    forall k p t name table gs x, nth_error (vm_periods vm) k = Some p -> In_period t p -> In_period t target ->
      data_in_force data t name -> dict_get String.eqb name tables = Some table -> make_generator_set table = Ok gs ->
      nth_error total k = Some (Some x) ->
      nth_error (s_values (re_energy r)) k = Some (evaluate_fuel_usage gs (Some x)) /\
      exists margin q, re_margin r = Some margin /\ s_periods margin = vm_periods vm /\ nth_error (s_values margin) k = Some (Some q) /\
        evaluate_power_capacity_margin gs (Some x) = Some q /\
        (nth_error (s_values (re_valid r)) k = Some true <-> (0 <= q)%Qc).

  (** a generator set has below it its consumers that run, and supplies their power *)
  Definition generator_set_shown (i : yaml_installation M) (y : yaml_generator_set M) (s : shown) : Prop :=
    exists running below total r fuel,
      kept (fun c => in_run target (ye_model c)) (yg_consumers y) running /\ Forall2 (consumer_shown i) running below /\ below <> [] /\
      powers_add below total /\ List.length total = List.length (vm_periods vm) /\ supplies (yg_electricity2fuel y) total r /\
      uses_fuel (yg_fuel y) (yi_fuel i) fuel /\ s = Shown (yg_name y) (Some fuel) (Some r) below.

  Definition emitter_shown (y : yaml_venting_emitter) (s : shown) : Prop := s = Shown (yv_name y) None None [].

  (** an installation: its generator sets, its fuel consumers that run, its venting emitters *)
  Definition installation_shown (i : yaml_installation M) (s : shown) : Prop :=
    exists running generator_sets fuel_consumers emitters,
      Forall2 (generator_set_shown i) (yi_generator_sets i) generator_sets /\
      kept (fun c => in_run target (yf_model c)) (yi_fuel_consumers i) running /\ Forall2 (fuel_consumer_shown i) running fuel_consumers /\
      Forall2 emitter_shown (yi_venting_emitters i) emitters /\
      s = Shown (yi_name i) None None (generator_sets ++ fuel_consumers ++ emitters).

  (** why the evaluation of the model may fail: a consumer that runs fails with this error by itself, or (EcalcError) the
      consumers of a generator set that run have no power *)
  Definition fails_alone (consumes : energy_usage_type) (i : yaml_installation M) (data : temporal_data M) (e : error) : Prop :=
    in_run target data /\ evaluate_consumer np_pow (usage consumes) (yi_regularity i) vm data target = Err e.
  Definition fails (i : yaml_installation M) (e : error) : Prop :=
    (exists g c, In g (yi_generator_sets i) /\ In c (yg_consumers g) /\ fails_alone POWER i (ye_model c) e) \/
    (exists c, In c (yi_fuel_consumers i) /\ fails_alone FUEL i (yf_model c) e) \/
    (e = OtherError /\ exists g running results, In g (yi_generator_sets i) /\
       kept (fun c => in_run target (ye_model c)) (yg_consumers g) running /\
       Forall2 (fun c r => alone POWER i (ye_model c) r /\ re_power r = None) running results).

  (** ** Which models are accepted *)
  (** the fuel written for a component, for all times of the run at which the component has a model: known, and there *)
  Definition fuelled {A} (own default : option (temporal_data string)) (data : temporal_data A) : Prop :=
    exists fuel, written_fuel own default fuel /\
      (forall t name, In_period t target -> data_in_force fuel t name -> exists f, dict_get String.eqb name fuels = Some f) /\
      (forall t m, In_period t target -> data_in_force data t m -> exists name, data_in_force fuel t name).
  Definition generator_set_accepted (i : yaml_installation M) (y : yaml_generator_set M) : Prop :=
    in_run target (yg_electricity2fuel y) /\
    (forall t name, In_period t target -> data_in_force (yg_electricity2fuel y) t name ->
       exists table gs, dict_get String.eqb name tables = Some table /\ make_generator_set table = Ok gs) /\
    fuelled (yg_fuel y) (yi_fuel i) (yg_electricity2fuel y).
  Definition fuel_consumer_accepted (i : yaml_installation M) (y : yaml_fuel_consumer M) : Prop :=
    in_run target (yf_model y) -> fuelled (yf_fuel y) (yi_fuel i) (yf_model y).
  Definition installation_accepted (i : yaml_installation M) : Prop :=
    (exists values export, regularity_values np_pow (yi_regularity i) target vm = Ok values /\
       hydrocarbon_export np_pow (yi_export i) values target vm = Ok export) /\
    (forall y, In y (yi_generator_sets i) -> generator_set_accepted i y) /\
    (forall y, In y (yi_fuel_consumers i) -> fuel_consumer_accepted i y).
End Expected.

(** ** The setting: how times are written, and the run *)
(** dates or one model, the dates in order *)
Definition well_written {A} (data : temporal_data A) : Prop := data_well_formed data /\ forall e es, data <> TDPeriods e es.
(** [t] is not inside a period *)
Definition uncut (ps : list period) (t : datetime) : Prop := forall p, In p ps -> ~ (p_start p < t < p_end p)%Z.
Definition run_setting (ps : list period) (target : period) : Prop :=
  contiguous ps /\ nonempty target /\ (p_end target <= DT_MAX)%Z /\ uncut ps (p_start target) /\ uncut ps (p_end target).
Definition generator_set_written {M} (ps : list period) (g : yaml_generator_set M) : Prop :=
  well_written (yg_electricity2fuel g) /\ (forall t, In t (data_dates (yg_electricity2fuel g)) -> uncut ps t) /\
  (forall f, yg_fuel g = Some f -> well_written f) /\ forall c, In c (yg_consumers g) -> well_written (ye_model c).
Definition installation_written {M} (ps : list period) (i : yaml_installation M) : Prop :=
  (forall f, yi_fuel i = Some f -> well_written f) /\
  (forall g, In g (yi_generator_sets i) -> generator_set_written ps g) /\
  (forall c, In c (yi_fuel_consumers i) -> well_written (yf_model c) /\ forall f, yf_fuel c = Some f -> well_written f).

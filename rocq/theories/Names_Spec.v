(** Vocabulary for names and references (C124-C126). *)
From Coq Require Import String.
From Verif Require Import Base Names_Model.
Local Open Scope string_scope.
Local Open Scope list_scope.

(** ** Components *)

Definition listed {A} (o : option (list A)) : list A := match o with Some l => l | None => [] end.

(** The places of a model that carry the name of a component. *)
Inductive place :=
| PModel
| PInstallation (i : nat)
| PFuelConsumer (i j : nat)
| PGeneratorSet (i j : nat)
| PElectricityConsumer (i j k : nat)
| PVentingEmitter (i j : nat).
Definition name_at (model_name : string) (installations : list installation) (p : place) : option string :=
  match p with
  | PModel => Some model_name
  | PInstallation i => match nth_error installations i with Some x => Some (i_name x) | None => None end
  | PFuelConsumer i j =>
      match nth_error installations i with
      | Some x => match nth_error (listed (i_fuel_consumers x)) j with Some c => Some (c_name c) | None => None end
      | None => None
      end
  | PGeneratorSet i j =>
      match nth_error installations i with
      | Some x => match nth_error (listed (i_generator_sets x)) j with Some g => Some (g_name g) | None => None end
      | None => None
      end
  | PElectricityConsumer i j k =>
      match nth_error installations i with
      | Some x =>
          match nth_error (listed (i_generator_sets x)) j with
          | Some g => match nth_error (g_consumers g) k with Some c => Some (c_name c) | None => None end
          | None => None
          end
      | None => None
      end
  | PVentingEmitter i j =>
      match nth_error installations i with Some x => nth_error (listed (i_venting_emitters x)) j | None => None end
  end.
(** No two places carry the same name. *)
Definition each_name_once (model_name : string) (installations : list installation) : Prop :=
  forall p q n, name_at model_name installations p = Some n -> name_at model_name installations q = Some n -> p = q.

(** ** References *)

(** What the input defines under a name, and where.  In the sections that are written as key and value the name is the key. *)
Inductive defined (c : configuration) : string -> entity -> path -> Prop :=
| def_facility_input : forall i m, nth_error (facility_inputs c) i = Some m -> defined c (m_name m) (EModel m) (AtIndex SFacilityInputs i)
| def_model : forall i m, nth_error (models c) i = Some m -> defined c (m_name m) (EModel m) (AtIndex SModels i)
| def_fuel : forall i f, nth_error (fuel_types c) i = Some f -> defined c (n_name f) (EFuel f) (AtIndex SFuelTypes i)
| def_stream : forall k s, In (k, s) (inlet_streams c) -> defined c k (EStream s) (AtKey SInletStreams k)
| def_unit : forall k u, In (k, u) (process_units c) -> defined c k (EUnit u) (AtKey SProcessUnits k)
| def_fluid : forall k f, In (k, f) (fluids c) -> defined c k (EFluidDefinition f) (AtKey SFluids k)
| def_pipeline : forall k p, In (k, p) (process_pipelines c) -> defined c k (EPipeline p) (AtKey SProcessPipelines k)
| def_simulation : forall i s, nth_error (process_simulations c) i = Some s -> defined c (n_name s) (ESimulation s) (AtIndex SProcessSimulations i)
| def_pump_simulation : forall i s, nth_error (pump_process_simulations c) i = Some s ->
    defined c (n_name s) (EPumpSimulation s) (AtIndex SPumpProcessSimulations i)
| def_fluid_model : forall k m, In (k, m) (fluid_models c) -> defined c k (EModel m) (AtKey SFluidModels k).

(** Every name is defined in one place only. *)
Definition one_definition_each (c : configuration) : Prop :=
  forall n e p e' p', defined c n e p -> defined c n e' p' -> e = e' /\ p = p'.
(** A section written as key and value has each key once, as it is a Python dictionary. *)
Definition dictionaries (c : configuration) : Prop :=
  NoDup (map fst (inlet_streams c)) /\ NoDup (map fst (process_units c)) /\ NoDup (map fst (fluids c)) /\
  NoDup (map fst (process_pipelines c)) /\ NoDup (map fst (fluid_models c)).
(** The streams and pipelines, which are written under a key and have a name as well, have the key as their name. *)
Definition named_by_key (c : configuration) : Prop :=
  (forall k s, In (k, s) (inlet_streams c) -> n_name s = k) /\ (forall k p, In (k, p) (process_pipelines c) -> n_name p = k).

(** The model of a name: one of MODELS or FACILITY_INPUTS. *)
Definition model_of (c : configuration) (r : string) (m : model) : Prop :=
  m_name m = r /\ (In m (facility_inputs c) \/ In m (models c)).

(** A reference is to a model of one of the types; a turbine's compressor is of one of them too, and is not a turbine again. *)
Definition of_types (types : list model_type) (m : model) : Prop := In (type_of (m_body m)) types.
Definition right_reference (c : configuration) (types : list model_type) (r : string) : Prop :=
  exists m, model_of c r m /\ of_types types m /\
    forall k t, m_body m = CompressorWithTurbine k t -> exists m', model_of c k m' /\ of_types types m' /\ type_of (m_body m') <> TWithTurbine.
Definition missing_reference (c : configuration) (types : list model_type) (r : string) : Prop :=
  (forall m, ~ model_of c r m) \/
  exists m k t, model_of c r m /\ of_types types m /\ m_body m = CompressorWithTurbine k t /\ forall m', ~ model_of c k m'.
Definition wrong_reference (c : configuration) (types : list model_type) (r : string) : Prop :=
  (exists m, model_of c r m /\ ~ of_types types m) \/
  exists m k t m', model_of c r m /\ of_types types m /\ m_body m = CompressorWithTurbine k t /\ model_of c k m' /\
    (~ of_types types m' \/ type_of (m_body m') = TWithTurbine).

(** A reference passes the check. *)
Definition accepted (c : configuration) (types : list model_type) (r : string) : Prop :=
  check_field_model_reference types (get_model_types c) r = Accepted.

(** ** Compressors *)

(** A stage names a stream. *)
Definition names_stream (s : multi_stage) (r : string) : Prop := In r (listed (ms_streams s)).
(** No stream is named by two stages. *)
Definition streams_apart (stages : list multi_stage) : Prop :=
  forall i j s t r, nth_error stages i = Some s -> nth_error stages j = Some t -> names_stream s r -> names_stream t r -> i = j.
(** The number of things with a property. *)
Definition how_many {A} (P : A -> Prop) (n : nat) : Prop := exists l, NoDup l /\ (forall x, In x l <-> P x) /\ List.length l = n.

Inductive stage_charts : train_stages -> option nat -> list string -> Prop :=
| known_stages : forall charts data, stage_charts (KnownStages charts) data charts
| unknown_stages : forall chart n, stage_charts (UnknownStages chart) (Some n) (repeat chart n).
(** What is built for a reference: every reference has been replaced by the model of its name. *)
Inductive made (c : configuration) (data : option nat) : string -> built -> Prop :=
| made_sampled : forall r m, model_of c r m -> m_body m = CompressorTabular -> made c data r (BSampled m)
| made_train : forall r m f charts fm cs,
    model_of c r m -> m_body m = VariableSpeedTrain f charts \/ m_body m = SingleSpeedTrain f charts ->
    model_of c f fm -> Forall2 (model_of c) charts cs -> made c data r (BTrain m fm cs)
| made_simplified : forall r m f stages fm charts cs,
    model_of c r m -> m_body m = SimplifiedTrain f stages -> stage_charts stages data charts ->
    model_of c f fm -> Forall2 (model_of c) charts cs -> made c data r (BSimplified m fm cs)
| made_multiple : forall r m streams stages cs fs,
    model_of c r m -> m_body m = MultipleStreamsTrain streams stages ->
    Forall2 (fun s x => model_of c (ms_chart s) (fst (fst x))) stages cs ->
    Forall2 (fun s o => match s, o with Ingoing _ f, Some fm => model_of c f fm | Outgoing _, None => True | _, _ => False end) streams fs ->
    made c data r (BMultiple m cs fs)
| made_with_turbine : forall r m k t b tm,
    model_of c r m -> m_body m = CompressorWithTurbine k t -> made c data k b -> model_of c t tm -> made c data r (BWithTurbine m b tm).

Definition plain_chart (m : model) : Prop := exists t, m_body m = CompressorChart t /\ (t = SingleSpeedChart \/ t = VariableSpeedChart).
Definition a_chart (m : model) : Prop := exists t, m_body m = CompressorChart t.
(** The charts of a train suit it: a train with speeds has charts with speeds, a simplified train has charts, and without operational
    data its stages are known and have charts from a design point. *)
Definition charts_suit (c : configuration) (data : option nat) (m : model) : Prop :=
  match m_body m with
  | VariableSpeedTrain _ charts | SingleSpeedTrain _ charts => forall r k, In r charts -> model_of c r k -> plain_chart k
  | MultipleStreamsTrain streams stages =>
      (forall s k, In s stages -> model_of c (ms_chart s) k -> plain_chart k) /\ streams_apart stages /\ exists n f, In (Ingoing n f) streams
  | SimplifiedTrain _ (KnownStages charts) =>
      forall r k, In r charts -> model_of c r k -> a_chart k /\ (data = None -> m_body k = CompressorChart GenericFromDesignPoint)
  | SimplifiedTrain _ (UnknownStages chart) => data <> None
  | _ => True
  end.
(** The model that a reference leads to: directly, or as the compressor of a turbine. *)
Definition leads_to (c : configuration) (r : string) (m : model) : Prop :=
  model_of c r m \/ exists t k x, model_of c r t /\ m_body t = CompressorWithTurbine k x /\ model_of c k m.

(** ** Stages of a train of several streams *)

(** The ports of a stage: the streams it names that leave, and those that enter; the first stage has one that enters already. *)
Definition ports_right (streams : list train_stream) (i : nat) (s : multi_stage) (p : planned_stage) : Prop :=
  ps_chart p = ms_chart s /\
  how_many (fun x => In x streams /\ (exists n, x = Outgoing n /\ names_stream s n)) (ps_splitter p) /\
  exists n, how_many (fun x => In x streams /\ (exists m f, x = Ingoing m f /\ names_stream s m)) n /\
    (ps_mixer p = Z.of_nat n - (if Nat.eqb i 0 then 1 else 0))%Z.
(** The streams of a train have different names, and no stage names one twice. *)
Definition streams_distinct (streams : list train_stream) (stages : list multi_stage) : Prop :=
  NoDup (map stream_name streams) /\ forall s, In s stages -> NoDup (listed (ms_streams s)).
(** No earlier stage names a stream of the stage. *)
Definition first_to_name (stages : list multi_stage) (i : nat) (s : multi_stage) : Prop :=
  forall r j t, names_stream s r -> (j < i)%nat -> nth_error stages j = Some t -> ~ names_stream t r.

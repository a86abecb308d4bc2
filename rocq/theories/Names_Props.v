(** C124, C125, C126: names, references, and the stages of a train of several streams. *)
From Coq Require Import String PeanoNat.
From Verif Require Import Base BaseLemmas Names_Model Names_Spec Names_Proofs Names_Proofs2 Names_Proofs3 Names_Proofs4 Names_Proofs5.
Local Open Scope string_scope.
Local Open Scope list_scope.

(** ** C124 Names are used once *)

(** The names that are reported as duplicates are those that occur more than once, each reported once. *)
Theorem C124_duplicates : forall names,
  NoDup (get_duplicates names) /\ forall n, In n (get_duplicates names) <-> (2 <= count_occ string_dec names n)%nat.
Proof. exact duplicates_proof. Qed.
Print Assumptions C124_duplicates.
(** A model is accepted exactly when no two of its components, and the model itself, have the same name; else a ValueError. *)
Theorem C124_components : forall model_name installations, model_name <> "" ->
  (validate_unique_component_names (Some model_name) installations = Ok tt <-> each_name_once model_name installations) /\
  (validate_unique_component_names (Some model_name) installations <> Ok tt ->
   validate_unique_component_names (Some model_name) installations = Err ValueError).
Proof. exact components_proof. Qed.
Print Assumptions C124_components.
(** Time series, the emissions of a fuel and the consumers of one system: accepted exactly when the names differ. *)
Theorem C124_lists : forall names,
  (validate_unique_time_series_names names = Ok tt <-> NoDup names) /\ (ensure_unique_emission_names names = Ok tt <-> NoDup names) /\
  (assert_unique_names names = Ok tt <-> NoDup names).
Proof. exact lists_proof. Qed.
Print Assumptions C124_lists.
(** What can be referred to: accepted exactly when every name is defined in one place. *)
Theorem C124_references : forall c, dictionaries c ->
  (validate_unique_references c = Ok tt <-> one_definition_each c) /\
  (validate_unique_references c <> Ok tt -> validate_unique_references c = Err ValueError).
Proof. exact references_proof. Qed.
Print Assumptions C124_references.
(** The message of the check says that consumers of systems are included; they are not. *)
Theorem C124_systems_refuted : ~ forall model_name installations, model_name <> "" -> validate_names (Some model_name) installations = Ok tt ->
  forall i i' c c' n, In i installations -> In i' installations -> In c (listed (i_fuel_consumers i)) -> In c' (listed (i_fuel_consumers i')) ->
    In n (listed (c_system c)) -> In n (listed (c_system c')) -> c = c'.
Proof. exact systems_refuted. Qed.
Print Assumptions C124_systems_refuted.

Definition C124_platform : installation :=
  mk_installation "platform" (Some [mk_consumer "flare" None; mk_consumer "export" (Some ["train a"; "train b"])])
    (Some [mk_generator_set "genset" [mk_consumer "pump" None; mk_consumer "compressor" None]]) (Some ["vent"]).
Example C124_case :
  validate_names (Some "field") [C124_platform; mk_installation "satellite" None None (Some ["vent 2"])] = Ok tt /\
  validate_names (Some "field") [C124_platform; mk_installation "satellite" None None (Some ["vent"])] = Err ValueError /\
  validate_names (Some "pump") [C124_platform] = Err ValueError /\
  get_duplicates ["a"; "b"; "a"; "c"; "b"; "a"] = ["a"; "b"].
Proof. repeat split. Qed.

(** ** C125 References are resolved *)

(** Everything that is defined is found under its name, with the place where it is written, and nothing else is. *)
Theorem C125_found : forall c, validate_unique_references c = Ok tt -> named_by_key c -> forall n,
  (forall e p, defined c n e p -> resolve_yaml_reference (reference_service c) n = Ok e /\ get_yaml_path (reference_service c) n = Ok p) /\
  ((forall e p, ~ defined c n e p) ->
   resolve_yaml_reference (reference_service c) n = Err ValidationError /\ get_yaml_path (reference_service c) n = Err KeyError).
Proof. exact found_proof. Qed.
Print Assumptions C125_found.
(** A reference is accepted when there is a model of the name with a type that is allowed, and the compressor of a turbine is allowed
    too; else the message says that the model is missing or that its type is not allowed, whichever is right. *)
Theorem C125_checked : forall c types r, validate_unique_references c = Ok tt ->
  (check_field_model_reference types (get_model_types c) r = Accepted <-> right_reference c types r) /\
  (check_field_model_reference types (get_model_types c) r = NotFound <-> missing_reference c types r) /\
  (check_field_model_reference types (get_model_types c) r = WrongType <-> wrong_reference c types r).
Proof. exact checked_exact_proof. Qed.
Print Assumptions C125_checked.
(** An accepted reference is resolved, to the model of its name; but a table is refused for a pump, and for the chart of a stage. *)
Theorem C125_resolved : forall c r, validate_unique_references c = Ok tt -> named_by_key c ->
  (accepted c generator_set_types r -> exists m, model_of c r m /\ get_generator_set_model (reference_service c) r = Ok m) /\
  (accepted c tabulated_types r -> exists m, model_of c r m /\ get_tabulated_model (reference_service c) r = Ok m) /\
  (accepted c fluid_types r -> exists m, model_of c r m /\ get_fluid (reference_service c) r = Ok m) /\
  (accepted c turbine_types r -> exists m, model_of c r m /\ get_turbine (reference_service c) r = Ok m) /\
  (accepted c compressor_types r \/ accepted c multiple_streams_types r ->
   exists m, model_of c r m /\ get_compressor_model (reference_service c) r = Ok m) /\
  (accepted c pump_types r -> exists m, model_of c r m /\
     get_pump_model (reference_service c) r = if type_eqb (type_of (m_body m)) TTabular then Err ValidationError else Ok m) /\
  (accepted c stage_types r -> exists m, model_of c r m /\
     get_compressor_chart (reference_service c) r = if type_eqb (type_of (m_body m)) TCompressorChart then Ok m else Err ValidationError).
Proof. exact resolved_proof. Qed.
Print Assumptions C125_resolved.
(** An accepted compressor is built, from the models of the names it refers to, when its charts suit it. *)
Theorem C125_compressor : forall c data r depth, validate_configuration c = Ok tt -> named_by_key c ->
  accepted c compressor_types r \/ accepted c multiple_streams_types r ->
  (forall m, leads_to c r m -> charts_suit c data m) -> (2 <= depth)%nat ->
  exists b, create_compressor_model depth (reference_service c) data r = Ok b /\ made c data r b.
Proof. exact compressor_proof. Qed.
Print Assumptions C125_compressor.
(** So is each compressor of an accepted system, without operational data. *)
Theorem C125_system : forall c rs r depth n, validate_configuration c = Ok tt -> named_by_key c ->
  (forall q, In q rs -> accepted c compressor_types q) -> forbid_in_system (get_model_types c) rs = Ok tt -> In r rs ->
  (forall m, leads_to c r m -> charts_suit c (Some n) m) -> (2 <= depth)%nat ->
  exists b, create_compressor_model depth (reference_service c) None r = Ok b /\ made c None r b.
Proof. exact system_proof. Qed.
Print Assumptions C125_system.
(** A stream named otherwise than its key hides what has that name, and is not found under its key. *)
Theorem C125_keys_refuted : ~ forall c r, validate_configuration c = Ok tt -> dictionaries c -> accepted c generator_set_types r ->
  exists m, model_of c r m /\ get_generator_set_model (reference_service c) r = Ok m.
Proof. exact keys_refuted. Qed.
Print Assumptions C125_keys_refuted.
Theorem C125_stream_key_refuted : ~ forall c k s, validate_configuration c = Ok tt -> dictionaries c -> In (k, s) (inlet_streams c) -> get_stream (reference_service c) k = Ok s.
Proof. exact stream_key_refuted. Qed.
Print Assumptions C125_stream_key_refuted.
(** References that are accepted, but refused when the model is built. *)
Theorem C125_pump_refuted : ~ forall c r, validate_configuration c = Ok tt -> named_by_key c -> accepted c pump_types r ->
  exists m, get_pump_model (reference_service c) r = Ok m.
Proof. exact pump_refuted. Qed.
Print Assumptions C125_pump_refuted.
Theorem C125_table_chart_refuted : ~ forall c r data depth, (2 <= depth)%nat -> validate_configuration c = Ok tt -> named_by_key c -> accepted c compressor_types r ->
  exists b, create_compressor_model depth (reference_service c) data r = Ok b.
Proof. exact table_chart_refuted. Qed.
Print Assumptions C125_table_chart_refuted.
Theorem C125_generic_chart_refuted : ~ forall c r data depth, (2 <= depth)%nat -> validate_configuration c = Ok tt -> named_by_key c ->
  (forall m k, In m (models c) -> (exists types, In (types, k) (references_of (m_body m)) /\ types = stage_types) -> exists x, model_of c k x /\ a_chart x) ->
  accepted c compressor_types r -> exists b, create_compressor_model depth (reference_service c) data r = Ok b.
Proof. exact generic_chart_refuted. Qed.
Print Assumptions C125_generic_chart_refuted.

Definition C125_config : configuration :=
  mk_configuration
    [mk_model "el2fuel" Electricity2Fuel 1; mk_model "sampled" CompressorTabular 2; mk_model "pump chart" PumpChartSingleSpeed 3]
    [mk_model "gas" Fluid 4; mk_model "curves" (CompressorChart VariableSpeedChart) 5; mk_model "design" (CompressorChart GenericFromDesignPoint) 6;
     mk_model "turbine" Turbine 7; mk_model "train" (VariableSpeedTrain "gas" ["curves"; "curves"]) 8;
     mk_model "driven" (CompressorWithTurbine "train" "turbine") 9; mk_model "simple" (SimplifiedTrain "gas" (KnownStages ["design"])) 10;
     mk_model "mixed" (MultipleStreamsTrain [Ingoing "in" "gas"; Ingoing "more" "gas"; Outgoing "out"]
       [mk_multi_stage "curves" (Some ["in"]); mk_multi_stage "curves" (Some ["more"; "out"]); mk_multi_stage "curves" None]) 11]
    [mk_named "fuel gas" 12] [("inlet", mk_named "inlet" 13)] [("unit", 14%nat)] [("light", 15%nat)] [("pipeline", mk_named "pipeline" 16)]
    [mk_named "simulation" 17] [] [("medium", mk_model "gas" Fluid 18)].
Example C125_case : validate_configuration C125_config = Ok tt /\ named_by_key C125_config /\ dictionaries C125_config /\
  check_field_model_reference compressor_types (get_model_types C125_config) "driven" = Accepted /\
  check_field_model_reference multiple_streams_types (get_model_types C125_config) "driven" = WrongType /\
  check_field_model_reference compressor_types (get_model_types C125_config) "gas train" = NotFound /\
  get_yaml_path (reference_service C125_config) "turbine" = Ok (AtIndex SModels 3) /\
  get_fuel_reference (reference_service C125_config) "fuel gas" = Ok (mk_named "fuel gas" 12) /\
  forbid_in_system (get_model_types C125_config) ["driven"; "simple"; "sampled"] = Ok tt /\
  match create_compressor_model 2 (reference_service C125_config) None "driven" with
  | Ok (BWithTurbine _ (BTrain t g cs) tu) => (m_rest t, m_rest g, map m_rest cs, m_rest tu) = (8, 4, [5; 5], 7)%nat
  | _ => False
  end.
Proof.
  split; [reflexivity|]. split; [split; intros ? ? [[= <- <-]|[]]; reflexivity|]. split; [repeat split; cbn; repeat constructor; intros []|].
  repeat split.
Qed.
(** The hypotheses of the theorems about compressors hold of every compressor of this input. *)
Example C125_case_suits : forall r m, In r ["driven"; "simple"; "sampled"; "train"; "mixed"] -> leads_to C125_config r m -> charts_suit C125_config None m.
Proof.
  assert (G : forall m, In m (facility_inputs C125_config) \/ In m (models C125_config) -> charts_suit C125_config None m).
  { assert (P : forall k, model_of C125_config "curves" k -> plain_chart k).
    { intros k (E & [H|H]); cbn in H; repeat (destruct H as [<-|H]; [first [discriminate E|eexists; split; [reflexivity|now right]]|]); destruct H. }
    assert (Q : forall k, model_of C125_config "design" k -> m_body k = CompressorChart GenericFromDesignPoint).
    { intros k (E & [H|H]); cbn in H; repeat (destruct H as [<-|H]; [first [discriminate E|reflexivity]|]); destruct H. }
    intros m [H|H]; cbn in H; repeat (destruct H as [<-|H]; [try exact I|]); try (destruct H).
    - intros r k [<-|[<-|[]]]; exact (P k).
    - intros r k [<-|[]] K. rewrite (Q k K). split; [eexists; exact (Q k K)|reflexivity].
    - split; [intros s k [<-|[<-|[<-|[]]]]; exact (P k)|]. split; [|exists "in", "gas"; now left].
      intros i j s t r Es Et N N'. destruct i as [|[|[|[|i]]]]; destruct j as [|[|[|[|j]]]]; try reflexivity; cbn in Es, Et; try discriminate;
        injection Es as <-; injection Et as <-; cbn in N, N'; intuition (subst; discriminate). }
  intros r m _ [(_ & L)|(x & k & y & _ & _ & (_ & L))]; now apply G.
Qed.

(** ** C126 The stages of a train of several streams *)

(** All stages are there, with their charts and ports, when no stream is named by two stages. *)
Theorem C126_all_stages : forall streams stages, streams_apart stages -> streams_distinct streams stages ->
  List.length (planned_stages streams stages) = List.length stages /\
  forall i s, nth_error stages i = Some s -> exists p, nth_error (planned_stages streams stages) i = Some p /\ ports_right streams i s p.
Proof. exact all_stages_proof. Qed.
Print Assumptions C126_all_stages.
(** Otherwise: exactly those that name no stream that an earlier stage names. *)
Theorem C126_kept_stages : forall streams stages, streams_distinct streams stages ->
  (forall s r, In s stages -> names_stream s r -> exists x, In x streams /\ stream_name x = r) ->
  exists kept, StronglySorted lt kept /\
    (forall i, In i kept <-> exists s, nth_error stages i = Some s /\ first_to_name stages i s) /\
    Forall2 (fun i p => exists s, nth_error stages i = Some s /\ ports_right streams i s p) kept (planned_stages streams stages).
Proof. exact kept_stages_proof. Qed.
Print Assumptions C126_kept_stages.
(** So a train may be built with fewer stages than were asked for. *)
Theorem C126_stages_refuted : ~ forall c r m streams stages b depth, (2 <= depth)%nat ->
  validate_configuration c = Ok tt -> named_by_key c -> accepted c multiple_streams_types r -> model_of c r m -> m_body m = MultipleStreamsTrain streams stages ->
  create_compressor_model depth (reference_service c) None r = Ok b ->
  exists cs fs, b = BMultiple m cs fs /\ List.length cs = List.length stages.
Proof. exact stages_refuted. Qed.
Print Assumptions C126_stages_refuted.

Definition C126_streams : list train_stream := [Ingoing "in" "gas"; Ingoing "more" "gas"; Outgoing "out"].
Definition C126_stages : list multi_stage := [mk_multi_stage "low" (Some ["in"]); mk_multi_stage "mid" (Some ["more"; "out"]); mk_multi_stage "high" None].
Example C126_case : streams_apart C126_stages /\ streams_distinct C126_streams C126_stages /\
  planned_stages C126_streams C126_stages = [mk_planned_stage "low" 0 0; mk_planned_stage "mid" 1 1; mk_planned_stage "high" 0 0] /\
  planned_stages C126_streams [mk_multi_stage "low" (Some ["in"]); mk_multi_stage "mid" (Some ["in"; "out"]); mk_multi_stage "high" (Some ["more"])]
  = [mk_planned_stage "low" 0 0; mk_planned_stage "high" 1 0].
Proof.
  split; [|split; [|split; reflexivity]].
  - intros i j s t r Es Et N N'. destruct i as [|[|[|[|i]]]]; destruct j as [|[|[|[|j]]]]; try reflexivity; cbn in Es, Et; try discriminate;
      injection Es as <-; injection Et as <-; cbn in N, N'; intuition (subst; discriminate).
  - split; [cbn; repeat constructor; cbn; intuition discriminate|]. intros s [<-|[<-|[<-|[]]]]; cbn; repeat constructor; cbn; intuition discriminate.
Qed.

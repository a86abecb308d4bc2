(** Names and references: what does not hold (C124-C126). *)
From Coq Require Import String PeanoNat.
From Verif Require Import Base BaseLemmas Names_Model Names_Spec Names_Proofs Names_Proofs2 Names_Proofs3 Names_Proofs4.
Local Open Scope string_scope.
Local Open Scope list_scope.

(** Two systems with a compressor of the same name, which is also the name of a venting emitter. *)
Definition two_systems : list installation :=
  [mk_installation "platform" (Some [mk_consumer "export" (Some ["train a"; "train b"]); mk_consumer "injection" (Some ["train a"])]) None (Some ["train a"])].
Lemma systems_refuted : ~ forall model_name installations, model_name <> "" -> validate_names (Some model_name) installations = Ok tt ->
  forall i i' c c' n, In i installations -> In i' installations -> In c (listed (i_fuel_consumers i)) -> In c' (listed (i_fuel_consumers i')) ->
    In n (listed (c_system c)) -> In n (listed (c_system c')) -> c = c'.
Proof.
  intros H. assert (V : validate_names (Some "field") two_systems = Ok tt) by reflexivity.
  specialize (H "field" two_systems ltac:(discriminate) V).
  specialize (H _ _ (mk_consumer "export" (Some ["train a"; "train b"])) (mk_consumer "injection" (Some ["train a"])) "train a" (or_introl eq_refl) (or_introl eq_refl)).
  cbn in H. assert (X : mk_consumer "export" (Some ["train a"; "train b"]) = mk_consumer "injection" (Some ["train a"])) by (apply H; auto). discriminate X.
Qed.

Definition plain (fs ms : list model) : configuration := mk_configuration fs ms [] [] [] [] [] [] [] [].
Lemma plain_named : forall fs ms, named_by_key (plain fs ms) /\ dictionaries (plain fs ms).
Proof. intros. split; [split; intros ? ? []|repeat split; constructor]. Qed.

(** A stream that is written under one key and named like a generator set. *)
Definition hidden : configuration :=
  mk_configuration [mk_model "generator" Electricity2Fuel 1] [] [] [("inlet", mk_named "generator" 2)] [] [] [] [] [] [].
Lemma keys_refuted : ~ forall c r, validate_configuration c = Ok tt -> dictionaries c -> accepted c generator_set_types r ->
  exists m, model_of c r m /\ get_generator_set_model (reference_service c) r = Ok m.
Proof.
  intros H. destruct (H hidden "generator") as (m & _ & E).
  - reflexivity.
  - split; [cbn; repeat constructor; intros []|repeat split; constructor].
  - reflexivity.
  - vm_compute in E. discriminate E.
Qed.
(** A stream is not found under its key. *)
Lemma stream_key_refuted : ~ forall c k s, validate_configuration c = Ok tt -> dictionaries c -> In (k, s) (inlet_streams c) -> get_stream (reference_service c) k = Ok s.
Proof.
  intros H. specialize (H hidden "inlet" (mk_named "generator" 2)). assert (E : get_stream (reference_service hidden) "inlet" = Ok (mk_named "generator" 2)).
  - apply H; [reflexivity| |now left]. split; [cbn; repeat constructor; intros []|repeat split; constructor].
  - vm_compute in E. discriminate E.
Qed.

(** A pump with a tabular model. *)
Lemma pump_refuted : ~ forall c r, validate_configuration c = Ok tt -> named_by_key c -> accepted c pump_types r ->
  exists m, get_pump_model (reference_service c) r = Ok m.
Proof.
  intros H. destruct (H (plain [mk_model "table" Tabular 1] []) "table") as (m & E); [reflexivity|apply plain_named|reflexivity|].
  vm_compute in E. discriminate E.
Qed.

(** A stage with a table for its chart; a train with speeds whose stage has a generic chart. *)
Definition table_as_chart : configuration :=
  plain [mk_model "table" Tabular 1] [mk_model "gas" Fluid 2; mk_model "train" (VariableSpeedTrain "gas" ["table"]) 3].
Definition generic_as_chart : configuration :=
  plain [] [mk_model "gas" Fluid 2; mk_model "chart" (CompressorChart GenericFromDesignPoint) 4; mk_model "train" (VariableSpeedTrain "gas" ["chart"]) 3].
Lemma table_chart_refuted : ~ forall c r data depth, (2 <= depth)%nat -> validate_configuration c = Ok tt -> named_by_key c -> accepted c compressor_types r ->
  exists b, create_compressor_model depth (reference_service c) data r = Ok b.
Proof.
  intros H. destruct (H table_as_chart "train" (Some 1%nat) 2%nat (le_n 2)) as (m & E); [reflexivity|apply plain_named|reflexivity|].
  vm_compute in E. discriminate E.
Qed.
Lemma generic_chart_refuted : ~ forall c r data depth, (2 <= depth)%nat -> validate_configuration c = Ok tt -> named_by_key c ->
  (forall m k, In m (models c) -> (exists types, In (types, k) (references_of (m_body m)) /\ types = stage_types) -> exists x, model_of c k x /\ a_chart x) ->
  accepted c compressor_types r -> exists b, create_compressor_model depth (reference_service c) data r = Ok b.
Proof.
  intros H. destruct (H generic_as_chart "train" (Some 1%nat) 2%nat (le_n 2)) as (m & E); [reflexivity|apply plain_named| |reflexivity|].
  - intros m k I (types & R & ->). cbn in I. destruct I as [<-|[<-|[<-|[]]]]; cbn in R; [destruct R|destruct R|].
    destruct R as [[=]|[[= <-]|[]]]. exists (mk_model "chart" (CompressorChart GenericFromDesignPoint) 4). split; [split; [reflexivity|right; cbn; auto]|eexists; reflexivity].
  - vm_compute in E. discriminate E.
Qed.

(** The second stage takes in more of the stream that entered before the first. *)
Definition twice_named : configuration :=
  plain [] [mk_model "gas" Fluid 2; mk_model "chart" (CompressorChart VariableSpeedChart) 4;
            mk_model "train" (MultipleStreamsTrain [Ingoing "in" "gas"; Outgoing "out"]
              [mk_multi_stage "chart" (Some ["in"]); mk_multi_stage "chart" (Some ["in"; "out"])]) 3].
Lemma stages_refuted : ~ forall c r m streams stages b depth, (2 <= depth)%nat ->
  validate_configuration c = Ok tt -> named_by_key c -> accepted c multiple_streams_types r -> model_of c r m -> m_body m = MultipleStreamsTrain streams stages ->
  create_compressor_model depth (reference_service c) None r = Ok b ->
  exists cs fs, b = BMultiple m cs fs /\ List.length cs = List.length stages.
Proof.
  intros H. set (c := twice_named). set (m := mk_model "train" (MultipleStreamsTrain [Ingoing "in" "gas"; Outgoing "out"]
              [mk_multi_stage "chart" (Some ["in"]); mk_multi_stage "chart" (Some ["in"; "out"])]) 3).
  destruct (create_compressor_model 2 (reference_service c) None "train") as [b|] eqn:E; [|vm_compute in E; discriminate E].
  destruct (H c "train" m [Ingoing "in" "gas"; Outgoing "out"] [mk_multi_stage "chart" (Some ["in"]); mk_multi_stage "chart" (Some ["in"; "out"])] b 2%nat (le_n 2)
    eq_refl (proj1 (plain_named _ _)) eq_refl) as (cs & fs & B & L); [split; [reflexivity|right; cbn; auto]|reflexivity|exact E|].
  vm_compute in E. injection E as <-. injection B as <- <-. discriminate L.
Qed.

(** References that are accepted are resolved: proofs for C125. *)
From Coq Require Import String PeanoNat.
From Verif Require Import Base BaseLemmas Names_Model Names_Spec Names_Proofs Names_Proofs2 Names_Proofs3.
Local Open Scope string_scope.
Local Open Scope list_scope.

Lemma model_of_defined : forall c r m, model_of c r m -> exists p, defined c r (EModel m) p.
Proof.
  intros c r m (<- & [H|H]); apply In_nth_error in H as (i & H); eexists; [eapply def_facility_input|eapply def_model]; exact H.
Qed.
Lemma get_model_of : forall c r m wanted, validate_unique_references c = Ok tt -> named_by_key c -> model_of c r m ->
  get_model wanted (reference_service c) r = if wanted (m_body m) then Ok m else Err ValidationError.
Proof.
  intros c r m wanted U N H. destruct (model_of_defined c r m H) as (p & D). destruct (found_proof c U N r) as (F & _).
  destruct (F _ _ D) as (R & _). unfold get_model. rewrite R. reflexivity.
Qed.
Lemma unique_of : forall c, validate_configuration c = Ok tt -> validate_unique_references c = Ok tt.
Proof. intros c. unfold validate_configuration. destruct (mapM _ _); [auto|discriminate]. Qed.
Lemma models_of : forall c m, validate_configuration c = Ok tt -> In m (facility_inputs c) \/ In m (models c) -> validate_model (get_model_types c) m = Ok tt.
Proof.
  intros c m. unfold validate_configuration. destruct (mapM (validate_model (get_model_types c)) (models c ++ facility_inputs c)) as [ys|] eqn:E; [|discriminate].
  intros _ H. apply mapM_Ok in E. assert (I : In m (models c ++ facility_inputs c)) by (rewrite in_app_iff; tauto). clear H.
  revert I. induction E as [|x y l ys H F IH]; [intros []|]. intros [<-|I]; [destruct y; exact H|now apply IH].
Qed.

Lemma resolved_proof : forall c r, validate_unique_references c = Ok tt -> named_by_key c ->
  (accepted c generator_set_types r -> exists m, model_of c r m /\ get_generator_set_model (reference_service c) r = Ok m) /\
  (accepted c tabulated_types r -> exists m, model_of c r m /\ get_tabulated_model (reference_service c) r = Ok m) /\
  (accepted c fluid_types r -> exists m, model_of c r m /\ get_fluid (reference_service c) r = Ok m) /\
  (accepted c turbine_types r -> exists m, model_of c r m /\ get_turbine (reference_service c) r = Ok m) /\
  (accepted c compressor_types r \/ accepted c multiple_streams_types r ->
   exists m, model_of c r m /\ get_compressor_model (reference_service c) r = Ok m) /\
  (accepted c pump_types r -> exists m, model_of c r m /\
     get_pump_model (reference_service c) r = if type_eqb (type_of (m_body m)) TTabular then Err ValidationError else Ok m) /\
  (accepted c stage_types r -> exists m, model_of c r m /\
     get_compressor_chart (reference_service c) r = if type_eqb (type_of (m_body m)) TCompressorChart then Ok m else Err ValidationError).
Proof.
  intros c r U N. unfold accepted.
  assert (G : forall types, check_field_model_reference types (get_model_types c) r = Accepted -> exists m, model_of c r m /\ of_types types m).
  { intros types A. destruct (checked_exact_proof c types r U) as (H & _). apply H in A as (m & M & T & _). eauto. }
  repeat split; intros A.
  1-4: destruct (G _ A) as (m & M & T); exists m; split; [exact M|]; unfold of_types in T; cbn in T;
    unfold get_generator_set_model, get_tabulated_model, get_fluid, get_turbine; rewrite (get_model_of c r m _ U N M);
    destruct m as [n b x]; destruct b; cbn in *; first [reflexivity|exfalso; intuition congruence].
  - assert (X : exists m, model_of c r m /\ (of_types compressor_types m \/ of_types multiple_streams_types m)).
    { destruct A as [A|A]; destruct (G _ A) as (m & M & T); eauto. }
    destruct X as (m & M & T). exists m. split; [exact M|]. unfold get_compressor_model. rewrite (get_model_of c r m _ U N M).
    unfold of_types in T. cbn in T. destruct m as [n b x]; destruct b; cbn in *; first [reflexivity|exfalso; intuition congruence].
  - destruct (G _ A) as (m & M & T). exists m. split; [exact M|]. unfold get_pump_model. rewrite (get_model_of c r m _ U N M).
    unfold of_types in T. cbn in T. destruct m as [n b x]; destruct b; cbn in *; first [reflexivity|exfalso; intuition congruence].
  - destruct (G _ A) as (m & M & T). exists m. split; [exact M|]. unfold get_compressor_chart. rewrite (get_model_of c r m _ U N M).
    unfold of_types in T. cbn in T. destruct m as [n b x]; destruct b; cbn in *; first [reflexivity|exfalso; intuition congruence].
Qed.

(** ** The references of accepted models *)

Lemma model_refs : forall c m types r, validate_configuration c = Ok tt -> In m (facility_inputs c) \/ In m (models c) ->
  In (types, r) (references_of (m_body m)) -> accepted c types r.
Proof.
  intros c m types r V H I. apply (models_of c m V) in H. unfold validate_model in H. unfold accepted.
  destruct (mapM _ (references_of (m_body m))) as [ys|] eqn:E; [|discriminate]. apply mapM_Ok in E. clear H.
  revert I. induction E as [|[t q] y l ys F _ IH]; [intros []|]. intros [[= -> ->]|I]; [|now apply IH].
  destruct (check_field_model_reference types (get_model_types c) r); [reflexivity|discriminate|discriminate].
Qed.
Lemma a_fluid : forall c r, validate_unique_references c = Ok tt -> named_by_key c -> accepted c fluid_types r ->
  exists m, model_of c r m /\ get_fluid (reference_service c) r = Ok m.
Proof. intros c r U N A. destruct (resolved_proof c r U N) as (_ & _ & H & _). auto. Qed.
Lemma a_turbine : forall c r, validate_unique_references c = Ok tt -> named_by_key c -> accepted c turbine_types r ->
  exists m, model_of c r m /\ get_turbine (reference_service c) r = Ok m.
Proof. intros c r U N A. destruct (resolved_proof c r U N) as (_ & _ & _ & H & _). auto. Qed.
Lemma a_stage : forall c r, validate_unique_references c = Ok tt -> named_by_key c -> accepted c stage_types r ->
  exists m, model_of c r m /\ get_compressor_chart (reference_service c) r = if type_eqb (type_of (m_body m)) TCompressorChart then Ok m else Err ValidationError.
Proof. intros c r U N A. destruct (resolved_proof c r U N) as (_ & _ & _ & _ & _ & _ & H). auto. Qed.

Lemma plain_found : forall c r, validate_unique_references c = Ok tt -> named_by_key c -> accepted c stage_types r ->
  (forall k, model_of c r k -> plain_chart k) -> exists m, model_of c r m /\ get_plain_chart (reference_service c) r = Ok m.
Proof.
  intros c r U N A P. destruct (a_stage c r U N A) as (m & M & G). exists m. split; [exact M|]. unfold get_plain_chart. rewrite G.
  destruct (P m M) as (t & E & T). rewrite E. cbn. rewrite E. destruct T as [-> | ->]; reflexivity.
Qed.
Lemma mapM_found : forall A B (f : A -> result B) (R : A -> B -> Prop) l, (forall x, In x l -> exists y, R x y /\ f x = Ok y) ->
  exists ys, mapM f l = Ok ys /\ Forall2 R l ys.
Proof.
  induction l as [|x l IH]; intros H; [exists []; split; [reflexivity|constructor]|].
  destruct (H x (or_introl eq_refl)) as (y & Ry & E). destruct IH as (ys & F & G); [intros z Z; apply H; now right|].
  exists (y :: ys). cbn. rewrite E. cbn. rewrite F. split; [reflexivity|now constructor].
Qed.

(** Charts of a simplified train. *)
Lemma simplified_charts : forall c m f stages r k, validate_configuration c = Ok tt -> In m (facility_inputs c) \/ In m (models c) ->
  m_body m = SimplifiedTrain f stages ->
  match stages with KnownStages charts => In r charts | UnknownStages chart => r = chart end -> model_of c r k ->
  (forall t, m_body k = CompressorChart t -> t = GenericFromInput \/ t = GenericFromDesignPoint) /\
  match stages with KnownStages _ => True | UnknownStages _ => a_chart k end.
Proof.
  intros c m f stages r k V H B I K. pose proof (unique_of c V) as U. pose proof (models_of c m V H) as X. unfold validate_model in X.
  destruct (mapM _ (references_of (m_body m))); [|discriminate]. rewrite B in X. cbn [Base.bind] in X. unfold check_compressor_chart in X.
  assert (M : model_of c (m_name m) m) by (split; [reflexivity|exact H]).
  apply (model_types_get c _ _ U) in M. rewrite M in X. cbn [of_option Base.bind] in X. rewrite B in X. cbn [compressor_train of_option Base.bind] in X.
  apply (model_types_get c _ _ U) in K. destruct stages as [charts|chart].
  - destruct (mapM _ charts) as [ys|] eqn:E; [|discriminate]. apply mapM_Ok in E. split; [|exact Logic.I]. intros t T.
    clear X B. revert I. induction E as [|q y l ys F _ IH]; [intros []|]. intros [<-|I]; [|now apply IH].
    rewrite K in F. cbn [of_option Base.bind] in F. rewrite T in F. cbn in F. destruct t; cbn in F; try discriminate; auto.
  - subst chart. rewrite K in X. cbn [of_option Base.bind] in X. destruct (m_body k) eqn:T; try discriminate. split; [|exists type; exact T].
    intros t [= <-]. cbn in X. destruct type; cbn in X; try discriminate; auto.
Qed.

(** ** Compressors *)

(** What is built for a model that is not a turbine. *)
Lemma built_one : forall c data r m depth, validate_configuration c = Ok tt -> named_by_key c -> model_of c r m ->
  of_types compressor_types m \/ of_types multiple_streams_types m -> type_of (m_body m) <> TWithTurbine -> charts_suit c data m ->
  exists b, create_compressor_model (S depth) (reference_service c) data r = Ok b /\ made c data r b /\ forall x y z, b <> BWithTurbine x y z.
Proof.
  intros c data r m depth V N M T W S. pose proof (unique_of c V) as U. cbn [create_compressor_model].
  assert (G : get_compressor_model (reference_service c) r = Ok m).
  { unfold get_compressor_model. rewrite (get_model_of c r m _ U N M). unfold of_types in T. cbn in T.
    destruct (m_body m); cbn in *; first [reflexivity|exfalso; intuition congruence]. }
  rewrite G. cbn [Base.bind]. clear G. pose proof M as (E & I). unfold charts_suit in S.
  assert (R : forall types q, In (types, q) (references_of (m_body m)) -> accepted c types q) by (intros types q; apply (model_refs c m types q V I)).
  destruct (m_body m) as [|ct| |f stages|f charts|f charts|streams stages|k t| | | | |] eqn:B;
    try (exfalso; unfold of_types in T; rewrite B in T; cbn in T; intuition congruence); try (exfalso; cbn in W; congruence).
  - (* simplified *)
    assert (F : exists fm, model_of c f fm /\ get_fluid (reference_service c) f = Ok fm).
    { apply a_fluid; [exact U|exact N|]. apply R. destruct stages; now left. }
    destruct F as (fm & F & GF). rewrite GF. cbn [Base.bind].
    assert (C : exists charts, stage_charts stages data charts /\
       (match stages, data with KnownStages charts, _ => Ok charts | UnknownStages chart, Some n => Ok (repeat chart n) | UnknownStages _, None => Err AssertionError end) = Ok charts /\
       forall q, In q charts -> exists k, model_of c q k /\ (match data with None => get_design_chart (reference_service c) q | Some _ => get_generic_chart (reference_service c) q end) = Ok k).
    { destruct stages as [charts|chart].
      - exists charts. split; [constructor|]. split; [reflexivity|]. intros q Q.
        assert (A : accepted c stage_types q) by (apply R; right; apply in_map_iff; eauto).
        destruct (a_stage c q U N A) as (k & K & GK). exists k. split; [exact K|]. destruct (S q k Q K) as ((t & T') & D).
        destruct (simplified_charts c m f (KnownStages charts) q k V I B Q K) as (X & _). specialize (X t T'). rewrite T' in GK. cbn in GK.
        destruct data as [n|].
        + unfold get_generic_chart. rewrite GK. cbn [Base.bind]. rewrite T'. destruct X as [-> | ->]; reflexivity.
        + unfold get_design_chart. rewrite GK. cbn [Base.bind]. rewrite (D eq_refl). reflexivity.
      - destruct data as [n|]; [|contradiction]. exists (repeat chart n). split; [constructor|]. split; [reflexivity|].
        intros q Q. apply repeat_spec in Q. subst q.
        assert (A : accepted c stage_types chart) by (apply R; right; now left).
        destruct (a_stage c chart U N A) as (k & K & GK). exists k. split; [exact K|].
        destruct (simplified_charts c m f (UnknownStages chart) chart k V I B eq_refl K) as (X & (t & T')). specialize (X t T'). rewrite T' in GK. cbn in GK.
        unfold get_generic_chart. rewrite GK. cbn [Base.bind]. rewrite T'. destruct X as [-> | ->]; reflexivity. }
    destruct C as (charts & C1 & C2 & C3). rewrite C2. cbn [Base.bind].
    destruct (mapM_found _ _ (match data with None => get_design_chart (reference_service c) | Some _ => get_generic_chart (reference_service c) end) (model_of c) charts) as (cs & Q1 & Q2).
    { intros q Q. destruct (C3 q Q) as (k & K & G). exists k. split; [exact K|]. destruct data; exact G. }
    rewrite Q1. cbn [Base.bind]. eexists. split; [reflexivity|]. split; [|discriminate]. eapply made_simplified; eassumption.
  - destruct (a_fluid c f U N) as (fm & F & GF); [apply R; now left|]. rewrite GF. cbn [Base.bind].
    destruct (mapM_found _ _ (get_plain_chart (reference_service c)) (model_of c) charts) as (cs & Q1 & Q2).
    { intros q Q. apply plain_found; [exact U|exact N| |intros k K; exact (S q k Q K)]. apply R. right. apply in_map_iff. eauto. }
    rewrite Q1. cbn [Base.bind]. eexists. split; [reflexivity|]. split; [|discriminate]. eapply made_train; eauto.
  - destruct (a_fluid c f U N) as (fm & F & GF); [apply R; now left|]. rewrite GF. cbn [Base.bind].
    destruct (mapM_found _ _ (get_plain_chart (reference_service c)) (model_of c) charts) as (cs & Q1 & Q2).
    { intros q Q. apply plain_found; [exact U|exact N| |intros k K; exact (S q k Q K)]. apply R. right. apply in_map_iff. eauto. }
    rewrite Q1. cbn [Base.bind]. eexists. split; [reflexivity|]. split; [|discriminate]. eapply made_train; eauto.
  - destruct S as (S1 & S2 & (n0 & f0 & S3)). rewrite (plan_all stages streams S2).
    destruct (mapM_found _ _ (fun p => do c0 <- get_plain_chart (reference_service c) (ps_chart p); Ok (c0, ps_mixer p, ps_splitter p))
      (fun p (x : model * Z * nat) => model_of c (ps_chart p) (fst (fst x))) (map (plan streams) (enumerate stages))) as (cs & Q1 & Q2).
    { intros p P. apply in_map_iff in P as ([i s] & <- & P). apply enumerate_In, nth_error_In in P. unfold plan. cbn [ps_chart fst snd ps_mixer ps_splitter].
      destruct (plain_found c (ms_chart s) U N) as (k & K & GK); [apply R; cbn; rewrite in_app_iff; right; apply in_map_iff; eauto|intros k K; exact (S1 s k P K)|].
      eexists. rewrite GK. cbn [Base.bind]. split; [|reflexivity]. exact K. }
    rewrite Q1. cbn [Base.bind].
    destruct (mapM_found _ _ (fun s => match s with Ingoing _ f => do m <- get_fluid (reference_service c) f; Ok (Some m) | Outgoing _ => Ok None end)
      (fun s o => match s, o with Ingoing _ f, Some fm => model_of c f fm | Outgoing _, None => True | _, _ => False end) streams) as (fs & P1 & P2).
    { intros s P. destruct s as [n f|n]; [|exists None; split; [exact Logic.I|reflexivity]].
      destruct (a_fluid c f U N) as (fm & F & GF).
      - apply R. cbn. rewrite in_app_iff. left. apply in_flat_map. exists (Ingoing n f). split; [exact P|now left].
      - exists (Some fm). rewrite GF. split; [exact F|reflexivity]. }
    rewrite P1. cbn [Base.bind].
    assert (X : existsb (fun o : option model => match o with Some _ => true | None => false end) fs = true).
    { apply existsb_exists. clear - P2 S3. induction P2 as [|s o l fs H F IH]; [destruct S3|]. destruct S3 as [-> |S3].
      - destruct o as [fm|]; [|destruct H]. exists (Some fm). split; [now left|reflexivity].
      - destruct (IH S3) as (x & X & Y). exists x. split; [now right|exact Y]. }
    rewrite X. eexists. split; [reflexivity|]. split; [|discriminate]. eapply made_multiple; [exact M|exact B| |exact P2].
    clear - Q2. rewrite <- (enumerate_map _ stages) at 1. revert Q2. generalize (enumerate stages). intros l H.
    remember (map (plan streams) l) as l' eqn:E. revert l E. induction H as [|p x l' cs Hp _ IH]; intros [|[i s] l] E; try discriminate; cbn [map]; [constructor|].
    injection E as -> E. constructor; [exact Hp|]. now apply IH.
  - eexists. split; [reflexivity|]. split; [|discriminate]. constructor; assumption.
Qed.

Lemma compressor_proof : forall c data r depth, validate_configuration c = Ok tt -> named_by_key c ->
  accepted c compressor_types r \/ accepted c multiple_streams_types r ->
  (forall m, leads_to c r m -> charts_suit c data m) -> (2 <= depth)%nat ->
  exists b, create_compressor_model depth (reference_service c) data r = Ok b /\ made c data r b.
Proof.
  intros c data r depth V N A S D. pose proof (unique_of c V) as U. destruct depth as [|[|depth]]; [lia|lia|]. clear D.
  assert (X : exists types, (types = compressor_types \/ types = multiple_streams_types) /\ right_reference c types r).
  { destruct A as [A|A]; apply checked_exact_proof in A; eauto. }
  destruct X as (types & T & m & M & O & K). clear A.
  assert (O' : forall x, of_types types x -> of_types compressor_types x \/ of_types multiple_streams_types x) by (destruct T as [-> | ->]; auto).
  destruct (type_eqb (type_of (m_body m)) TWithTurbine) eqn:Q.
  - apply type_eqb_eq in Q. assert (B : exists k t, m_body m = CompressorWithTurbine k t) by (destruct (m_body m); try discriminate; eauto).
    destruct B as (k & t & B). destruct (K k t B) as (m' & M' & P1 & P2).
    destruct (built_one c data k m' depth V N M' (O' m' P1) P2) as (b & B1 & B2 & B3).
    { apply S. right. exists m, k, t. auto. }
    assert (G : get_compressor_model (reference_service c) r = Ok m) by (unfold get_compressor_model; rewrite (get_model_of c r m _ U N M), B; reflexivity).
    destruct (a_turbine c t U N) as (tm & T1 & T2).
    { pose proof M as (_ & I). eapply (model_refs c m turbine_types t V I). rewrite B. now left. }
    cbn [create_compressor_model] in *. rewrite G. cbn [Base.bind]. rewrite B. rewrite B1. cbn [Base.bind].
    destruct b as [a|a a' a''|a a' a''|a a' a''|a a' a'']; try (exfalso; eapply B3; reflexivity); cbn [Base.bind]; rewrite T2; cbn [Base.bind];
      (eexists; split; [reflexivity|]; eapply made_with_turbine; eassumption).
  - assert (Q' : type_of (m_body m) <> TWithTurbine) by (intros E; apply type_eqb_eq in E; congruence).
    destruct (built_one c data r m (Datatypes.S depth) V N M (O' m O) Q') as (b & B1 & B2 & _); [apply S; now left|]. eauto.
Qed.

(** ** In a system *)

Lemma forbid_found : forall c charts b, validate_unique_references c = Ok tt -> (forall q, In q charts -> exists k, model_of c q k) ->
  forbid_charts (get_model_types c) charts = Ok b -> b = true /\ forall q k, In q charts -> model_of c q k -> m_body k <> CompressorChart GenericFromInput.
Proof.
  intros c charts b U. induction charts as [|q charts IH]; intros H E; cbn [forbid_charts] in E.
  - injection E as <-. split; [reflexivity|]. intros ? ? [].
  - destruct (H q (or_introl eq_refl)) as (k & K). pose proof K as G. apply (model_types_get c q k U) in G. rewrite G in E.
    assert (IH' : forbid_charts (get_model_types c) charts = Ok b -> b = true /\ forall q k, In q charts -> model_of c q k -> m_body k <> CompressorChart GenericFromInput)
      by (apply IH; intros x X; apply H; now right).
    assert (Y : m_body k <> CompressorChart GenericFromInput /\ forbid_charts (get_model_types c) charts = Ok b).
    { unfold chart_type_of in E. destruct (m_body k) as [|[]| | | | | | | | | | |]; try discriminate E; split; try discriminate; exact E. }
    destruct Y as (Y & E'). destruct (IH' E') as (A & B). split; [exact A|]. intros x y [<-|X] Z; [|eapply B; eassumption].
    rewrite (model_of_one c q y k U Z K). exact Y.
Qed.
(** The train that the reference leads to, if it is not a turbine. *)
Definition allowed_in_system (c : configuration) (m : model) : Prop :=
  match m_body m with
  | SimplifiedTrain _ (KnownStages charts) => forall q k, In q charts -> model_of c q k -> m_body k <> CompressorChart GenericFromInput
  | SimplifiedTrain _ (UnknownStages _) => False
  | _ => True
  end.
Lemma train_charts : forall c m charts q, validate_configuration c = Ok tt -> In m (facility_inputs c) \/ In m (models c) ->
  compressor_train (m_body m) = Some (KnownStages charts) -> In q charts -> exists k, model_of c q k.
Proof.
  intros c m charts q V I E Q. assert (A : accepted c stage_types q).
  { eapply (model_refs c m stage_types q V I). destruct (m_body m) as [|ct| |f [cs|ch]|f cs|f cs|a b|k t| | | | |]; try discriminate; injection E as ->; right; apply in_map_iff; eauto. }
  apply (checked_exact_proof c _ q (unique_of c V)) in A as (k & K & _). eauto.
Qed.
Lemma forbid_one : forall c r b, validate_configuration c = Ok tt -> accepted c compressor_types r ->
  forbid_in_system_one (get_model_types c) r = Ok b -> b = true /\ forall m, leads_to c r m -> allowed_in_system c m.
Proof.
  intros c r b V A E. pose proof (unique_of c V) as U. apply (checked_exact_proof c _ r U) in A as (m & M & O & K).
  unfold forbid_in_system_one in E. pose proof M as G. apply (model_types_get c r m U) in G. rewrite G in E. cbn [of_option Base.bind] in E. clear G.
  assert (X : forall x, In x (facility_inputs c) \/ In x (models c) ->
     match compressor_train (m_body x) with None => Ok true | Some (KnownStages (r :: rest)) => forbid_charts (get_model_types c) (r :: rest) | Some _ => Err ValueError end = Ok b ->
     b = true /\ allowed_in_system c x).
  { intros x I F. unfold allowed_in_system. destruct (compressor_train (m_body x)) as [[[|q0 charts]|chart]|] eqn:C; try discriminate F.
    - destruct (forbid_found c (q0 :: charts) b U) as (P & Q); [intros q Hq; eapply train_charts; eassumption|exact F|]. split; [exact P|].
      destruct (m_body x) as [|ct| |f [cs|ch]|f cs|f cs|a a'|k t| | | | |]; first [exact Logic.I|discriminate C|injection C as ->; exact Q].
    - injection F as <-. split; [reflexivity|]. destruct (m_body x); try exact Logic.I. discriminate. }
  destruct (type_eqb (type_of (m_body m)) TWithTurbine) eqn:Q.
  - apply type_eqb_eq in Q. assert (B : exists k t, m_body m = CompressorWithTurbine k t) by (destruct (m_body m); try discriminate; eauto).
    destruct B as (k & t & B). rewrite B in E. destruct (K k t B) as (m' & M' & P1 & P2). pose proof M' as G. apply (model_types_get c k m' U) in G. rewrite G in E.
    cbn [of_option Base.bind] in E. destruct (X m' (proj2 M') E) as (P & R). split; [exact P|]. intros x [L|(y & k' & t' & L1 & L2 & L3)].
    + rewrite (model_of_one c r x m U L M). unfold allowed_in_system. rewrite B. exact Logic.I.
    + assert (y = m) by (eapply model_of_one; eassumption). subst y. assert (k' = k) by congruence. subst k'. rewrite (model_of_one c k x m' U L3 M'). exact R.
  - assert (E' : match compressor_train (m_body m) with None => Ok true | Some (KnownStages (r :: rest)) => forbid_charts (get_model_types c) (r :: rest) | Some _ => Err ValueError end = Ok b)
      by (destruct (m_body m) eqn:Bm; cbn [Base.bind] in E; rewrite ?Bm in E; first [exact E|discriminate Q]).
    destruct (X m (proj2 M) E') as (P & R). split; [exact P|]. intros x [L|(y & k' & t' & L1 & L2 & L3)].
    + rewrite (model_of_one c r x m U L M). exact R.
    + assert (y = m) by (eapply model_of_one; eassumption). subst y. rewrite L2 in Q. discriminate.
Qed.
Lemma forbid_all : forall c rs r, validate_configuration c = Ok tt -> (forall q, In q rs -> accepted c compressor_types q) ->
  forbid_in_system (get_model_types c) rs = Ok tt -> In r rs -> forall m, leads_to c r m -> allowed_in_system c m.
Proof.
  intros c rs r V. induction rs as [|q rs IH]; intros A E I; [destruct I|]. cbn [forbid_in_system] in E.
  destruct (forbid_in_system_one (get_model_types c) q) as [b|] eqn:F; [|discriminate]. cbn [Base.bind] in E.
  destruct (forbid_one c q b V (A q (or_introl eq_refl)) F) as (-> & P). destruct I as [<-|I]; [exact P|].
  apply IH; [intros x X; apply A; now right|exact E|exact I].
Qed.
Lemma system_proof : forall c rs r depth n, validate_configuration c = Ok tt -> named_by_key c ->
  (forall q, In q rs -> accepted c compressor_types q) -> forbid_in_system (get_model_types c) rs = Ok tt -> In r rs ->
  (forall m, leads_to c r m -> charts_suit c (Some n) m) -> (2 <= depth)%nat ->
  exists b, create_compressor_model depth (reference_service c) None r = Ok b /\ made c None r b.
Proof.
  intros c rs r depth n V N A F I S D. apply compressor_proof; [exact V|exact N|left; now apply A| |exact D].
  intros m L. pose proof (forbid_all c rs r V A F I m L) as P. specialize (S m L). unfold charts_suit, allowed_in_system in *.
  destruct (m_body m) as [|ct| |f [cs|ch]|f cs|f cs|a a'|k t| | | | |] eqn:B; try exact S; [|contradiction].
  intros q k Q K. destruct (S q k Q K) as ((t & T) & _). split; [exists t; exact T|]. intros _.
  assert (J : In m (facility_inputs c) \/ In m (models c)) by (destruct L as [(_ & L)|(x & k' & y & _ & _ & (_ & L))]; exact L).
  destruct (simplified_charts c m f (KnownStages cs) q k V J B Q K) as (X & _). destruct (X t T) as [-> | ->]; [|exact T].
  exfalso. exact (P q k Q K T).
Qed.

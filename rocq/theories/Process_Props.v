(** Properties C37 and C59 to C65 (process units, handlers, pipelines and sections): theorems. *)
From Coq Require Import List Bool ZArith Lia PeanoNat.
From Verif Require Import QcTac Num Base BaseLemmas Search_Model Stream_Model Stream_Spec Stream_Props Flash_Model Process_Model Process_Spec Process_Proofs Process_Proofs2 Process_Proofs3.
Import ListNotations.
Local Open Scope Qc_scope.

(** ** C37 Recirculation conserves mass *)

(** Whatever loops there are, in and after one another, and whatever their rates: what leaves the pipeline has the fluid, mass
    rate and standard rate of what entered it. *)
Theorem C37_pipeline : forall ph h us, consistent_service (ph_service ph) -> with_loops h us -> forall s s',
  served (ph_service ph) s -> propagate_many ph h us s = Return s' -> served (ph_service ph) s' /\ same_flow s s'.
Proof. exact with_loops_flow. Qed.
Print Assumptions C37_pipeline.

(** Configuring a loop with a rate: inside, the standard rate is larger by the rate; outside nothing changes; the run fails only
    if a unit inside the loop fails, with its error. *)
Theorem C37_loop : forall ph r i m sp inner rate h h' s,
  consistent_service (ph_service ph) -> served (ph_service ph) s -> 0 <= s_mass_rate s -> 0 <= rate ->
  dict_get Nat.eqb i (r_handlers r) = Some (RecirculationLoop m sp) ->
  r_units r = (m, DirectMixer) :: inner ++ [(sp, DirectSplitter)] ->
  apply_configuration r (i, RecirculationSetting rate) h = (Return tt, h') -> with_loops h' inner ->
  exists inside, s_fluid inside = s_fluid s /\ standard_rate inside = standard_rate s + rate /\
    match propagate_many ph h' inner inside with
    | Return out => exists s', run ph r s h' = (Return s', h') /\ same_flow s s' /\ s_fluid s' = s_fluid out
    | Raise e => run ph r s h' = (Raise e, h')
    end.
Proof. exact recirculation_proof. Qed.
Print Assumptions C37_loop.

(** A liquid remover in the loop breaks this: the mass that leaves depends on the recirculation rate. *)
Definition C37_dry (m : fluid_model) (p t : Qc) (v : Qc) : properties :=
  mk_properties t p (qz 50) (qz 2 * t) v (qc 13 10) 1 (average_molar_mass (fm_composition m)) (qc 4 5).
Definition C37_wet_service : service :=
  mk_service (fun m p t => Return (C43_props m p t (qz 2 * t))) (fun m p h g => Return (C43_props m p (h / qz 2) h))
    (fun f => Return (mk_fluid (f_model f) (C43_props (f_model f) (p_pressure (f_properties f)) (p_temperature (f_properties f)) (p_enthalpy (f_properties f)))))
    (fun m => qc 4 5).
Definition C37_wet : stream :=
  let m := mk_model SRK C43_methane in
  let p := C43_props m (qz 30) (qz 300) (qz 600) in
  mk_stream (mk_fluid m (mk_properties (p_temperature p) (p_pressure p) (p_density p) (p_enthalpy p) (p_z p) (p_kappa p) (qc 1 2) (p_molar_mass p) (p_standard_density p))) (qz 100).
Definition C37_heap (rate : Qc) : heap :=
  mk_heap (fun _ => None) (fun _ => rate) (fun _ => rate) (fun _ => 0) (fun _ => None) (fun _ => []).
Definition C37_physics (sv : service) : physics := mk_physics sv (fun kappa e hd mm z t p => Some (qz 2 * p)).
Theorem C37_liquid_refuted : exists ph units s, consistent_service (ph_service ph) /\ served (ph_service ph) s /\
  exists r1 r2 a b, 0 <= r1 /\ 0 <= r2 /\ propagate_many ph (C37_heap r1) units s = Return a /\
    propagate_many ph (C37_heap r2) units s = Return b /\ s_mass_rate a <> s_mass_rate b.
Proof.
  exists (C37_physics C37_wet_service), [(0%nat, DirectMixer); (1%nat, LiquidRemover); (2%nat, DirectSplitter)], C37_wet.
  split; [exact C43_service_consistent|]. split; [reflexivity|]. exists 0, (qz 30).
  assert (X : forall r, r = 0 \/ r = qz 30 -> exists a, propagate_many (C37_physics C37_wet_service) (C37_heap r)
    [(0%nat, DirectMixer); (1%nat, LiquidRemover); (2%nat, DirectSplitter)] C37_wet = Return a /\
    (r = 0 -> s_mass_rate a = qz 50) /\ (r = qz 30 -> s_mass_rate a <> qz 50)).
  { intros r R.
    destruct (propagate_many (C37_physics C37_wet_service) (C37_heap r)
      [(0%nat, DirectMixer); (1%nat, LiquidRemover); (2%nat, DirectSplitter)] C37_wet) as [a|e] eqn:E.
    - exists a. split; auto.
      assert (M := f_equal (fun o => match o with Return x => Some (this (s_mass_rate x)) | Raise _ => None end) E). cbv beta iota in M.
      split; intros ->.
      + apply Qc_is_canon. assert (M' : Some (this (qz 50)) = Some (this (s_mass_rate a))) by (rewrite <- M; vm_compute; reflexivity).
        apply (f_equal (fun o => match o with Some q => q | None => this 0 end)) in M'. cbv beta iota in M'. rewrite <- M'. reflexivity.
      + intros H. rewrite H in M. vm_compute in M. discriminate M.
    - exfalso. assert (M := f_equal (fun o => match o with Return x => true | Raise _ => false end) E).
      destruct R as [-> | ->]; vm_compute in M; discriminate M. }
  destruct (X 0 (or_introl eq_refl)) as (a & A1 & A2 & _). destruct (X (qz 30) (or_intror eq_refl)) as (b & B1 & _ & B2).
  exists a, b. repeat split; auto; try (vm_compute; congruence). rewrite (A2 eq_refl). intros H. apply (B2 eq_refl). auto.
Qed.
Print Assumptions C37_liquid_refuted.

(** A case: a loop with rate 24 around a choke and a loop with rate 48 around a compressor. *)
Definition C37_chart : chart := mk_chart (fun _ => 1) (fun _ => qz 10) (fun s r => Return (qz 1000, qc 1 2)) (qz 10) (qz 20).
Definition C37_units : list unit_ :=
  [(0%nat, DirectMixer); (1%nat, Choke); (2%nat, DirectMixer); (3%nat, Compressor C37_chart); (4%nat, DirectSplitter); (5%nat, DirectSplitter)].
Definition C37_state : heap :=
  mk_heap (fun _ => Some (qz 15)) (fun i => if Nat.eqb i 0 then qz 24 else qz 48) (fun i => if Nat.eqb i 5 then qz 24 else qz 48)
    (fun _ => qz 3) (fun _ => None) (fun _ => []).
Definition C37_in : stream := C43_stream C43_methane (qz 30) (qz 300) (qz 100).
Example C37_case : with_loops C37_state C37_units /\ served C43_service C37_in /\
  exists s, propagate_many (C37_physics C43_service) C37_state C37_units C37_in = Return s /\ s_pressure s <> s_pressure C37_in.
Proof.
  split.
  { apply (wl_loop C37_state 0%nat 5%nat [(1%nat, Choke); (2%nat, DirectMixer); (3%nat, Compressor C37_chart); (4%nat, DirectSplitter)] []);
      [reflexivity|vm_compute; congruence| |constructor].
    apply wl_unit; [exact I|]. apply (wl_loop C37_state 2%nat 4%nat [(3%nat, Compressor C37_chart)] []); [reflexivity|vm_compute; congruence| |constructor].
    apply wl_unit; [exact I|constructor]. }
  split; [reflexivity|].
  destruct (propagate_many (C37_physics C43_service) C37_state C37_units C37_in) as [s|e] eqn:E.
  - exists s. split; auto. assert (M := f_equal (fun o => match o with Return x => Some (this (s_pressure x)) | Raise _ => None end) E).
    cbv beta iota in M. intros H. rewrite H in M. vm_compute in M. discriminate M.
  - exfalso. assert (M := f_equal (fun o => match o with Return x => true | Raise _ => false end) E). vm_compute in M. discriminate M.
Qed.

(** ** C59 Section assembly *)

(** Anti-surge valves per compressor: the given units in the given order, each compressor in a loop of its own that reaches back
    to the compressor, or mixer or splitter of streams, before it; at most one choke, in front or at the end; all ids different. *)
Theorem C59_individual : forall us next anti control hs units,
  anti <> CommonASV -> NoDup (ids us) -> (forall i, In i (ids us) -> (i < next)%nat) ->
  assemble_section us next anti control = (hs, units) ->
  exists sts first last, units = choke_of first ++ concat (map units_of sts) ++ choke_of last /\
    map snd hs = flat_map loops_of sts ++ choke_handler_of first ++ choke_handler_of last /\
    concat (map given_of sts) = us /\ Forall well_looped sts /\ reach_back sts /\
    (first <> None <-> control = UpstreamChoke) /\ (last <> None <-> control = DownstreamChoke) /\
    NoDup (ids units) /\ NoDup (map fst hs).
Proof. exact assemble_individual_proof. Qed.
Print Assumptions C59_individual.

(** A common anti-surge valve: one loop around all units. *)
Theorem C59_common : forall us next control hs units,
  NoDup (ids us) -> (forall i, In i (ids us) -> (i < next)%nat) ->
  assemble_section us next CommonASV control = (hs, units) ->
  exists m s first last, units = choke_of first ++ ((m, DirectMixer) :: us ++ [(s, DirectSplitter)]) ++ choke_of last /\
    map snd hs = RecirculationLoop m s :: choke_handler_of first ++ choke_handler_of last /\
    (first <> None <-> control = UpstreamChoke) /\ (last <> None <-> control = DownstreamChoke) /\
    NoDup (ids units) /\ NoDup (map fst hs).
Proof. exact assemble_common_proof. Qed.
Print Assumptions C59_common.

Definition C59_units : list unit_ :=
  [(0%nat, TemperatureSetter (qz 300)); (1%nat, Compressor C37_chart); (2%nat, Splitter 1); (3%nat, LiquidRemover); (4%nat, Compressor C37_chart); (5%nat, Outlet)].
Example C59_case : NoDup (ids C59_units) /\ (forall i, In i (ids C59_units) -> (i < 6)%nat) /\
  ids (snd (assemble_section C59_units 6 IndividualASV UpstreamChoke)) = [12; 6; 0; 1; 7; 2; 9; 3; 4; 10; 5]%nat /\
  map snd (fst (assemble_section C59_units 6 IndividualASV UpstreamChoke)) = [RecirculationLoop 6%nat 7%nat; RecirculationLoop 9%nat 10%nat; ChokeHandler 12%nat].
Proof. split; [|split]; [repeat constructor; cbn; lia | cbn; lia | split; reflexivity]. Qed.

(** ** C60 Connections *)

(** The connections of a pipeline are exactly the pairs of neighbours in the concatenation of its sections, in order. *)
Theorem C60_connections : forall sections,
  connections sections = combine (ids (concat sections)) (tl (ids (concat sections))) /\
  (length (connections sections) = pred (length (concat sections)))%nat /\
  forall a b, In (a, b) (connections sections) <-> follows (concat sections) a b.
Proof. exact connections_proof. Qed.
Print Assumptions C60_connections.
Example C60_case : connections [firstn 2 C59_units; []; skipn 2 C59_units] = [(0, 1); (1, 2); (2, 3); (3, 4); (4, 5)]%nat.
Proof. reflexivity. Qed.

(** ** C61 Compressor *)

(** What a compressor returns: the inlet is gas, the speed is set, the rate is between the limits at that speed, the flow is kept,
    and the enthalpy gained is head over efficiency, within ten J/kg or a ten-thousandth. *)
Theorem C61_compressor : forall ph h i c s s', consistent_service (ph_service ph) -> served (ph_service ph) s ->
  propagate ph h (i, Compressor c) s = Return s' ->
  pure_vapor_threshold <= s_vapor_fraction s /\
  exists speed head efficiency, h_speed h i = Some speed /\ ch_min_rate c speed <= volumetric_rate s /\
    volumetric_rate s <= ch_max_rate c speed /\ ch_point c speed (volumetric_rate s) = Return (head, efficiency) /\
    same_flow s s' /\ 0 < s_pressure s' /\ 0 < s_temperature s' /\ 0 < s_density s' /\
    Qcabs (s_enthalpy s' - (s_enthalpy s + head / efficiency)) <= Qcmax (qz 10) (Qcabs (s_enthalpy s + head / efficiency) * qc 1 10000).
Proof. exact compressor_proof. Qed.
Print Assumptions C61_compressor.

(** Surge and stonewall are reported exactly when the rate is below and above the limits. *)
Theorem C61_limits : forall ph h i c s speed,
  h_speed h i = Some speed -> pure_vapor_threshold <= s_vapor_fraction s ->
  (forall r e, ch_point c speed r = Raise e -> e <> SurgeError /\ e <> StonewallError) ->
  (forall m p t g e, flash_ph (ph_service ph) m p t g = Raise e -> e <> SurgeError /\ e <> StonewallError) ->
  (propagate ph h (i, Compressor c) s = Raise SurgeError <-> volumetric_rate s < ch_min_rate c speed) /\
  (propagate ph h (i, Compressor c) s = Raise StonewallError <->
     ch_min_rate c speed <= volumetric_rate s /\ ch_max_rate c speed < volumetric_rate s).
Proof. exact compressor_limits_proof. Qed.
Print Assumptions C61_limits.

(** Liquid is reported whatever the rate. *)
Theorem C61_liquid : forall ph h i c s, s_vapor_fraction s < pure_vapor_threshold ->
  propagate ph h (i, Compressor c) s = Raise LiquidError.
Proof. exact compressor_liquid_proof. Qed.
Print Assumptions C61_liquid.

Example C61_case : exists s, propagate (C37_physics C43_service) C37_state (3%nat, Compressor C37_chart) C37_in = Return s.
Proof.
  destruct (propagate (C37_physics C43_service) C37_state (3%nat, Compressor C37_chart) C37_in) as [s|e] eqn:E; [eauto|].
  exfalso. assert (M := f_equal (fun o => match o with Return x => true | Raise _ => false end) E). vm_compute in M. discriminate M.
Qed.
Example C61_limits_case : h_speed C37_state 3%nat = Some (qz 15) /\ pure_vapor_threshold <= s_vapor_fraction C37_in /\
  (forall r e, ch_point C37_chart (qz 15) r = Raise e -> e <> SurgeError /\ e <> StonewallError) /\
  (forall m p t g e, flash_ph C43_service m p t g = Raise e -> e <> SurgeError /\ e <> StonewallError) /\
  volumetric_rate (C43_stream C43_methane (qz 30) (qz 300) (qz 10)) < ch_min_rate C37_chart (qz 15).
Proof. split; [reflexivity|]. split; [vm_compute; congruence|]. split; [discriminate|]. split; [discriminate|vm_compute; reflexivity]. Qed.

(** ** C62 Damping *)

(** Whatever the raw pressures: the damping factor stays between a tenth and one, and the pressure stays within any range that
    holds the start and the raw pressures (so it stays positive). *)
Theorem C62_range : forall raws p s lo hi, factor_in_range s ->
  lo <= p -> p <= hi -> Forall (fun raw => lo <= raw /\ raw <= hi) raws ->
  factor_in_range (snd (damped p s raws)) /\ lo <= fst (damped p s raws) /\ fst (damped p s raws) <= hi.
Proof. exact damped_proof. Qed.
Print Assumptions C62_range.

(** Each step closes at least a tenth of the gap to the raw pressure without passing it; the full step as long as nothing
    alternates. *)
Theorem C62_step : forall p raw s p' s', factor_in_range s -> adaptive_pressure_update p raw s = (p', s') ->
  Qcabs (raw - p') <= qc 9 10 * Qcabs (raw - p) /\ 0 <= (raw - p') * (raw - p) /\ factor_in_range s' /\
  ((d_flips s <= 0)%nat -> d_beta s = 1 -> p' = raw /\ d_beta s' = 1).
Proof. exact damped_step_proof. Qed.
Print Assumptions C62_step.
Example C62_case : factor_in_range damp_start /\
  this (d_beta (snd (damped (qz 100) damp_start [qz 150; qz 100; qz 150; qz 100]))) = this (qc 1 4).
Proof. split; [split; vm_compute; congruence|vm_compute; reflexivity]. Qed.

(** ** C63 Recirculation range *)

(** Recirculating at least the lower end keeps a compressor out of surge; at most the upper end, when there is room, out of
    stonewall; the lower end is positive when the inlet rate is below the minimum. *)
Theorem C63_range : forall ph h i c s speed, consistent_service (ph_service ph) -> served (ph_service ph) s ->
  0 < s_density s -> 0 <= s_mass_rate s -> h_speed h i = Some speed ->
  exists b, recirculation_range ph h i c s = Return b /\ 0 <= b_min b /\ 0 <= b_max b /\
    (forall r s', b_min b <= r -> add_rate r s = Return s' -> ch_min_rate c speed < volumetric_rate s') /\
    (forall r s', r <= b_max b -> 0 < b_max b -> add_rate r s = Return s' -> volumetric_rate s' < ch_max_rate c speed) /\
    (0 < b_min b -> volumetric_rate s < ch_min_rate c speed + recirculation_tolerance * s_standard_density s / hours_per_day / s_density s) /\
    (volumetric_rate s < ch_min_rate c speed -> 0 < b_min b).
Proof. exact recirculation_range_proof. Qed.
Print Assumptions C63_range.
Example C63_case : served C43_service C37_in /\ 0 < s_density C37_in /\ 0 <= s_mass_rate C37_in /\ h_speed C37_state 3%nat = Some (qz 15).
Proof. repeat split; vm_compute; congruence. Qed.

(** ** C64 Shafts *)

(** The speed range of a shaft is what all its compressors have in common. *)
Theorem C64_speed_boundary : forall charts,
  match speed_boundary charts with
  | Raise e => e = ValueErr /\ charts = []
  | Return b => charts <> [] /\
      forall v, (b_min b <= v /\ v <= b_max b) <-> (forall c, In c charts -> ch_min_speed c <= v /\ v <= ch_max_speed c)
  end.
Proof. exact speed_boundary_proof. Qed.
Print Assumptions C64_speed_boundary.

(** Configuring a shaft sets the speed of exactly its compressors. *)
Theorem C64_variable_speed : forall r i cs v h, dict_get Nat.eqb i (r_handlers r) = Some (VariableSpeedShaft cs) ->
  exists h', apply_configuration r (i, SpeedSetting v) h = (Return tt, h') /\ runs_at i cs v h h'.
Proof. exact variable_speed_proof. Qed.
Print Assumptions C64_variable_speed.

(** A shaft with one speed takes a speed once; a different one later is refused and changes nothing. *)
Theorem C64_single_speed : forall r i cs v h, dict_get Nat.eqb i (r_handlers r) = Some (SingleSpeedShaft cs) ->
  match h_shaft h i with
  | None => exists h', apply_configuration r (i, SpeedSetting v) h = (Return tt, h') /\ runs_at i cs v h h'
  | Some w => apply_configuration r (i, SpeedSetting v) h = (if Qceqb v w then Return tt else Raise AttributeErr, h)
  end.
Proof. exact single_speed_proof. Qed.
Print Assumptions C64_single_speed.

(** Resetting a shaft leaves the speeds of the compressors. *)
Theorem C64_reset : forall r i cs h,
  dict_get Nat.eqb i (r_handlers r) = Some (SingleSpeedShaft cs) \/ dict_get Nat.eqb i (r_handlers r) = Some (VariableSpeedShaft cs) ->
  exists h', reset_configuration r i h = (Return tt, h') /\ h_shaft h' i = None /\ h_speed h' = h_speed h.
Proof. exact reset_shaft_proof. Qed.
Print Assumptions C64_reset.

(** A compressor can be registered once. *)
Theorem C64_connect : forall cs c,
  match connect cs c with
  | Ok cs' => ~ In c cs /\ cs' = cs ++ [c]
  | Err e => In c cs /\ e = ProgrammingError
  end.
Proof. exact connect_proof. Qed.
Print Assumptions C64_connect.
Example C64_case : exists b, speed_boundary [C37_chart; mk_chart (fun _ => 0) (fun _ => 1) (fun _ _ => Raise ValueErr) (qz 12) (qz 30)] = Return b /\
  this (b_min b) = this (qz 12) /\ this (b_max b) = this (qz 20).
Proof. eexists. split; [reflexivity|]. split; reflexivity. Qed.
Example C64_single_case : exists r, dict_get Nat.eqb 7%nat (r_handlers r) = Some (SingleSpeedShaft [1; 2]%nat) /\ h_shaft C37_state 7%nat = None.
Proof. exists (new_runner [(7%nat, SingleSpeedShaft [1; 2]%nat)] []). split; reflexivity. Qed.

(** ** C65 The other units *)

(** Chokes and pressure droppers take off exactly their pressure drop, and report the inlet pressure exactly when it is too low. *)
Theorem C65_pressure_drop : forall ph d s, consistent_service (ph_service ph) -> served (ph_service ph) s -> 0 <= s_mass_rate s -> 0 <= d ->
  match drop_pressure ph d s with
  | Return s' => d <= s_pressure s \/ d = 0
  | Raise e => e = InletPressureError /\ s_pressure s < d \/ flash_pt (ph_service ph) (s_model s) (s_pressure s - d) (s_temperature s) = Raise e
  end /\
  (0 < d -> s_pressure s < d -> drop_pressure ph d s = Raise InletPressureError) /\
  (forall s', drop_pressure ph d s = Return s' ->
     s_pressure s' = s_pressure s - d /\ s_temperature s' = s_temperature s /\ same_flow s s').
Proof. exact drop_proof. Qed.
Print Assumptions C65_pressure_drop.

(** A choke cannot be configured with a negative pressure change. *)
Theorem C65_choke_configuration : forall r i c v h, dict_get Nat.eqb i (r_handlers r) = Some (ChokeHandler c) ->
  (v < 0 -> apply_configuration r (i, ChokeSetting v) h = (Raise ValueErr, h)) /\
  (0 <= v -> exists h', apply_configuration r (i, ChokeSetting v) h = (Return tt, h') /\ h_choke h' c = v /\
     (forall j, j <> c -> h_choke h' j = h_choke h j) /\ h_speed h' = h_speed h /\ h_mix h' = h_mix h /\ h_split h' = h_split h).
Proof. exact choke_handler_proof. Qed.
Print Assumptions C65_choke_configuration.

(** A splitter divides the flow; it reports the offtake exactly when it is more than what comes in. *)
Theorem C65_splitter : forall ph rate s, consistent_service (ph_service ph) -> served (ph_service ph) s ->
  (standard_rate s < rate -> splitter_propagate ph rate s = Raise OfftakeError) /\
  (splitter_propagate ph rate s = Raise OfftakeError -> standard_rate s < rate \/
     flash_pt (ph_service ph) (s_model s) (s_pressure s) (s_temperature s) = Raise OfftakeError) /\
  (forall remaining split, splitter_propagate ph rate s = Return remaining -> split_stream ph rate s = Return split ->
     s_mass_rate remaining + s_mass_rate split = s_mass_rate s /\ standard_rate remaining + standard_rate split = standard_rate s /\
     standard_rate split = rate /\
     s_pressure remaining = s_pressure s /\ s_temperature remaining = s_temperature s /\ s_model remaining = s_model s /\
     s_pressure split = s_pressure s /\ s_temperature split = s_temperature s /\ s_model split = s_model s).
Proof. exact splitter_proof. Qed.
Print Assumptions C65_splitter.
Theorem C65_temperature : forall ph t s s', consistent_service (ph_service ph) -> served (ph_service ph) s ->
  temperature_propagate ph t s = Return s' -> s_temperature s' = t /\ s_pressure s' = s_pressure s /\ same_flow s s'.
Proof. exact temperature_proof. Qed.
Print Assumptions C65_temperature.

(** A liquid remover leaves gas alone; otherwise the mass of the vapour is kept. *)
Theorem C65_liquid_remover : forall ph s s', remove_liquid_propagate ph s = Return s' ->
  (pure_vapor_threshold <= s_vapor_fraction s /\ s' = s) \/
  (s_vapor_fraction s < pure_vapor_threshold /\ exists gas, remove_liquid (ph_service ph) (s_fluid s) = Return gas /\
     s_fluid s' = gas /\ 0 < s_molar_mass s /\
     s_mass_rate s' = s_mass_rate s * (s_vapor_fraction s * p_molar_mass (f_properties gas) / s_molar_mass s)).
Proof. exact liquid_remover_proof. Qed.
Print Assumptions C65_liquid_remover.
Example C65_case : served C43_service C37_in /\ 0 <= s_mass_rate C37_in /\
  (exists s, drop_pressure (C37_physics C43_service) (qz 5) C37_in = Return s) /\
  (exists a b, splitter_propagate (C37_physics C43_service) (qz 240) C37_in = Return a /\ split_stream (C37_physics C43_service) (qz 240) C37_in = Return b).
Proof.
  split; [reflexivity|]. split; [vm_compute; congruence|]. split.
  - destruct (drop_pressure (C37_physics C43_service) (qz 5) C37_in) as [s|e] eqn:E; [eauto|]. exfalso.
    assert (M := f_equal (fun o => match o with Return x => true | Raise _ => false end) E). vm_compute in M. discriminate M.
  - destruct (splitter_propagate (C37_physics C43_service) (qz 240) C37_in) as [s|e] eqn:E;
    [destruct (split_stream (C37_physics C43_service) (qz 240) C37_in) as [t|e] eqn:F; [eauto|]|]; exfalso.
    + assert (M := f_equal (fun o => match o with Return x => true | Raise _ => false end) F). vm_compute in M. discriminate M.
    + assert (M := f_equal (fun o => match o with Return x => true | Raise _ => false end) E). vm_compute in M. discriminate M.
Qed.

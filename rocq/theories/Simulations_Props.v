(** C128: the events of a model file.  C129: its process simulations.  C130: the streams of those.  C94: a division is unique. *)
From Coq Require Import PeanoNat String Lia.
From Verif Require Import QcTac Base Num Time_Model Time_Spec Units_Model Rates_Model Expr_Model Expr_Spec Vars_Model Input_Model Input_Spec Energy_Model Search_Model
  Stream_Model Process_Model Process_Spec Sections_Model Sections_Spec Sections_Props Consumer_Model Consumer_Spec Duty_Model Simulations_Model Simulations_Spec Simulations_Proofs
  Simulations_Proofs2 Simulations_Proofs3 Simulations_Proofs4 Simulations_Proofs5.
Local Open Scope list_scope.
Local Open Scope Qc_scope.

(** ** C94 The division into sections is determined by the units and the constraints. *)
Theorem C94_unique : forall items cs ss1 ss2, distinct_units items -> fitting items cs -> division items cs ss1 -> division items cs ss2 -> ss1 = ss2.
Proof. exact unique_proof. Qed.
Print Assumptions C94_unique.

(** ** C128 Events: what is made of them, and which are accepted *)
Theorem C128_events : forall es ps,
  (forall r, map_events es ps = Ok r -> Forall2 (event_made ps) es r) /\
  ((exists r, map_events es ps = Ok r) <-> NoDup (map we_name es) /\ forall p, In p ps -> In (wp_ref p) (map we_name es)) /\
  (forall e, map_events es ps = Err e -> e = ValidationError).
Proof. exact events_proof. Qed.
Print Assumptions C128_events.
(** The event with a name, and the event of a process event with a name *)
Theorem C128_lookup : forall es ps r, map_events es ps = Ok r ->
  (forall w, In w es -> exists e, get_event_by_name r (we_name w) = Some e /\ event_made ps w e) /\
  (forall name, ~ In name (map we_name es) -> get_event_by_name r name = None) /\
  (* a process event leads to an event that has one of this name *)
  (forall p, In p ps -> exists q w e, In q ps /\ pe_name (wp_event q) = pe_name (wp_event p) /\ In w es /\ we_name w = wp_ref q /\
     get_event_by_process_name r (pe_name (wp_event p)) = Some e /\ event_made ps w e) /\
  (* to its own, if the name is used once *)
  (NoDup (map (fun p => pe_name (wp_event p)) ps) -> forall p, In p ps -> exists w e, In w es /\ we_name w = wp_ref p /\
     get_event_by_process_name r (pe_name (wp_event p)) = Some e /\ event_made ps w e) /\
  (forall name, ~ In name (map (fun p => pe_name (wp_event p)) ps) -> get_event_by_process_name r name = None).
Proof. exact lookup_proof. Qed.
Print Assumptions C128_lookup.
Definition C128_process (name ref : string) : written_process_event := mkWrittenProcessEvent (mkProcessEvent name 0) ref.
Definition C128_written : list written_event := [mkWrittenEvent "rebundle" 63745056000 0; mkWrittenEvent "later" 63776592000 0].
Example C128_case : exists r, map_events C128_written [C128_process "low" "later"; C128_process "high" "rebundle"; C128_process "both" "later"] = Ok r /\
  map ev_process r = [[mkProcessEvent "high" 0]; [mkProcessEvent "low" 0; mkProcessEvent "both" 0]] /\
  option_map ev_start (get_event_by_process_name r "low") = Some 63776592000%Z.
Proof. eexists. split; [vm_compute; reflexivity|]. split; reflexivity. Qed.
(** "The event of a process event is the one it refers to" is false: names of process events need not be unique, and the
    process event of another event is found. *)
Theorem C128_same_name_refuted : exists es ps r p e w, map_events es ps = Ok r /\ In p ps /\ In w es /\ we_name w = wp_ref p /\
  get_event_by_process_name r (pe_name (wp_event p)) = Some e /\ ev_name e <> we_name w /\ ev_start e <> we_start w.
Proof.
  exists C128_written, [C128_process "low" "rebundle"; C128_process "low" "later"]. eexists. exists (C128_process "low" "later"). eexists. exists (mkWrittenEvent "later" 63776592000 0).
  split; [vm_compute; reflexivity|]. split; [cbn; auto|]. split; [cbn; auto|]. split; [reflexivity|]. split; [vm_compute; reflexivity|]. split; discriminate.
Qed.
Print Assumptions C128_same_name_refuted.

(** ** C129 Process simulations: what is made of them, and which are accepted *)
Theorem C129_simulations : forall pow tv start stop extra ps vars vm lib events simulations,
  (start < stop)%Z -> (stop <= DT_MAX)%Z -> get_model_periods tv stop (Some start) extra = Ok ps -> make_variables_map ps vars = Ok vm ->
  (forall r l, dict_get String.eqb r vars = Some l -> List.length l = List.length ps) ->
  library_ok lib -> (forall s, In s simulations -> NoDup (map fst (wm_constraints s))) -> rates_evaluable pow vars (List.length ps) lib simulations ->
  (forall made, process_simulations pow vm (Some start) stop lib events simulations = Ok made ->
     Forall2 (simulation_made pow vars (List.length ps) lib events) simulations made) /\
  ((exists made, process_simulations pow vm (Some start) stop lib events simulations = Ok made) <->
     forall s, In s simulations -> simulation_accepted pow vars (List.length ps) lib events s).
Proof. exact process_proof. Qed.
Print Assumptions C129_simulations.
(** C129 fails for models without a START, as C127 does. *)
Theorem C129_no_start_refuted : forall pow tv stop extra ps vars vm lib events simulations a, earliest a tv -> (DEFAULT_START < a)%Z -> (a < stop)%Z ->
  get_model_periods tv stop None extra = Ok ps -> make_variables_map ps vars = Ok vm ->
  process_simulations pow vm None stop lib events simulations = Err ValueError.
Proof. exact no_process_start. Qed.
Print Assumptions C129_no_start_refuted.

(** Two pipelines: a cooler, a compressor, a side stream, a compressor with a cooler, and a valve; and one with a single compressor.
    The compressor called low is replaced when the event occurs.  The gas that the first pipeline cannot take goes to the second. *)
Definition C129_rate (v : expression_input) : written_rate := mkWrittenRate v STREAM_DAY None None.
Definition C129_stream (v : expression_input) : written_stream := mkWrittenStream (inl "gas"%string) (INumber (qz 30)) (INumber (qz 20)) (C129_rate v).
Definition C129_chart : chart := C94_chart.
Definition C129_big : chart := mk_chart (fun _ => 1%Qc) (fun _ => qz 20) (fun s r => Return (qz 2000, qc 1 2)) (qz 10) (qz 20).
Definition C129_train : written_pipeline :=
  mkWrittenPipeline
    [(None, inl "cooler"); (Some "low", inl "stage"); (None, inr (WMixer (inl "side"))); (Some "cooler", inr (WTemperatureSetter (INumber (qz 30))));
     (Some "high", inl "stage"); (None, inr (WPressureDropper (INumber (qz 1))))]%string
    [mkWrittenChange 0 "low" "stage" "big" "rebundled"]%string.
Definition C129_library : library :=
  mkLibrary [("cooler", WTemperatureSetter (INumber (qz 35))); ("stage", WCompressor C129_chart); ("big", WCompressor C129_big)]%string
    [("side", C129_stream (INumber (qz 500))); ("inlet", C129_stream (IText [TRef "w;rate"]))]%string
    [("gas", mkFluid 1 [INumber (qz 9); IText [TRef "w;co2"]])]%string
    [("train", C129_train); ("spare", mkWrittenPipeline [(None, inl "stage")] [])]%string.
Definition C129_outlet : constraint := mk_constraint None "80" DownstreamChoke IndividualASV.
Definition C129_simulation : written_simulation :=
  mkWrittenSimulation ["train"; "spare"]%string [("train", [C129_outlet; C94_inner]); ("spare", [C129_outlet])]%string
    (WCommon (inl "inlet"%string) [mkWrittenSetting [INumber (qc 1 2); INumber (qc 1 2)] None;
                                   mkWrittenSetting [INumber (qz 1); INumber 0] (Some [("train", "spare")]%string)]).
Definition C129_vars : variables_dict := [("w;rate", [qz 288; qz 0]); ("w;co2", [qz 1; qz 2])]%string.
Definition C129_periods : list period := [mkPeriod 63713433600 63745056000; mkPeriod 63745056000 63776592000].
Definition C129_run (events : list written_event) (process_events : list written_process_event) (lib : library) (s : written_simulation) :
  result (list (list mapped * mapped_distribution)) :=
  do made <- map_events events process_events;
  do vm <- make_variables_map C129_periods C129_vars;
  process_simulations (fun x _ => x) vm (Some 63713433600%Z) 63776592000 lib made [s].
Definition C129_made := C129_run C128_written [C128_process "rebundled" "rebundle"] C129_library C129_simulation.
Example C129_case :
  get_model_periods [63713433600; 63745056000]%Z 63776592000 (Some 63713433600%Z) [] = Ok C129_periods /\ library_ok C129_library /\
  NoDup (map fst (wm_constraints C129_simulation)) /\
  match C129_made with
  | Ok [([a; b], Common inlet [x; y])] =>
      map ids (p_sections (mp_pipeline a)) = [[6; 8; 0; 1; 9]; [2; 11; 3; 4; 12; 5; 14; 7]]%nat /\ mp_shaft a = [1; 4]%nat /\ mp_shaft b = [0]%nat /\
      map (fun c => (cg_target c, cg_time c)) (mp_changes a) = [(1%nat, 63745056000%Z)] /\ map fst (mp_settings a) = [0; 2; 3; 5]%nat /\
      st_rates inlet = [qz 288; qz 0] /\ snd x = [] /\ snd y = [(0, 1)]%nat
  | _ => False
  end.
Proof.
  split; [vm_compute; reflexivity|]. split; [repeat split; cbn; repeat constructor; cbn; intuition discriminate|].
  split; [cbn; repeat constructor; cbn; intuition discriminate|]. vm_compute. repeat split.
Qed.
Example C129_case_evaluable : rates_evaluable (fun x _ => x) C129_vars 2 C129_library [C129_simulation].
Proof.
  assert (forall e, evaluable (fun x _ => x) C129_vars 2 e -> rate_evaluable (fun x _ => x) C129_vars 2 (C129_rate e)) as R.
  { intros e E. split; [exact E|]. split; discriminate. }
  split; [|split; [|split]].
  - intros name w [E|[E|[]]]; injection E as _ <-; apply R; cbn; [exact Logic.I|eexists; vm_compute; reflexivity].
  - intros name w r [E|[E|[E|[]]]]; injection E as _ <-; intros [].
  - intros name p o w r [E|[E|[]]]; injection E as _ <-; cbn; intros H; repeat (destruct H as [H|H]; [try discriminate H; injection H as _ <-; cbn; try tauto|]); try destruct H.
    intros (w & D & _). discriminate D.
  - intros s r [<-|[]] (w & D & _). discriminate D.
Qed.
(** what is not accepted *)
Example C129_case_refused :
  C129_run C128_written [] C129_library C129_simulation = Err ValidationError /\
  C129_run C128_written [C128_process "rebundled" "rebundle"] C129_library
    (mkWrittenSimulation ["train"]%string [("train", [C129_outlet; C94_inner]); ("spare", [C129_outlet])]%string (WIndividual [])) = Err ValidationError /\
  C129_run C128_written [C128_process "rebundled" "rebundle"] C129_library
    (mkWrittenSimulation ["spare"]%string [("spare", [C129_outlet])]%string (WIndividual [inr (C129_stream (INumber (qz (-1))))])) = Err ValidationError /\
  C129_run C128_written [C128_process "rebundled" "rebundle"] C129_library
    (mkWrittenSimulation ["spare"]%string [("spare", [C129_outlet])]%string (WCommon (inl "inlet") [mkWrittenSetting [INumber 1] (Some [("spare", "train")])])%string) = Err ValidationError.
Proof. repeat split; vm_compute; reflexivity. Qed.

(** "There is a rate fraction, or an inlet stream, for every target" is not checked. *)
Theorem C129_fractions_refuted : exists r r' settings inlets,
  C129_run [] [] C129_library (mkWrittenSimulation ["spare"]%string [("spare", [C129_outlet])]%string (WCommon (inl "inlet"%string) settings)) = Ok r /\
  Exists (fun s => List.length (wt_fractions s) <> 1%nat) settings /\
  C129_run [] [] C129_library (mkWrittenSimulation ["spare"]%string [("spare", [C129_outlet])]%string (WIndividual inlets)) = Ok r' /\ List.length inlets <> 1%nat.
Proof.
  eexists. eexists. exists [mkWrittenSetting [INumber (qc 1 2); INumber (qc 1 2); INumber (qc 1 2)] None], [inl "inlet"; inl "side"]%string.
  split; [vm_compute; reflexivity|]. split; [left; discriminate|]. split; [vm_compute; reflexivity|]. discriminate.
Qed.
Print Assumptions C129_fractions_refuted.
(** "Every target is listed once" is not checked; an overflow to it reaches only the last of them. *)
Theorem C129_twice_refuted : exists m d, 
  C129_run C128_written [C128_process "rebundled" "rebundle"] C129_library
    (mkWrittenSimulation ["train"; "spare"; "spare"]%string [("train", [C129_outlet; C94_inner]); ("spare", [C129_outlet])]%string
       (WCommon (inl "inlet"%string) [mkWrittenSetting [INumber 1; INumber 0; INumber 0] (Some [("train", "spare")]%string)])) = Ok [(m, d)] /\
  map mp_name m = ["train"; "spare"; "spare"]%string /\ match d with Common _ [s] => snd s = [(0, 2)]%nat | _ => False end.
Proof. eexists. eexists. split; [vm_compute; reflexivity|]. split; reflexivity. Qed.
Print Assumptions C129_twice_refuted.
(** "A change replaces the unit it says it replaces" is not checked: the unit to change from is never read. *)
Theorem C129_change_from_refuted : exists units target from to_ ref r lib,
  lib = mkLibrary [("stage", WCompressor C129_chart); ("big", WCompressor C129_big)]%string (lib_streams C129_library) (lib_fluids C129_library)
          [("spare", mkWrittenPipeline units [mkWrittenChange 0 target from to_ ref])]%string /\
  ~ In from (map fst (lib_units lib)) /\
  C129_run C128_written [C128_process "rebundled" "rebundle"] lib (mkWrittenSimulation ["spare"]%string [("spare", [C129_outlet])]%string (WIndividual [])) = Ok r.
Proof.
  exists [(Some "low", inl "stage")]%string, "low"%string, "no such unit"%string, "big"%string, "rebundled"%string. eexists. eexists. split; [reflexivity|].
  split; [cbn; intuition discriminate|]. vm_compute. reflexivity.
Qed.
Print Assumptions C129_change_from_refuted.
(** "What is not accepted is refused with a validation error" is false: a change of a unit that is not there raises a KeyError. *)
Theorem C129_target_refuted : exists units target from to_ ref lib,
  lib = mkLibrary [("stage", WCompressor C129_chart); ("big", WCompressor C129_big)]%string (lib_streams C129_library) (lib_fluids C129_library)
          [("spare", mkWrittenPipeline units [mkWrittenChange 0 target from to_ ref])]%string /\
  C129_run C128_written [C128_process "rebundled" "rebundle"] lib (mkWrittenSimulation ["spare"]%string [("spare", [C129_outlet])]%string (WIndividual [])) = Err KeyError.
Proof.
  exists [(Some "low", inl "stage")]%string, "hihg"%string, "stage"%string, "big"%string, "rebundled"%string. eexists. split; [reflexivity|]. vm_compute. reflexivity.
Qed.
Print Assumptions C129_target_refuted.

(** ** C130 The rate of a stream in every period: what is written, or nothing where its condition is zero; negative rates are refused. *)
Theorem C130_rates : forall pow tv start stop extra ps vars vm, let n := List.length ps in
  (start < stop)%Z -> (stop <= DT_MAX)%Z -> get_model_periods tv stop (Some start) extra = Ok ps -> make_variables_map ps vars = Ok vm ->
  (forall r l, dict_get String.eqb r vars = Some l -> List.length l = n) ->
  exists sub, get_subset_for_period vm (mkPeriod start stop) = Ok sub /\
  forall r, rate_evaluable pow vars n r ->
    (forall l, map_rate pow sub r = Ok l -> rate_series pow vars n r l) /\
    ((exists l, map_rate pow sub r = Ok l) <-> rate_not_negative pow vars n r) /\
    (forall e, map_rate pow sub r = Err e -> e = ValidationError).
Proof. exact rates_proof. Qed.
Print Assumptions C130_rates.
(** A rate per calendar day is the same as one per stream day: there is no regularity. *)
Theorem C130_types : forall pow tv start stop extra ps vars vm sub v c cs l,
  (start < stop)%Z -> (stop <= DT_MAX)%Z -> get_model_periods tv stop (Some start) extra = Ok ps -> make_variables_map ps vars = Ok vm ->
  (forall r l, dict_get String.eqb r vars = Some l -> List.length l = List.length ps) ->
  get_subset_for_period vm (mkPeriod start stop) = Ok sub -> rate_evaluable pow vars (List.length ps) (mkWrittenRate v STREAM_DAY c cs) ->
  (map_rate pow sub (mkWrittenRate v STREAM_DAY c cs) = Ok l <-> map_rate pow sub (mkWrittenRate v CALENDAR_DAY c cs) = Ok l).
Proof. exact types_proof. Qed.
Print Assumptions C130_types.
(** The fluid of a stream in every period *)
Theorem C130_fluid : forall pow tv start stop extra ps vars vm sub f, let n := List.length ps in
  (start < stop)%Z -> get_model_periods tv stop (Some start) extra = Ok ps -> make_variables_map ps vars = Ok vm ->
  (forall r l, dict_get String.eqb r vars = Some l -> List.length l = n) ->
  get_subset_for_period vm (mkPeriod start stop) = Ok sub -> (forall e, In e (fl_components f) -> evaluable pow vars n e) ->
  (forall k p, nth_error ps k = Some p ->
     (forall r, fluid_in_period pow sub f p = Ok r -> fst r = fl_eos f /\ Forall2 (fun e x => input_at pow vars n e k x) (fl_components f) (snd r)) /\
     ((exists r, fluid_in_period pow sub f p = Ok r) <-> forall e x, In e (fl_components f) -> input_at pow vars n e k x -> (0 <= x)%Qc)) /\
  (forall p, ~ In p ps -> fluid_in_period pow sub f p = Err ProgrammingError).
Proof. exact fluids_proof. Qed.
Print Assumptions C130_fluid.
Example C130_case : exists sub, (do vm <- make_variables_map C129_periods C129_vars; get_subset_for_period vm (mkPeriod 63713433600 63776592000)) = Ok sub /\
  map_rate (fun x _ => x) sub (mkWrittenRate (INumber (qz 7)) CALENDAR_DAY (Some (IText [TRef "w;rate"%string])) None) = Ok [qz 7; 0] /\
  map_rate (fun x _ => x) sub (C129_rate (INumber (qz (-7)))) = Err ValidationError /\
  fluid_in_period (fun x _ => x) sub (mkFluid 1 [INumber (qz 9); IText [TRef "w;co2"%string]]) (mkPeriod 63745056000 63776592000) = Ok (1%nat, [qz 9; qz 2]).
Proof. eexists. split; [vm_compute; reflexivity|]. split; [vm_compute; reflexivity|]. split; vm_compute; reflexivity. Qed.

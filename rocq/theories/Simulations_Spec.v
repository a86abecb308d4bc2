(** Vocabulary for events and process simulations. *)
From Coq Require Import PeanoNat String.
From Verif Require Import QcTac Base Time_Model Num Expr_Model Expr_Spec Units_Model Rates_Model Input_Model Energy_Model Stream_Model Process_Model Process_Spec
  Sections_Model Sections_Spec Consumer_Model Consumer_Spec Simulations_Model.
Local Open Scope list_scope.
Local Open Scope Qc_scope.

(** the process events that are written for the event [name], in the order they are written *)
Definition refers_to (name : string) (p : written_process_event) : bool := if string_dec (wp_ref p) name then true else false.
Definition own_process_events (name : string) (ps : list written_process_event) : list process_event := map wp_event (filter (refers_to name) ps).
(** an event as it is written, with its process events *)
Definition event_made (ps : list written_process_event) (w : written_event) (e : ecalc_event) : Prop :=
  ev_name e = we_name w /\ ev_start e = we_start w /\ ev_rest e = we_rest w /\ ev_process e = own_process_events (we_name w) ps.

(** what a reference or a definition in its place stands for *)
Definition stands_for {A} (d : list (string * A)) (x : string + A) (y : A) : Prop :=
  match x with inl r => In (r, y) d | inr z => y = z end.

Section Simulations.
  Variable pow : Qc -> Qc -> Qc.
  Variables (vars : variables_dict) (n : nat).

  (** the rate in period number [k]: what is written, or nothing where a condition is zero *)
  Definition rate_common (r : written_rate) : conditions_and_loss := mkCommon (wr_condition r) (wr_conditions r) None.
  Definition rate_written (r : written_rate) (k : nat) (v : Qc) : Prop :=
    exists x b, input_at pow vars n (wr_value r) k x /\ in_use pow vars n (rate_common r) k b /\ v = if b then x else 0.
  Definition rate_not_negative (r : written_rate) : Prop := forall k v, (k < n)%nat -> rate_written r k v -> 0 <= v.
  Definition rate_series (r : written_rate) (l : list Qc) : Prop :=
    List.length l = n /\ forall k v, (k < n)%nat -> nth_error l k = Some v <-> rate_written r k v.
  (** the rate can be evaluated: one condition, or a list of them that is not empty, or none *)
  Definition rate_evaluable (r : written_rate) : Prop :=
    evaluable pow vars n (wr_value r) /\
    (forall e, wr_condition r = Some e -> evaluable pow vars n e /\ wr_conditions r = None) /\
    (forall es, wr_conditions r = Some es -> es <> [] /\ forall e, In e es -> well_written_input vars e).

  Variable lib : library.
  (** a stream that can be made, and what is made of it *)
  Definition stream_known (x : string + written_stream) : Prop :=
    exists w f, stands_for (lib_streams lib) x w /\ stands_for (lib_fluids lib) (ws_fluid w) f /\ rate_not_negative (ws_rate w).
  Definition stream_made (x : string + written_stream) (s : stream_series) : Prop :=
    exists w f, stands_for (lib_streams lib) x w /\ stands_for (lib_fluids lib) (ws_fluid w) f /\
      st_fluid s = f /\ st_pressure s = ws_pressure w /\ st_temperature s = ws_temperature w /\ rate_series (ws_rate w) (st_rates s).
  (** a unit that can be made *)
  Definition unit_known (x : string + written_unit) : Prop :=
    exists w, stands_for (lib_units lib) x w /\
      match w with WMixer s => stream_known s | WSplitter r => rate_not_negative r | _ => True end.
  (** the unit made of a definition: its settings are not in it *)
  Definition kind_of (w : written_unit) (u : unit_kind) : Prop :=
    match w with
    | WCompressor c => u = Compressor c
    | WPressureDropper _ => u = PressureDropper 0
    | WTemperatureSetter _ => u = TemperatureSetter 0
    | WLiquidRemover => u = LiquidRemover
    | WMixer _ => u = Mixer None
    | WSplitter _ => u = Splitter 0
    end.
  (** the settings the user gives for a unit *)
  Definition setting_of (w : written_unit) (s : unit_setting) : Prop :=
    match w, s with
    | WPressureDropper d, SetDrop d' => d' = d
    | WTemperatureSetter t, SetTemperature t' => t' = t
    | WMixer x, SetSidestream m => stream_made x m
    | WSplitter r, SetOfftake l => rate_series r l
    | _, _ => False
    end.
  (** the units of a pipeline, with their names; their place in the list is their id *)
  Definition items_made (units : list (option string * (string + written_unit))) (items : list item) : Prop :=
    List.length items = List.length units /\
    forall i name x, nth_error units i = Some (name, x) ->
      exists w u, stands_for (lib_units lib) x w /\ kind_of w u /\ nth_error items i = Some (name, (i, u)).
  Definition settings_made (units : list (option string * (string + written_unit))) (settings : list (unit_id * unit_setting)) : Prop :=
    NoDup (map fst settings) /\
    (forall i s, In (i, s) settings -> exists name x w, nth_error units i = Some (name, x) /\ stands_for (lib_units lib) x w /\ setting_of w s) /\
    (forall i name x w, nth_error units i = Some (name, x) -> stands_for (lib_units lib) x w ->
       (exists s, In (i, s) settings) \/ (exists c, w = WCompressor c) \/ w = WLiquidRemover).

  Variable events : list ecalc_event.
  (** a change of a pipeline: at the start of an event that has the process event it refers to, a named unit gets another chart *)
  Definition happens_at (ref : string) (t : datetime) : Prop := exists e p, In e events /\ In p (ev_process e) /\ pe_name p = ref /\ ev_start e = t.
  Definition change_accepted (items : list item) (w : written_change) : Prop :=
    (exists t, happens_at (wc_ref w) t) /\ (exists c, In (wc_to w, WCompressor c) (lib_units lib)) /\ exists u, named items (wc_target w) u.
  Definition change_made (items : list item) (w : written_change) (c : change) : Prop :=
    happens_at (wc_ref w) (cg_time c) /\ In (wc_to w, WCompressor (cg_to c)) (lib_units lib) /\ cg_action c = wc_action w /\
    exists u, named items (wc_target w) u /\ cg_target c = fst u.

  (** the pipeline made of the units and the constraints: an inlet, the units in order with nothing but loops and chokes added, and an
      outlet; the sections are those of a division into acceptable ones, each with the valves and the choke its constraint asks for, and
      every compressor is in a loop *)
  Definition pipeline_made (items : list item) (cs : list constraint) (p : pipeline) : Prop :=
    exists ss inlet body outlet, fitting items cs /\ division items cs ss /\ Forall acceptable_section ss /\
      concat (p_sections p) = (inlet, Inlet) :: body ++ [(outlet, Outlet)] /\ filter from_user body = listed items /\
      map (filter from_user) (p_sections p) = map s_units ss /\ NoDup (ids (concat (p_sections p))) /\
      (forall a b, In (a, b) (p_connections p) <-> follows (concat (p_sections p)) a b) /\
      (forall k s, nth_error ss k = Some s -> exists a us b, nth_error (p_sections p) k = Some (a ++ us ++ b) /\ shaped s us /\
         Forall (fun u => snd u = Inlet) a /\ Forall (fun u => snd u = Outlet) b) /\
      (forall u, In u (listed items) -> compresses u -> protected_in (concat (p_sections p)) (p_handlers p) u).
  (** one target of a simulation *)
  Definition target_accepted (constraints : list (string * list constraint)) (name : string) : Prop :=
    exists w items cs, In (name, w) (lib_pipelines lib) /\ (forall o x, In (o, x) (wl_units w) -> unit_known x) /\ items_made (wl_units w) items /\
      In (name, cs) constraints /\ fitting items cs /\ (exists ss, division items cs ss /\ Forall acceptable_section ss) /\
      forall g, In g (wl_changes w) -> change_accepted items g.
  Definition target_made (constraints : list (string * list constraint)) (name : string) (m : mapped) : Prop :=
    mp_name m = name /\ exists w items cs, In (name, w) (lib_pipelines lib) /\ items_made (wl_units w) items /\ distinct_units items /\
      In (name, cs) constraints /\ pipeline_made items cs (mp_pipeline m) /\
      NoDup (mp_shaft m) /\ (forall i, In i (mp_shaft m) <-> exists u, In u (listed items) /\ compresses u /\ fst u = i) /\
      Forall2 (change_made items) (wl_changes w) (mp_changes m) /\ settings_made (wl_units w) (mp_settings m).

  (** the distribution of the streams *)
  Definition distribution_accepted (targets : list string) (d : written_distribution) : Prop :=
    match d with
    | WCommon inlet settings => stream_known inlet /\
        forall s l from to_, In s settings -> wt_overflow s = Some l -> In (from, to_) l -> In from targets /\ In to_ targets
    | WIndividual inlets => forall x, In x inlets -> stream_known x
    end.
  (** the target with this name: the last one *)
  Definition target_number (targets : list string) (name : string) (i : nat) : Prop :=
    nth_error targets i = Some name /\ forall j, nth_error targets j = Some name -> (j <= i)%nat.
  Definition overflows_made (targets : list string) (o : string * string) (m : nat * nat) : Prop :=
    target_number targets (fst o) (fst m) /\ target_number targets (snd o) (snd m).
  Definition setting_made (targets : list string) (s : written_setting) (m : list expression_input * list (nat * nat)) : Prop :=
    fst m = wt_fractions s /\
    match wt_overflow s with Some l => Forall2 (overflows_made targets) l (snd m) | None => snd m = [] end.
  Definition distribution_made (targets : list string) (d : written_distribution) (m : mapped_distribution) : Prop :=
    match d, m with
    | WCommon inlet settings, Common s ms => stream_made inlet s /\ Forall2 (setting_made targets) settings ms
    | WIndividual inlets, Individual ss => Forall2 stream_made inlets ss
    | _, _ => False
    end.

  Definition simulation_accepted (s : written_simulation) : Prop :=
    (forall t, In t (wm_targets s) -> target_accepted (wm_constraints s) t) /\
    (forall name cs, In (name, cs) (wm_constraints s) -> In name (wm_targets s)) /\
    distribution_accepted (wm_targets s) (wm_distribution s).
  Definition simulation_made (s : written_simulation) (m : list mapped * mapped_distribution) : Prop :=
    Forall2 (target_made (wm_constraints s)) (wm_targets s) (fst m) /\ distribution_made (wm_targets s) (wm_distribution s) (snd m).

  (** every rate written somewhere *)
  Definition in_stream (x : string + written_stream) (r : written_rate) : Prop := exists w, x = inr w /\ r = ws_rate w.
  Definition in_unit (w : written_unit) (r : written_rate) : Prop := match w with WMixer s => in_stream s r | WSplitter o => r = o | _ => False end.
  Definition in_distribution (d : written_distribution) (r : written_rate) : Prop :=
    match d with WCommon inlet _ => in_stream inlet r | WIndividual inlets => exists x, In x inlets /\ in_stream x r end.
  Definition rates_evaluable (simulations : list written_simulation) : Prop :=
    (forall name w, In (name, w) (lib_streams lib) -> rate_evaluable (ws_rate w)) /\
    (forall name w r, In (name, w) (lib_units lib) -> in_unit w r -> rate_evaluable r) /\
    (forall name p o w r, In (name, p) (lib_pipelines lib) -> In (o, inr w) (wl_units p) -> in_unit w r -> rate_evaluable r) /\
    (forall s r, In s simulations -> in_distribution (wm_distribution s) r -> rate_evaluable r).
  (** dictionaries: a key occurs once *)
  Definition library_ok : Prop :=
    NoDup (map fst (lib_units lib)) /\ NoDup (map fst (lib_streams lib)) /\ NoDup (map fst (lib_fluids lib)) /\ NoDup (map fst (lib_pipelines lib)).
End Simulations.

(** Vocabulary for the properties of the solvers (C38-C41). *)
From Coq Require Import List Bool ZArith Lia.
From Verif Require Import QcTac Base Num Stream_Model Process_Model Search_Model Solver_Model.
Import ListNotations.
Local Open Scope Qc_scope.

(** ** Configurations *)

(** [v] is what the last entry for handler [i] in [l] says. *)
Definition last_says (l : list configuration) (i : handler_id) (v : setting) : Prop :=
  exists before after, l = before ++ (i, v) :: after /\ ~ In i (map fst after).

(** The handlers in the order in which they are first mentioned. *)
Fixpoint first_mentions (l : list nat) : list nat :=
  match l with
  | [] => []
  | i :: rest => i :: filter (fun j => negb (Nat.eqb i j)) (first_mentions rest)
  end.

(** [m] says the same as [l], once per handler. *)
Definition merges (l m : list configuration) : Prop :=
  NoDup (map fst m) /\
  (forall i v, In (i, v) m <-> last_says l i v) /\
  map fst m = first_mentions (map fst l).

(** ** What a section touches *)

(** The places where configured values are kept: the speed of a compressor, the rates of direct mixers and splitters, the
    pressure change of a choke, the speed a shaft remembers, the configurations a choke strategy remembers. *)
Inductive cell : Type :=
| CSpeed (i : unit_id) | CMix (i : unit_id) | CSplit (i : unit_id) | CChoke (i : unit_id)
| CShaft (i : handler_id) | CLast (i : handler_id).
Inductive value : Type := VNumber (x : option Qc) | VConfigurations (l : list configuration).
Definition read (h : heap) (c : cell) : value :=
  match c with
  | CSpeed i => VNumber (h_speed h i)
  | CMix i => VNumber (Some (h_mix h i))
  | CSplit i => VNumber (Some (h_split h i))
  | CChoke i => VNumber (Some (h_choke h i))
  | CShaft i => VNumber (h_shaft h i)
  | CLast i => VConfigurations (h_last h i)
  end.

(** Two states that differ at most in the places [S]. *)
Definition same_except (S : cell -> Prop) (h h' : heap) : Prop := forall c, ~ S c -> read h c = read h' c.

(** The places a handler sets. *)
Definition handler_cells (i : handler_id) (hd : handler) (c : cell) : Prop :=
  match hd with
  | SingleSpeedShaft cs | VariableSpeedShaft cs => c = CShaft i \/ exists u, In u cs /\ c = CSpeed u
  | RecirculationLoop m s => c = CMix m \/ c = CSplit s
  | ChokeHandler k => c = CChoke k
  end.
Definition cells_of (r : runner) (i : handler_id) (c : cell) : Prop :=
  exists hd, dict_get Nat.eqb i (r_handlers r) = Some hd /\ handler_cells i hd c.
Definition cells_of_all (r : runner) (l : list handler_id) (c : cell) : Prop := exists i, In i l /\ cells_of r i c.

(** The handlers of a section's strategies. *)
Definition anti_surge_handlers (a : anti_surge) : list handler_id :=
  match a with ASNone => [] | ASIndividual loops _ => loops | ASCommon loop _ => [loop] end.
Definition control_handlers (p : pressure_control) : list handler_id :=
  match p with
  | PCUpstream k | PCDownstream k => [k]
  | PCCommon loop _ => [loop]
  | PCRate loops _ | PCPressure loops _ => loops
  end.
Definition section_handlers (sec : section) : list handler_id :=
  sec_shaft sec :: anti_surge_handlers (sec_anti sec) ++ control_handlers (sec_control sec).

(** Everything the section's own shaft, loops and choke set. *)
Definition own (sec : section) (c : cell) : Prop :=
  cells_of_all (sec_runner sec) (section_handlers sec) c \/ exists k, sec_control sec = PCUpstream k /\ c = CLast k.

(** The section is wired as the assembly does it: its shaft has a variable speed, its loops are recirculation loops and its
    choke handler configures a choke. *)
Definition is_loop (r : runner) (i : handler_id) : Prop :=
  exists m s, dict_get Nat.eqb i (r_handlers r) = Some (RecirculationLoop m s).
Definition is_choke (r : runner) (i : handler_id) : Prop :=
  exists k, dict_get Nat.eqb i (r_handlers r) = Some (ChokeHandler k).
Definition wired (sec : section) : Prop :=
  (exists cs, dict_get Nat.eqb (sec_shaft sec) (r_handlers (sec_runner sec)) = Some (VariableSpeedShaft cs)) /\
  (forall i, In i (anti_surge_handlers (sec_anti sec)) -> is_loop (sec_runner sec) i) /\
  (forall i, In i (control_handlers (sec_control sec)) ->
     match sec_control sec with
     | PCUpstream _ | PCDownstream _ => is_choke (sec_runner sec) i
     | _ => is_loop (sec_runner sec) i
     end).

(** No loop is listed twice, and two handlers of a section never set the same place. *)
Definition separate (sec : section) : Prop :=
  NoDup (anti_surge_handlers (sec_anti sec)) /\ NoDup (control_handlers (sec_control sec)) /\
  forall i j c, In i (section_handlers sec) -> In j (section_handlers sec) -> i <> j ->
    cells_of (sec_runner sec) i c -> ~ cells_of (sec_runner sec) j c.

(** Each loop of a strategy has its compressor. *)
Definition paired (sec : section) : Prop :=
  match sec_anti sec with ASIndividual loops cs => length loops = length cs | _ => True end /\
  match sec_control sec with PCRate loops cs | PCPressure loops cs => length loops = length cs | _ => True end.

(** The places that a handler sets when it has the id [i], and the handlers of a list that share none. *)
Definition apart (handlers : list (nat * handler)) : Prop :=
  forall i a j b c, In (i, a) handlers -> In (j, b) handlers -> i <> j -> handler_cells i a c -> ~ handler_cells j b c.

(** What may have been done with a section before: it was solved, or its handlers were configured. *)
Inductive event : Type :=
| Solved (targets : list float_constraint) (inlet : stream)
| Configured (c : configuration).
Definition own_event (sec : section) (e : event) : Prop :=
  match e with Solved _ _ => True | Configured c => In (fst c) (section_handlers sec) end.
Definition happens (ph : physics) (sec : section) (h : heap) (e : event) : heap :=
  match e with
  | Solved targets inlet => snd (find_solution ph sec targets inlet h)
  | Configured c => snd (apply_configuration (sec_runner sec) c h)
  end.

(** ** Success *)

(** A root search asking for values of [f]: what it finds, and the point it asked for last. *)
Fixpoint follow (t : root_search) (f : Qc -> outcome Qc) (last : option Qc) : outcome (Qc * option Qc) :=
  match t with
  | Found x => Return (x, last)
  | Stop e => Raise e
  | Probe x k => match f x with Return y => follow (k y) f (Some x) | Raise e => Raise e end
  end.
(** What the root finder answers is a root within [eps]. *)
Definition accurate (eps : Qc) (root : root_finder) : Prop :=
  forall b f x l, follow (root b) f None = Return (x, l) -> exists y, f x = Return y /\ Qcabs y <= eps.
(** The root finder answers with the point it asked for last. *)
Definition settled (root : root_finder) : Prop :=
  forall b f x l, follow (root b) f None = Return (x, l) -> l = Some x.

(** The root finder answers with a point near a root, relative to the root. *)
Definition near_root (eps : Qc) (root : root_finder) : Prop :=
  forall b f x l, follow (root b) f None = Return (x, l) -> exists z, f z = Return 0 /\ Qcabs (x - z) <= eps * Qcabs z.

(** Running the section with the configuration [cfg]. *)
Definition run_with (ph : physics) (sec : section) (cfg : list configuration) (inlet : stream) : M heap stream :=
  apply_configurations (sec_runner sec) cfg ;;* run ph (sec_runner sec) inlet.
Definition within (eps : Qc) (target : float_constraint) (s : stream) : Prop :=
  Qcabs (s_pressure s - fc_value target) <= eps.

(** Units that do not change the pressure of what passes through them. *)
Definition same_pressure (ph : physics) (us : list unit_) : Prop :=
  forall h s s', propagate_many ph h us s = Return s' -> s_pressure s' = s_pressure s.
Definition keeps_pressure (k : unit_kind) : Prop :=
  match k with
  | DirectMixer | DirectSplitter | TemperatureSetter _ | Splitter _ | Inlet | Outlet => True
  | Compressor _ | Choke | PressureDropper _ | LiquidRemover | Mixer _ => False
  end.

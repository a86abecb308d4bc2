(** Vocabulary for the solvers of several sections and for the rate a section cannot take (C121-C123). *)
From Coq Require Import List Bool ZArith Lia.
From Verif Require Import QcTac Base Num Stream_Model Stream_Spec Process_Model Search_Model Solver_Model Solver_Spec.
Import ListNotations.
Local Open Scope Qc_scope.

(** ** Streams through sections *)

(** The streams behind the sections, when [inlet] runs through one after the other with the settings in [h]. *)
Inductive flows (ph : physics) (h : heap) : list section -> stream -> list stream -> Prop :=
| flows_end : forall s, flows ph h [] s []
| flows_next : forall sec rest s s' ss,
    fst (run ph (sec_runner sec) s h) = Return s' -> flows ph h rest s' ss -> flows ph h (sec :: rest) s (s' :: ss).

(** The places in which the units of a section find their settings. *)
Definition unit_reads (u : unit_) (c : cell) : Prop :=
  match snd u with
  | Compressor _ => c = CSpeed (fst u)
  | DirectMixer => c = CMix (fst u)
  | DirectSplitter => c = CSplit (fst u)
  | Choke => c = CChoke (fst u)
  | _ => False
  end.
Definition section_reads (sec : section) (c : cell) : Prop :=
  exists u, In u (r_units (sec_runner sec)) /\ unit_reads u c.

(** No section sets what the units of an earlier section read. *)
Fixpoint leave_alone (sets : section -> cell -> Prop) (secs : list section) : Prop :=
  match secs with
  | [] => True
  | sec :: rest =>
      (forall later c, In later rest -> sets later c -> ~ section_reads sec c) /\ leave_alone sets rest
  end.

(** What has to be known of a section, apart from its wiring, for a success to mean that the target is met (C39).  Stages with
    a pressure target of their own are not in this list. *)
Definition well_equipped (ph : physics) (sec : section) (target : float_constraint) : Prop :=
  wired sec /\ separate sec /\ paired sec /\ 0 <= fc_abs_tol target /\
  match sec_control sec with
  | PCUpstream _ => accurate (fc_abs_tol target) (sec_finder sec) /\ settled (sec_finder sec)
  | PCCommon _ _ | PCRate _ _ => accurate (fc_abs_tol target) (sec_finder sec)
  | PCDownstream k =>
      consistent_service (ph_service ph) /\
      exists u before, dict_get Nat.eqb k (r_handlers (sec_runner sec)) = Some (ChokeHandler u) /\
        r_units (sec_runner sec) = before ++ [(u, Choke)] /\ ~ In u (map fst before)
  | PCPressure _ _ => False
  end.
Definition meets (target : float_constraint) (s : stream) : Prop := within (fc_abs_tol target) target s.

(** ** A shaft for each section *)

(** Every section is solved for what the sections before it deliver, and then run with its solution. *)
Inductive in_turn (ph : physics) : list (section * float_constraint) -> stream -> heap -> list solution -> stream -> heap -> Prop :=
| turn_end : forall s h, in_turn ph [] s h [] s h
| turn_next : forall sec target rest s h sol h1 s' h2 sols s'' h3,
    find_solution ph sec [target] s h = (Return sol, h1) -> success sol = true ->
    run_with ph sec (sol_configuration sol) s h1 = (Return s', h2) ->
    in_turn ph rest s' h2 sols s'' h3 ->
    in_turn ph ((sec, target) :: rest) s h (sol :: sols) s'' h3.

(** The failure that an exception of the process becomes. *)
Inductive becomes : exn -> failure -> Prop :=
| becomes_liquid : becomes LiquidError LiquidFailure
| becomes_offtake : becomes OfftakeError OfftakeFailure
| becomes_inlet : becomes InletPressureError InletPressureFailure
| becomes_thermodynamic : becomes ThermodynamicError ThermodynamicFailure
| becomes_stonewall : becomes StonewallError StonewallFailure
| becomes_surge : becomes SurgeError SurgeFailure
| becomes_process : becomes OtherProcessError ProcessFailure
| becomes_convergence : becomes DidNotConverge ConvergenceFailure.

(** ** One shaft for all sections *)

(** The speed every section needs by itself, for what the sections before it deliver at the speed they need. *)
Inductive needs (ph : physics) (shaft : handler_id) :
  list (section * float_constraint) -> stream -> heap -> list Qc -> stream -> heap -> Prop :=
| needs_end : forall s h, needs ph shaft [] s h [] s h
| needs_next : forall sec target rest s h sol h1 x s' h2 xs s'' h3,
    find_solution ph sec [target] s h = (Return sol, h1) -> success sol = true ->
    In (shaft, SpeedSetting x) (sol_configuration sol) ->
    run_with ph sec (sol_configuration sol) s h1 = (Return s', h2) ->
    needs ph shaft rest s' h2 xs s'' h3 ->
    needs ph shaft ((sec, target) :: rest) s h (x :: xs) s'' h3.

(** One shaft with the same compressors in all sections. *)
Definition on_shaft (shaft : handler_id) (cs : list unit_id) (sec : section) : Prop :=
  sec_shaft sec = shaft /\ dict_get Nat.eqb shaft (r_handlers (sec_runner sec)) = Some (VariableSpeedShaft cs).

(** What the loops and the choke of a section set. *)
Definition own_loops (sec : section) (c : cell) : Prop :=
  cells_of_all (sec_runner sec) (anti_surge_handlers (sec_anti sec) ++ control_handlers (sec_control sec)) c.

(** Which chokes may control the pressure: an upstream choke in the first section and a downstream choke in the last. *)
Definition chokes_placed (secs : list section) : Prop :=
  (forall before sec after k, secs = before ++ sec :: after -> sec_control sec = PCUpstream k -> before = []) /\
  (forall before sec after k, secs = before ++ sec :: after -> sec_control sec = PCDownstream k -> after = []).

(** ** The rate a section cannot take *)

(** Whether a section reaches the target with [rate] of the stream, in the state [h]. *)
Definition takes (ph : physics) (sec : section) (target : float_constraint) (inlet : stream) (h : heap) (rate : Qc) : Prop :=
  exists s sol h', with_standard_rate inlet rate = Return s /\
    find_solution ph sec [target] s h = (Return sol, h') /\ success sol = true.
Definition takes_not (ph : physics) (sec : section) (target : float_constraint) (inlet : stream) (h : heap) (rate : Qc) : Prop :=
  exists s sol h', with_standard_rate inlet rate = Return s /\
    find_solution ph sec [target] s h = (Return sol, h') /\ success sol = false.

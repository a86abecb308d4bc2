(** Vocabulary for the properties of process units and pipelines (C37, C59-C65). *)
From Coq Require Import List Bool ZArith Lia.
From Verif Require Import QcTac Base Num Search_Model Stream_Model Stream_Spec Process_Model.
Import ListNotations.
Local Open Scope Qc_scope.

(** A stream whose gas density at standard conditions is the one the fluid service gives for its fluid model. *)
Definition served (sv : service) (s : stream) : Prop := s_standard_density s = standard_density_of sv (s_model s).

(** Same flow: same fluid, mass rate and standard rate (pressure and temperature may differ). *)
Definition same_flow (a b : stream) : Prop :=
  s_model a = s_model b /\ s_mass_rate a = s_mass_rate b /\ standard_rate a = standard_rate b.

(** Units that neither add nor remove anything. *)
Definition keeps_flow (k : unit_kind) : Prop :=
  match k with
  | Compressor _ | Choke | PressureDropper _ | TemperatureSetter _ | Inlet | Outlet => True
  | DirectMixer | DirectSplitter | LiquidRemover | Mixer _ | Splitter _ => False
  end.

(** A pipeline of such units with any number of recirculation loops around parts of it, one inside the other or one after the
    other; the mixer and splitter of a loop have the same rate in state [h], and it is not negative. *)
Inductive with_loops (h : heap) : list unit_ -> Prop :=
| wl_nil : with_loops h []
| wl_unit : forall i k us, keeps_flow k -> with_loops h us -> with_loops h ((i, k) :: us)
| wl_loop : forall m s inner us, h_mix h m = h_split h s -> 0 <= h_mix h m -> with_loops h inner -> with_loops h us ->
    with_loops h ((m, DirectMixer) :: inner ++ (s, DirectSplitter) :: us).

(** ** Assembly *)

Definition given (added : unit_) : bool :=
  match snd added with DirectMixer | DirectSplitter | Choke => false | _ => true end.

(** [units] is [before], a recirculation loop with the given handler around [inner], and [after]. *)
Definition loop_around (units inner : list unit_) (hd : handler) : Prop :=
  exists before after m s,
    units = before ++ (m, DirectMixer) :: inner ++ (s, DirectSplitter) :: after /\ hd = RecirculationLoop m s.

(** Number of compressors in a list. *)
Definition compressors_in (us : list unit_) : nat := length (filter is_compressor us).

(** ** Neighbours *)
Definition follows (us : list unit_) (a b : unit_id) : Prop :=
  exists before after ka kb, us = before ++ (a, ka) :: (b, kb) :: after.

(** ** What a section looks like when it has been assembled *)

(** A stretch of the assembled units: units without a loop, or a loop (mixer and splitter ids) around some units and the
    compressor they lead to. *)
Inductive stretch : Type :=
| Bare (us : list unit_)
| Looped (mixer splitter : unit_id) (before : list unit_) (compressor : unit_).
Definition units_of (st : stretch) : list unit_ :=
  match st with
  | Bare us => us
  | Looped m s before c => (m, DirectMixer) :: (before ++ [c]) ++ [(s, DirectSplitter)]
  end.
(** The units that were given, without those the assembly added. *)
Definition given_of (st : stretch) : list unit_ :=
  match st with Bare us => us | Looped _ _ before c => before ++ [c] end.
Definition loops_of (st : stretch) : list handler :=
  match st with Bare _ => [] | Looped m s _ _ => [RecirculationLoop m s] end.
Definition is_inside (u : unit_) : bool := negb (is_outside u) && negb (is_compressor u).
(** No compressor is without a loop; a loop holds one compressor and no mixer or splitter of streams. *)
Definition well_looped (st : stretch) : Prop :=
  match st with
  | Bare us => forallb (fun u => negb (is_compressor u)) us = true
  | Looped _ _ before c => forallb is_inside before = true /\ is_compressor c = true
  end.
(** A loop reaches back to the compressor, or mixer or splitter of streams, before it: a bare stretch ends with a mixer or
    splitter unless it is the last. *)
Fixpoint reach_back (sts : list stretch) : Prop :=
  match sts with
  | [] => True
  | Bare us :: rest => (rest = [] \/ exists us' u, us = us' ++ [u] /\ is_outside u = true) /\ reach_back rest
  | Looped _ _ _ _ :: rest => reach_back rest
  end.

(** Ids of the units of a list. *)
Definition ids (us : list unit_) : list unit_id := map fst us.

(** ** Damping *)

(** The pressures and states of repeated damped updates. *)
Fixpoint damped (p : Qc) (s : damp_state) (raws : list Qc) : Qc * damp_state :=
  match raws with
  | [] => (p, s)
  | raw :: rest => let '(p', s') := adaptive_pressure_update p raw s in damped p' s' rest
  end.
Definition factor_in_range (s : damp_state) : Prop := qc 1 10 <= d_beta s /\ d_beta s <= 1.

(** What the sections of a pipeline are meant to be, independently of how they are made. *)
From Coq Require Import PeanoNat String.
From Verif Require Import QcTac Base Num Stream_Model Process_Model Process_Spec Sections_Model.
Local Open Scope list_scope.

(** The listed units, and the unit a name stands for *)
Definition listed (items : list item) : list unit_ := map snd items.
Definition named (items : list item) (name : string) (u : unit_) : Prop := In (Some name, u) items.
(** names are not used twice, and units are different objects *)
Definition distinct_names (items : list item) : Prop :=
  forall i j name u w, nth_error items i = Some (Some name, u) -> nth_error items j = Some (Some name, w) -> i = j.
Definition distinct_units (items : list item) : Prop := NoDup (ids (listed items)).
(** a unit that some constraint names *)
Definition constrained (items : list item) (cs : list constraint) (u : unit_) : Prop :=
  exists c name, In c cs /\ co_unit c = Some name /\ named items name u.
Definition compresses (u : unit_) : Prop := exists ch, snd u = Compressor ch.

(** Constraints that fit the units: there are some; no two at the same place; every name stands for a unit; if there is one
    without a unit, the last unit exists and is not named by another; if there is none, no compressor comes after the last named unit *)
Record fitting (items : list item) (cs : list constraint) : Prop := {
  ft_names : distinct_names items;
  ft_some : cs <> [];
  ft_once : NoDup (map co_unit cs);
  ft_known : forall c name, In c cs -> co_unit c = Some name -> exists u, named items name u;
  ft_outlet : (exists c, In c cs /\ co_unit c = None) ->
    exists front u, listed items = front ++ [u] /\ ~ constrained items cs u;
  ft_covered : (forall c, In c cs -> co_unit c <> None) ->
    forall front u rest, listed items = front ++ u :: rest -> compresses u -> exists w, In w (u :: rest) /\ constrained items cs w }.

(** A section ends with the unit its constraint names, or with the pipeline; units after the last constraint that do not
    compress are kept in the last section.  [later] are the sections after it. *)
Definition ends_well (items : list item) (cs : list constraint) (s : section) (later : list section) : Prop :=
  match co_unit (s_constraint s) with
  | Some name => exists front u rest, s_units s = front ++ u :: rest /\ named items name u /\ s_target s = fst u /\
      (forall w, In w (front ++ rest) -> ~ constrained items cs w) /\
      (rest = [] \/ later = [] /\ forall w, In w rest -> ~ compresses w)
  | None => later = [] /\ exists front u, s_units s = front ++ [u] /\ s_target s = fst u /\
      forall w, In w (s_units s) -> ~ constrained items cs w
  end.
Definition division (items : list item) (cs : list constraint) (ss : list section) : Prop :=
  concat (map s_units ss) = listed items /\ Permutation (map s_constraint ss) cs /\
  forall earlier s later, ss = earlier ++ s :: later -> ends_well items cs s later.

(** A section that can be solved *)
Definition changes_flow (u : unit_) : Prop := (exists e, snd u = Mixer e) \/ (exists r, snd u = Splitter r).
Definition acceptable_section (s : section) : Prop :=
  (exists u, In u (s_units s) /\ compresses u) /\
  co_anti_surge (s_constraint s) <> NoASV /\
  (co_control (s_constraint s) = CommonASVControl -> co_anti_surge (s_constraint s) = CommonASV) /\
  (co_control (s_constraint s) = IndividualASVRate \/ co_control (s_constraint s) = IndividualASVPressure ->
     co_anti_surge (s_constraint s) = IndividualASV) /\
  (co_anti_surge (s_constraint s) = CommonASV -> forall u, In u (s_units s) -> ~ changes_flow u).

(** The kinds of unit a user can list *)
Definition listable (u : unit_) : Prop :=
  match snd u with
  | Compressor _ | PressureDropper _ | TemperatureSetter _ | LiquidRemover | Mixer _ | Splitter _ => True
  | DirectMixer | DirectSplitter | Choke | Inlet | Outlet => False
  end.
Definition from_user (u : unit_) : bool :=
  match snd u with
  | Compressor _ | PressureDropper _ | TemperatureSetter _ | LiquidRemover | Mixer _ | Splitter _ => true
  | DirectMixer | DirectSplitter | Choke | Inlet | Outlet => false
  end.

(** A unit inside a recirculation loop of the pipeline that one of the handlers controls *)
Definition protected_in (us : list unit_) (hs : list (handler_id * handler)) (u : unit_) : Prop :=
  exists before m inner s after, us = before ++ (m, DirectMixer) :: inner ++ (s, DirectSplitter) :: after /\ In u inner /\
    In (RecirculationLoop m s) (map snd hs).
(** The units a handler controls are in the pipeline *)
Definition part_of (us : list unit_) (hd : handler) : Prop :=
  match hd with
  | RecirculationLoop m s => In (m, DirectMixer) us /\ In (s, DirectSplitter) us
  | ChokeHandler c => In (c, Choke) us
  | _ => False
  end.

(** A section assembled as its constraint asks: a choke first for upstream choking and last for downstream choking, and in between either one loop
    around all units or a loop for every compressor *)
Definition choke_unit (choke : option unit_id) : list unit_ := match choke with Some i => [(i, Choke)] | None => [] end.
Definition shaped (s : section) (us : list unit_) : Prop :=
  exists core first last, us = choke_unit first ++ core ++ choke_unit last /\
    (first <> None <-> co_control (s_constraint s) = UpstreamChoke) /\ (last <> None <-> co_control (s_constraint s) = DownstreamChoke) /\
    (co_anti_surge (s_constraint s) = CommonASV -> exists m sp, core = (m, DirectMixer) :: s_units s ++ [(sp, DirectSplitter)]) /\
    (co_anti_surge (s_constraint s) <> CommonASV -> exists sts, core = concat (map units_of sts) /\ concat (map given_of sts) = s_units s /\
       Forall well_looped sts /\ reach_back sts).

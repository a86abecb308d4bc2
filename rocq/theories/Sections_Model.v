(** Model of how the units and constraints a user lists become the sections of a process pipeline
    (presentation/yaml/mappers/process). *)
From Coq Require Import PeanoNat String.
From Verif Require Import QcTac Base Num Stream_Model Process_Model.
Local Open Scope list_scope.

(** YamlProcessConstraint.  The expression of the outlet pressure is kept as text.
    src/libecalc/presentation/yaml/yaml_types/process/yaml_process_simulation.py:80-108 *)
Record constraint : Type := mk_constraint {
  co_unit : option string; co_pressure : string;
  co_control : pressure_control_type; co_anti_surge : anti_surge_type }.

(** A unit of the pipeline as listed by the user: with or without a name.  How the unit itself is made from its
    definition is not modelled. *)
Definition item : Type := (option string * unit_)%type.

(** The names of the units, ProcessSimulationMapper.map_process_simulation: a name that occurs twice is refused.
    src/libecalc/presentation/yaml/mappers/process_simulation_mapper.py:374-381 *)
Fixpoint register (items : list item) (names : list (string * unit_id)) : result (list (string * unit_id)) :=
  match items with
  | [] => Ok names
  | (None, _) :: rest => register rest names
  | (Some name, u) :: rest =>
      match dict_get String.eqb name names with
      | Some _ => Err ValidationError
      | None => register rest (names ++ [(name, fst u)])
      end
  end.

(** MappedSection.
    src/libecalc/presentation/yaml/mappers/process/process_partitioner.py:9-18 *)
Record section : Type := mk_section { s_units : list unit_; s_constraint : constraint; s_target : unit_id }.

(** The constraints by unit and the one without a unit.
    src/libecalc/presentation/yaml/mappers/process/process_partitioner.py:33-50 *)
Fixpoint collect (names : list (string * unit_id)) (cs : list constraint) (by_unit : list (unit_id * constraint))
    (terminal : option constraint) : result (list (unit_id * constraint) * option constraint) :=
  match cs with
  | [] => Ok (by_unit, terminal)
  | c :: rest =>
      match co_unit c with
      | None => match terminal with
                | Some _ => Err ValidationError
                | None => collect names rest by_unit (Some c)
                end
      | Some name =>
          match dict_get String.eqb name names with
          | None => Err ValidationError
          | Some i => match dict_get Nat.eqb i by_unit with
                      | Some _ => Err ValidationError
                      | None => collect names rest (by_unit ++ [(i, c)]) terminal
                      end
          end
      end
  end.

(** The loop over the units: the sections, and the units after the last of them.
    src/libecalc/presentation/yaml/mappers/process/process_partitioner.py:52-71 *)
Fixpoint walk (by_unit : list (unit_id * constraint)) (units current : list unit_) : list section * list unit_ :=
  match units with
  | [] => ([], current)
  | u :: rest =>
      let current := current ++ [u] in
      match dict_get Nat.eqb (fst u) by_unit with
      | None => walk by_unit rest current
      | Some c => let (ss, trailing) := walk by_unit rest [] in (mk_section current c (fst u) :: ss, trailing)
      end
  end.

(** ProcessPartitioner.partition.  [current_units[-1]] of an empty list raises IndexError.
    src/libecalc/presentation/yaml/mappers/process/process_partitioner.py:26-94 *)
Definition partition (units : list unit_) (names : list (string * unit_id)) (cs : list constraint) : result (list section) :=
  do collected <- collect names cs [] None;
  let (by_unit, terminal) := collected in
  let (ss, trailing) := walk by_unit units [] in
  match terminal with
  | Some c =>
      do u <- of_option IndexError (last_opt trailing);
      Ok (ss ++ [mk_section trailing c (fst u)])
  | None =>
      if existsb is_compressor trailing then Err ValidationError
      else match last_opt ss, trailing with
           | Some s, _ :: _ => Ok (removelast ss ++ [mk_section (s_units s ++ trailing) (s_constraint s) (s_target s)])
           | _, _ => Ok ss
           end
  end.

(** MappedSectionValidator.validate, section by section.
    src/libecalc/presentation/yaml/mappers/process/mapped_section_validator.py:10-58 *)
Definition required_anti_surge (control : pressure_control_type) : option anti_surge_type :=
  match control with
  | CommonASVControl => Some CommonASV
  | IndividualASVRate | IndividualASVPressure => Some IndividualASV
  | UpstreamChoke | DownstreamChoke => None
  end.
Definition anti_surge_eqb (a b : anti_surge_type) : bool :=
  match a, b with NoASV, NoASV | IndividualASV, IndividualASV | CommonASV, CommonASV => true | _, _ => false end.
Definition validate_section (s : section) : result unit :=
  let c := s_constraint s in
  let has_compressors := existsb is_compressor (s_units s) in
  if negb has_compressors then Err ValidationError
  else if match required_anti_surge (co_control c) with Some r => negb (anti_surge_eqb (co_anti_surge c) r) | None => false end
       then Err ValidationError
  else if has_compressors && anti_surge_eqb (co_anti_surge c) NoASV then Err ValidationError
  else if negb has_compressors && negb (anti_surge_eqb (co_anti_surge c) NoASV) then Err ValidationError
  else if anti_surge_eqb (co_anti_surge c) CommonASV && existsb is_outside (s_units s) then Err ValidationError
  else Ok tt.
Fixpoint validate (ss : list section) : result unit :=
  match ss with
  | [] => Ok tt
  | s :: rest => do _ <- validate_section s; validate rest
  end.

(** The listed units of a pipeline and its constraints: a pipeline without constraints is refused.
    src/libecalc/presentation/yaml/mappers/process_simulation_mapper.py:374-399 *)
Definition partition_items (items : list item) (cs : list constraint) : result (list section) :=
  do names <- register items [];
  match cs with
  | [] => Err ValidationError
  | _ => partition (map snd items) names cs
  end.
(** ProcessSectionBuilder.partition_and_validate.
    src/libecalc/presentation/yaml/mappers/process/build_sections.py:25-38 *)
Definition build_sections (items : list item) (cs : list constraint) : result (list section) :=
  do ss <- partition_items items cs;
  do _ <- validate ss;
  Ok ss.

(** ** The pipeline *)

(** New ids: the smallest number above those in use, instead of a random UUID *)
Definition next_id (used : list nat) : nat := S (fold_right Nat.max 0%nat used).
(** ProcessSectionBuilder.assemble_sections.
    src/libecalc/presentation/yaml/mappers/process/build_sections.py:40-50 *)
Fixpoint assemble_sections (ss : list section) (next : nat) : list (list (handler_id * handler) * list unit_) :=
  match ss with
  | [] => []
  | s :: rest =>
      let (hs, us) := assemble_section (s_units s) next (co_anti_surge (s_constraint s)) (co_control (s_constraint s)) in
      (hs, us) :: assemble_sections rest (next_id (next :: map fst us ++ map fst hs))
  end.
(** An inlet in front of the first section and an outlet after the last one.
    src/libecalc/presentation/yaml/mappers/process_simulation_mapper.py:410-418 *)
Fixpoint append_outlet (outlet : unit_) (sections : list (list unit_)) : list (list unit_) :=
  match sections with
  | [] => []
  | [us] => [us ++ [outlet]]
  | us :: rest => us :: append_outlet outlet rest
  end.
Definition with_ends (inlet outlet : unit_) (sections : list (list unit_)) : list (list unit_) :=
  append_outlet outlet (match sections with [] => [] | us :: rest => (inlet :: us) :: rest end).

(** [l[-2]] *)
Definition second_last {A} (l : list A) : result A :=
  of_option IndexError (if Nat.ltb (List.length l) 2 then None else nth_error l (List.length l - 2)).
(** Constraint: the text of the pressure, the unit at whose outlet it applies, and the connection that leaves it.
    [constraint_position] is -2 for every section: the condition for -1 is never met.
    src/libecalc/presentation/yaml/mappers/process_simulation_mapper.py:434-462 *)
Record target : Type := mk_target { t_pressure : string; t_unit : unit_id; t_connection : unit_id * unit_id }.
Definition locate (conns : list (unit_id * unit_id)) (us : list unit_) (c : constraint) : result target :=
  do u <- second_last us;
  do conn <- of_option ProgrammingError (find (fun p => Nat.eqb (fst p) (fst u)) conns);
  Ok (mk_target (co_pressure c) (fst u) conn).

(** The pipeline and the problem for it.
    src/libecalc/presentation/yaml/mappers/process_simulation_mapper.py:325-486; the shaft, events and time series of
    the settings are not modelled *)
Record pipeline : Type := mk_pipeline {
  p_sections : list (list unit_); p_connections : list (unit_id * unit_id);
  p_targets : list target; p_handlers : list (handler_id * handler) }.
Definition map_pipeline (items : list item) (cs : list constraint) : result pipeline :=
  do ss <- build_sections items cs;
  let inlet := next_id (map fst (map snd items)) in
  let assembled := assemble_sections ss (S (S inlet)) in
  let sections := with_ends (inlet, Inlet) (S inlet, Outlet) (map snd assembled) in
  let conns := connections sections in
  do targets <- mapM (fun p => locate conns (fst p) (s_constraint (snd p))) (combine sections ss);
  Ok (mk_pipeline sections conns targets (flat_map fst assembled)).

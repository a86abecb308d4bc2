(** Model of charts that are read from files or written in the model file: the columns of a file, the units, and the curves
    that are made (presentation/yaml/mappers/charts/user_defined_chart_data.py, mappers/utils.py, domain/resource.py,
    presentation/yaml/yaml_entities.py). *)
From Coq Require Import PeanoNat String.
From Verif Require Import QcTac Base Units_Model Input_Model Chart_Model.
Local Open Scope list_scope.
Local Open Scope Qc_scope.

(** ** presentation/yaml/yaml_entities.py:19-52, MemoryResource; a cell is a number, or a text that is none ([None]) *)
Record file : Type := mkFile { f_headers : list string; f_columns : list (list (option Qc)) }.
(** 32-52, get_column: the first header that is equal but for its case.  HeaderNotFoundException is KeyError here and
    ColumnNotFoundException IndexError. *)
Definition file_column (f : file) (header : string) : result (list (option Qc)) :=
  match index_of String.eqb (lower header) (map lower (f_headers f)) with
  | None => Err KeyError
  | Some i => of_option IndexError (nth_error (f_columns f) i)
  end.
(** domain/resource.py:21-30, Resource.get_float_column: InvalidColumnException (ValidationError here) for a text *)
Definition get_float_column (f : file) (header : string) : result (list Qc) :=
  do cells <- file_column f header;
  mapM (of_option ValidationError) cells.

(** ** yaml_types/models/yaml_compressor_chart.py:22-52, the units that can be written (the rate has only one) *)
Inductive yaml_head_unit : Type := HEAD_M | HEAD_KJ_PER_KG | HEAD_JOULE_PER_KG.
Inductive yaml_efficiency_unit : Type := EFFICIENCY_FRACTION | EFFICIENCY_PERCENTAGE.
Record yaml_units : Type := mkUnits { u_head : yaml_head_unit; u_efficiency : yaml_efficiency_unit }.
(** 39-51, the units when none are written *)
Definition default_units : yaml_units := mkUnits HEAD_M EFFICIENCY_PERCENTAGE.

(** ** presentation/yaml/mappers/utils.py:9-18, YAML_UNIT_MAPPING *)
Definition mapped_head_unit (u : yaml_head_unit) : unit_ :=
  match u with
  | HEAD_M => POLYTROPIC_HEAD_METER_LIQUID_COLUMN
  | HEAD_KJ_PER_KG => POLYTROPIC_HEAD_KILO_JOULE_PER_KG
  | HEAD_JOULE_PER_KG => POLYTROPIC_HEAD_JOULE_PER_KG
  end.
Definition mapped_efficiency_unit (u : yaml_efficiency_unit) : unit_ :=
  match u with EFFICIENCY_FRACTION => FRACTION | EFFICIENCY_PERCENTAGE => PERCENTAGE end.
(** 36-54, convert_head_to_joule_per_kg (EcalcValidationException for another unit); 21-33, convert_rate_to_am3_per_hour, is
    the identity for the one rate unit there is *)
Definition convert_head_to_joule_per_kg (heads : list Qc) (u : unit_) : result (list Qc) :=
  match u with
  | POLYTROPIC_HEAD_KILO_JOULE_PER_KG =>
      do g <- unit_to POLYTROPIC_HEAD_KILO_JOULE_PER_KG POLYTROPIC_HEAD_JOULE_PER_KG; Ok (map g heads)
  | POLYTROPIC_HEAD_JOULE_PER_KG => Ok heads
  | POLYTROPIC_HEAD_METER_LIQUID_COLUMN =>
      do g <- unit_to POLYTROPIC_HEAD_METER_LIQUID_COLUMN POLYTROPIC_HEAD_JOULE_PER_KG; Ok (map g heads)
  | _ => Err ValidationError
  end.
(** 88-97, convert_efficiency_to_fraction *)
Definition convert_efficiency_to_fraction (effs : list Qc) (u : unit_) : result (list Qc) :=
  match u with
  | FRACTION => Ok effs
  | PERCENTAGE => do g <- unit_to PERCENTAGE FRACTION; Ok (map g effs)
  | _ => Err ValidationError
  end.

(** ** charts/user_defined_chart_data.py *)
(** 24-25, _all_numbers_equal: the set of the values has one element *)
Fixpoint distinct (l : list Qc) : list Qc :=
  match l with
  | [] => []
  | x :: r => x :: filter (fun y => negb (Qceqb y x)) (distinct r)
  end.
Definition all_numbers_equal (l : list Qc) : bool := Nat.eqb (List.length (distinct l)) 1.
(** one curve of lists in the written units: 79-86, 100-112 and 131-136 *)
Definition converted_curve (u : yaml_units) (speed : Qc) (rates heads effs : list Qc) : result curve :=
  do heads' <- convert_head_to_joule_per_kg heads (mapped_head_unit (u_head u));
  do effs' <- convert_efficiency_to_fraction effs (mapped_efficiency_unit (u_efficiency u));
  make_curve rates heads' effs' speed.
(** 28-31, __init__: the curves in order of speed (a stable sort) *)
Definition by_speed (cs : list curve) : list curve := sort (fun a b => Qcleb (cv_speed a) (cv_speed b)) cs.

(** 63-87, from_resource with is_single_speed *)
Definition single_speed_of (f : file) : result Qc :=
  match get_float_column f "SPEED" with
  | Ok speeds => if all_numbers_equal speeds then of_option IndexError (hd_error speeds) else Err ValidationError
  | Err KeyError => Ok 1
  | Err e => Err e
  end.
Definition single_speed_curves (f : file) (u : yaml_units) : result (list curve) :=
  do speed <- single_speed_of f;
  do effs <- get_float_column f "EFFICIENCY";
  do rates <- get_float_column f "RATE";
  do heads <- get_float_column f "HEAD";
  do c <- converted_curve u speed rates heads effs;
  Ok [c].

(** the data frame of 94-98: the columns under the headers as they are written; df[name] is a KeyError for another name.
    Simplified: pandas does other things when a header occurs twice or the columns differ in length; that is OtherError
    here (a file that is read has neither: read_csv renames the second header and fills the columns). *)
Definition rectangular (cols : list (list Qc)) : bool :=
  match cols with
  | [] => true
  | c :: r => forallb (fun d => Nat.eqb (List.length d) (List.length c)) r
  end.
Fixpoint no_repeat (l : list string) : bool :=
  match l with [] => true | x :: r => negb (existsb (String.eqb x) r) && no_repeat r end.
Definition frame_column (headers : list string) (cols : list (list Qc)) (name : string) : result (list Qc) :=
  match index_of String.eqb name headers with
  | None => Err KeyError
  | Some i => of_option KeyError (nth_error cols i)
  end.
(** 105-111, grouped_by_speed.get_group(group)[name] *)
Definition group_column (speeds : list Qc) (speed : Qc) (column : list Qc) : list Qc :=
  map snd (filter (fun p => Qceqb (fst p) speed) (combine speeds column)).
(** 100-113, one curve of the comprehension *)
Definition group_curve (u : yaml_units) (headers : list string) (cols : list (list Qc)) (speeds : list Qc) (speed : Qc) : result curve :=
  do rates <- frame_column headers cols "RATE";
  do heads <- frame_column headers cols "HEAD";
  do effs <- frame_column headers cols "EFFICIENCY";
  converted_curve u speed (group_column speeds speed rates) (group_column speeds speed heads) (group_column speeds speed effs).
(** 88-114: the rest of from_resource.  The groups are in the order in which their speeds first occur. *)
Definition variable_speed_curves (f : file) (u : yaml_units) : result (list curve) :=
  if negb (existsb (String.eqb "SPEED") (f_headers f)) then Err ValidationError
  else
    do cols <- mapM (get_float_column f) (f_headers f);
    if negb (rectangular cols && no_repeat (f_headers f)) then Err OtherError
    else
      do speeds <- frame_column (f_headers f) cols "SPEED";
      mapM (group_curve u (f_headers f) cols speeds) (distinct speeds).
(** 55-116, from_resource: what get_original_curves gives *)
Definition from_resource (f : file) (u : yaml_units) (is_single_speed : bool) : result (list curve) :=
  do cs <- (if is_single_speed then single_speed_curves f u else variable_speed_curves f u);
  Ok (by_speed cs).

(** yaml_compressor_chart.py:15-19, YamlCurve *)
Record yaml_curve : Type := mkYamlCurve { yc_speed : Qc; yc_rate : list Qc; yc_head : list Qc; yc_efficiency : list Qc }.
(** 118-141, from_yaml_curves *)
Definition from_yaml_curves (cs : list yaml_curve) (u : yaml_units) : result (list curve) :=
  do made <- mapM (fun c => converted_curve u (yc_speed c) (yc_rate c) (yc_head c) (yc_efficiency c)) cs;
  Ok (by_speed made).

(** Model of the input side: presentation/yaml/yaml_entities.py (MemoryResource),
    presentation/yaml/domain/time_series*.py, mappers/variables_mapper/get_global_time_vector.py and the part
    of variables_mapper.py / model.py that turns time series into variables. *)
From Coq Require Import Ascii String.
From Verif Require Import QcTac Base Time_Model Expr_Model Vars_Model.
Local Open Scope list_scope.
Local Open Scope Z_scope.

(** ** Strings *)

(** str.lower on ASCII letters *)
Definition lower_ascii (c : ascii) : ascii :=
  let n := nat_of_ascii c in if (Nat.leb 65 n && Nat.leb n 90)%bool then ascii_of_nat (n + 32) else c.
Fixpoint lower (s : string) : string :=
  match s with EmptyString => EmptyString | String c r => String (lower_ascii c) (lower r) end.

(** str.split(";"): never empty *)
Definition semicolon : ascii := ";"%char.
Fixpoint split_semicolon (s : string) : list string :=
  match s with
  | EmptyString => [EmptyString]
  | String c r =>
      match split_semicolon r with
      | [] => [EmptyString]
      | part :: parts => if Ascii.eqb c semicolon then EmptyString :: part :: parts else String c part :: parts
      end
  end.
(** f"{a};{b}" *)
Definition join_semicolon (a b : string) : string := append a (String semicolon b).

(** ** yaml_entities.py:20-57, MemoryResource.  Cells are numbers here (text cells are rejected by
    time_series_resource.py:92-103 before they are used as values). *)
Record memory_resource : Type := mkResource { mr_headers : list string; mr_data : list (list Qc) }.

Definition get_column (r : memory_resource) (header : string) : result (list Qc) :=
  match index_of String.eqb (lower header) (map lower (mr_headers r)) with
  | None => Err KeyError  (* HeaderNotFoundException *)
  | Some i => of_option KeyError (nth_error (mr_data r) i)  (* ColumnNotFoundException *)
  end.

(** ** time_series.py *)
Inductive interpolation_type : Type := LEFT | RIGHT | LINEAR.

Record time_series : Type := mkTS {
  ts_reference : string;
  ts_dates : list datetime;
  ts_values : list Qc;
  ts_extrapolate : bool;
  ts_interpolation : interpolation_type }.

(** scipy interp1d on points in increasing order of x: kinds "previous", "next" and "linear"; outside the
    range of x it raises ValueError (bounds_error) *)
Fixpoint interp_previous (points : list (Z * Qc)) (x : Z) : result Qc :=
  match points with
  | [] => Err ValueError
  | (x0, y0) :: rest =>
      if x <? x0 then Err ValueError
      else match rest with
           | [] => if x =? x0 then Ok y0 else Err ValueError
           | (x1, _) :: _ => if x <? x1 then Ok y0 else interp_previous rest x
           end
  end.
Fixpoint interp_next_from (points : list (Z * Qc)) (x : Z) : result Qc :=
  match points with
  | [] => Err ValueError
  | (x0, y0) :: rest => if x <=? x0 then Ok y0 else interp_next_from rest x
  end.
Definition interp_next (points : list (Z * Qc)) (x : Z) : result Qc :=
  match points with
  | [] => Err ValueError
  | (x0, _) :: _ => if x <? x0 then Err ValueError else interp_next_from points x
  end.
Fixpoint interp_linear (points : list (Z * Qc)) (x : Z) : result Qc :=
  match points with
  | (x0, y0) :: (((x1, y1) :: _) as rest) =>
      if x <? x0 then Err ValueError
      else if x <=? x1 then Ok ((y1 - y0) / qz (x1 - x0) * qz (x - x0) + y0)%Qc
      else interp_linear rest x
  | _ => Err ValueError
  end.
Definition interp1d (kind : interpolation_type) : list (Z * Qc) -> Z -> result Qc :=
  match kind with
  | LINEAR => interp_linear      (* 28-29 *)
  | RIGHT => interp_previous     (* 30-31 *)
  | LEFT => interp_next          (* 32-33 *)
  end.

(** 37-58, _interpolate *)
Definition interpolate (s : time_series) (time_vector : list datetime) : result (list Qc) :=
  match ts_dates s with
  | [] => Err IndexError
  | start :: rest =>
      let setup_times := match rest with [] => [0; 1] | _ => map (fun t => t - start) (ts_dates s) end in
      let setup_y := match rest with [] => ts_values s ++ ts_values s | _ => ts_values s end in
      if negb (Nat.eqb (List.length setup_times) (List.length setup_y)) then Err ValueError
      else mapM (fun t => interp1d (ts_interpolation s) (combine setup_times setup_y) (t - start)) time_vector
  end.

(** 95-105, split_time_vector *)
Definition split_time_vector (time_vector : list datetime) (start stop : datetime)
  : nat * list datetime * nat :=
  (List.length (filter (fun d => d <? start) time_vector),
   filter (fun d => (start <=? d) && (d <=? stop)) time_vector,
   List.length (filter (fun d => stop <? d) time_vector)).

(** 60-84, fit_to_time_vector *)
Definition fit_to_time_vector (s : time_series) (time_vector : list datetime) : result time_series :=
  match ts_dates s, last_opt (ts_dates s) with
  | start :: _, Some stop =>
      let '(before, between, after) := split_time_vector time_vector start stop in
      do after_value <- (if ts_extrapolate s then of_option IndexError (last_opt (ts_values s)) else Ok 0%Qc);
      do between_values <- interpolate s between;
      Ok (mkTS (ts_reference s) time_vector
            (repeat 0%Qc before ++ between_values ++ repeat after_value after)
            (ts_extrapolate s) (ts_interpolation s))
  | _, _ => Err IndexError
  end.

(** 86-92, sort *)
Definition ts_sort (s : time_series) : result time_series :=
  match sort (fun a b => fst a <=? fst b) (combine (ts_dates s) (ts_values s)) with
  | [] => Err IndexError
  | rows => Ok (mkTS (ts_reference s) (map fst rows) (map snd rows) (ts_extrapolate s) (ts_interpolation s))
  end.

(** ** time_series_resource.py *)
Record ts_resource : Type := mkTSResource {
  tsr_resource : memory_resource; tsr_headers : list string; tsr_dates : list datetime }.

(** 37-69, TimeSeriesResource.__init__; [parse] is _parse_time_vector (117-209) on the cells of the column *)
Definition make_ts_resource (parse : list Qc -> result (list datetime)) (r : memory_resource) : result ts_resource :=
  let headers := mr_headers r in
  let without h := filter (fun x => negb (String.eqb x h)) headers in
  do th <-
    match headers with
    | [] => Err ValidationError
    | first :: rest =>
        if existsb (String.eqb "DATE") headers then do c <- get_column r "DATE"; Ok (c, without "DATE"%string)
        else if existsb (String.eqb "DATES") headers then do c <- get_column r "DATES"; Ok (c, without "DATES"%string)
        else do c <- get_column r first; Ok (c, rest)
    end;
  do tv <- parse (fst th);
  Ok (mkTSResource r (snd th) tv).

(** string_utils.py:7-15, get_duplicates: the seen set and the duplicates *)
Definition get_duplicates (l : list Z) : list Z :=
  snd (fold_left (fun sd x => if existsb (Z.eqb x) (fst sd) then (fst sd, snd sd ++ [x]) else (fst sd ++ [x], snd sd)) l ([], [])).

(** 71-76, _validate_time_vector; 78-103, _validate_columns (lengths; the cells are numbers here) *)
Definition validate_ts_resource (r : ts_resource) : result unit :=
  match tsr_dates r with
  | [] => Err ValidationError
  | _ =>
      match get_duplicates (tsr_dates r) with
      | _ :: _ => Err ValidationError
      | [] =>
          do columns <- mapM (get_column (tsr_resource r)) (tsr_headers r);
          match columns with
          | [] => Err ValidationError
          | first :: _ =>
              if Nat.eqb (List.length first) 0 then Err ValidationError
              else if negb (forallb (fun c => Nat.eqb (List.length c) (List.length (tsr_dates r))) columns)
              then Err ValidationError
              else Ok tt
          end
      end
  end.

(** ** time_series_collection.py *)
Record collection : Type := mkCollection {
  tc_name : string; tc_resource : ts_resource; tc_interpolation : interpolation_type;
  tc_extrapolation : bool; tc_influence : bool }.

(** 45-58, get_time_series (a missing column becomes TimeSeriesNotFound) *)
Definition collection_series (c : collection) (id : string) : result time_series :=
  do column <- get_column (tsr_resource (tc_resource c)) id;
  ts_sort (mkTS (join_semicolon (tc_name c) id) (tsr_dates (tc_resource c)) column (tc_extrapolation c) (tc_interpolation c)).

(** yaml_time_series.py and 60-78, from_yaml: the DEFAULT type or MISCELLANEOUS with its options *)
Inductive yaml_collection_type : Type :=
| YamlDefault
| YamlMiscellaneous (interpolation : interpolation_type) (extrapolation : option bool).
Record yaml_collection : Type := mkYamlCollection {
  yc_name : string; yc_file : string; yc_influence : bool; yc_type : yaml_collection_type }.
Definition collection_from_yaml (r : ts_resource) (y : yaml_collection) : collection :=
  let (interpolation, extrapolation) :=
    match yc_type y with
    | YamlDefault => (RIGHT, false)
    | YamlMiscellaneous i e => (i, match e with Some b => b | None => false end)
    end in
  mkCollection (yc_name y) r interpolation extrapolation (yc_influence y).

(** ** time_series_collections.py *)

(** 47-66, create *)
Definition collections_create (ys : list yaml_collection) (resources : list (string * ts_resource))
  : list (string * collection) :=
  match resources with
  | [] => []
  | _ =>
      fold_left (fun d y =>
        match dict_get String.eqb (yc_file y) resources with
        | None => d
        | Some r => dict_set String.eqb (yc_name y) (collection_from_yaml r y) d
        end) ys []
  end.

(** 20-25, get_time_series_references *)
Definition series_references (cs : list (string * collection)) : list string :=
  flat_map (fun kc => map (join_semicolon (tc_name (snd kc))) (tsr_headers (tc_resource (snd kc)))) cs.

(** 27-36, get_time_series *)
Definition collections_series (cs : list (string * collection)) (id : string) : result time_series :=
  match split_semicolon id with
  | [collection_id; series_id] =>
      match dict_get String.eqb collection_id cs with
      | None => Err KeyError  (* TimeSeriesNotFound *)
      | Some c => collection_series c series_id
      end
  | _ => Err KeyError  (* TimeSeriesNotFound *)
  end.

(** 38-43, get_time_vector (as a list; it is used as a set) *)
Definition collections_time_vector (cs : list (string * collection)) : list datetime :=
  flat_map (fun kc => if tc_influence (snd kc) then tsr_dates (tc_resource (snd kc)) else []) cs.

(** ** get_global_time_vector.py:34-67 *)
Definition min_date (l : list datetime) : result datetime :=
  match l with [] => Err ValueError | d :: ds => Ok (fold_left Z.min ds d) end.
Definition get_global_time_vector (time_vector : list datetime) (stop : datetime) (start : option datetime)
    (additional : list datetime) : result (list datetime) :=
  do start <-
    match start, time_vector with
    | None, [] => Err ValidationError
    | Some s, _ => Ok s
    | None, _ => min_date time_vector
    end;
  if stop <=? start then Err InvalidDateException  (* InvalidEndDate *)
  else Ok (sorted_set (filter (fun d => (start <=? d) && (d <=? stop)) (time_vector ++ [start; stop] ++ additional))).

(** ** model.py:299-311, _get_periods *)
Definition get_model_periods (time_vector : list datetime) (stop : datetime) (start : option datetime)
    (dates : list datetime) : result (list period) :=
  do tv <- get_global_time_vector time_vector stop start dates;
  Ok (create_periods tv false false).

(** ** variables_mapper.py:111-123, the variables that are time series *)
Definition series_variables (cs : list (string * collection)) (ps : list period) : result variables_dict :=
  do series <- mapM (collections_series cs) (series_references cs);
  do fitted <- mapM (fun s => do f <- fit_to_time_vector s (start_dates ps); Ok (ts_reference s, ts_values f)) series;
  Ok (fold_left (fun d kv => dict_set String.eqb (fst kv) (snd kv) d) fitted []).

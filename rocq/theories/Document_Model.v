(** Model of reading a YAML file: presentation/yaml/yaml_models/pyyaml_yaml_model.py. *)
From Coq Require Import PeanoNat String Ascii.
From Verif Require Import Base Time_Model Input_Model.
Local Open Scope list_scope.

(** ** Documents *)
(** keys of mappings: text, dates (date and datetime; convert_date_to_datetime, common/time_utils.py:386-389, gives a date the time
    00:00:00, so that it is the same thing here), numbers.
    Simplified: in Python a date and the datetime of its midnight are different keys. *)
Inductive key : Type := KText (s : string) | KDate (d : datetime) | KNumber (n : Z).
Definition key_eqb (a b : key) : bool :=
  match a, b with
  | KText x, KText y => String.eqb x y
  | KDate x, KDate y => Z.eqb x y
  | KNumber x, KNumber y => Z.eqb x y
  | _, _ => false
  end.
(** yaml_node.py, the marks of a YamlDict: the file it was read from and the lines and columns (from 0) of its start and end *)
Record marks : Type := mkMarks { mk_file : string; mk_start : Z * Z; mk_end : Z * Z }.
(** what yaml.load returns; [Null] is None, [Scalar] a number, a boolean or a date *)
Inductive node : Type :=
| Text (s : string) | Scalar | Null
| Map (m : marks) (entries : list (key * node))
| Seq (items : list node).

(** ** 186-213, YamlReader.load and 125-146, IncludeConstructor with a base_dir *)
(** the nodes of a file before they are constructed *)
Inductive raw : Type :=
| RText (s : string) | RScalar | RNull
| RMap (m : marks) (entries : list (key * raw))
| RSeq (items : list raw)
| RInclude (name : string).
(** 170-184, construct_mapping: the first key seen before *)
Fixpoint duplicate (seen : list key) (keys : list key) : option key :=
  match keys with
  | [] => None
  | k :: r => if existsb (key_eqb k) seen then Some k else duplicate (k :: seen) r
  end.
(** One file; [include] reads another.  DuplicateKeyError is ValidationError here.  Simplified: names of files are not checked, no anchors and
    merge keys. *)
Fixpoint construct (include : string -> result node) (r : raw) : result node :=
  match r with
  | RText s => Ok (Text s)
  | RScalar => Ok Scalar
  | RNull => Ok Null
  | RMap m entries =>
      match duplicate [] (map fst entries) with
      | Some _ => Err ValidationError
      | None =>
          do es <- (fix go (l : list (key * raw)) : result (list (key * node)) :=
                      match l with
                      | [] => Ok []
                      | (k, v) :: rest => do v' <- construct include v; do rest' <- go rest; Ok ((k, v') :: rest')
                      end) entries;
          Ok (Map m es)
      end
  | RSeq items =>
      do l <- (fix go (l : list raw) : result (list node) :=
                 match l with
                 | [] => Ok []
                 | v :: rest => do v' <- construct include v; do rest' <- go rest; Ok (v' :: rest')
                 end) items;
      Ok (Seq l)
  | RInclude name => include name
  end.
(** 136-141: the file is opened and read in the same way.  [fuel]: Python's limit on recursion. *)
Fixpoint include_file (files : string -> option raw) (fuel : nat) (name : string) : result node :=
  match fuel with
  | O => Err OtherError
  | S fuel =>
      match files name with
      | None => Err OtherError (* FileNotFoundError *)
      | Some r => construct (include_file files fuel) r
      end
  end.
(** 236-256, read_yaml: the document is a dict *)
Definition read_yaml (files : string -> option raw) (fuel : nat) (main : raw) : result node :=
  do d <- construct (include_file files fuel) main;
  match d with Map m es => Ok (Map m es) | _ => Err ValidationError end.

(** ** 661-693, find_date_keys_in_yaml *)
Fixpoint find_dates (n : node) : list datetime :=
  match n with
  | Map _ entries =>
      (fix go (l : list (key * node)) (output : list datetime) : list datetime :=
         match l with
         | [] => output
         | (k, v) :: r =>
             let output := match k with KDate d => if existsb (Z.eqb d) output then output else output ++ [d] | _ => output end in
             go r (match v with Map _ _ | Seq _ => output ++ find_dates v | _ => output end)
         end) entries []
  | Seq items =>
      (fix go (l : list node) (output : list datetime) : list datetime :=
         match l with
         | [] => output
         | v :: r => go r (match v with Map _ _ | Seq _ => output ++ find_dates v | _ => output end)
         end) items []
  | _ => []
  end.
(** model.py:299-311: the periods of the model, with the dates of the document (pyyaml_yaml_model.py:553-556, dates) *)
Definition document_periods (time_vector : list datetime) (stop : datetime) (start : option datetime) (document : node) : result (list period) :=
  get_model_periods time_vector stop start (find_dates document).

(** ** 696-713, _find_file_references *)
Fixpoint find_files (n : node) : list string :=
  match n with
  | Map _ entries =>
      flat_map (fun e : key * node => let (k, v) := e in
        match k, v with
        | KText "FILE", Text s => [s]
        | _, _ => find_files v
        end) entries
  | Seq items => flat_map find_files items
  | _ => []
  end.
(** dict.get *)
Definition get (k : string) (entries : list (key * node)) : option node := dict_get key_eqb (KText k) entries.
(** 285-308, _get_yaml_list_or_empty *)
Definition list_or_empty (k : string) (entries : list (key * node)) : list node :=
  match get k entries with Some (Seq l) => l | _ => [] end.
(** x.get(FILE) for a resource, None if there is none.  Simplified: a FILE that is neither null nor text is a TypeError here. *)
Definition file_of (n : node) : result (list string) :=
  match n with
  | Map _ entries =>
      match get "FILE" entries with
      | None | Some Null => Ok []
      | Some (Text s) => Ok [s]
      | Some _ => Err TypeError
      end
  | _ => Err OtherError (* AttributeError *)
  end.
(** 314-319 *)
Definition curves_of (n : node) : result (list node) :=
  match n with
  | Map _ entries =>
      Ok (flat_map (fun k => match get k entries with Some (Map m es) => [Map m es] | _ => [] end) ["CURVES"%string; "CURVE"%string])
  | _ => Err OtherError (* AttributeError *)
  end.
(** dict.fromkeys: the first of each *)
Fixpoint first_of_each (seen l : list string) : list string :=
  match l with
  | [] => []
  | x :: r => if existsb (String.eqb x) seen then first_of_each seen r else x :: first_of_each (x :: seen) r
  end.
(** 311-336, facility_resource_names *)
Definition facility_resource_names (entries : list (key * node)) : result (list string) :=
  do curves <- mapM curves_of (list_or_empty "MODELS" entries);
  do names <- mapM file_of (list_or_empty "FACILITY_INPUTS" entries ++ concat curves);
  let units :=
    match get "DEFINITIONS" entries with
    | Some (Map _ definitions) => match get "PROCESS_UNITS" definitions with Some n => find_files n | None => [] end
    | _ => []
    end in
  let pipelines := match get "PROCESS_PIPELINES" entries with Some n => find_files n | None => [] end in
  Ok (first_of_each [] (concat names ++ units ++ pipelines)).
(** 338-345, timeseries_resource_names *)
Definition timeseries_resource_names (entries : list (key * node)) : result (list string) :=
  do names <- mapM file_of (list_or_empty "TIME_SERIES" entries);
  Ok (concat names).

(** ** 608-655, _get_closest_file_context *)
Inductive path_key : Type := PText (s : string) | PIndex (i : nat) | PDate (d : datetime).
(** file_context.py, with lines from 1 *)
Record file_context : Type := mkContext { fc_name : string; fc_start : Z * Z; fc_end : Z * Z }.
(** 573-584, _node_to_file_context *)
Definition node_to_file_context (name : string) (m : marks) : file_context :=
  mkContext name (fst (mk_start m) + 1, snd (mk_start m)) (fst (mk_end m) + 1, snd (mk_end m)).
(** 628-632: the first key that is the date; a key that is no date ends the search (PydanticValidationError) *)
Fixpoint find_date (parse : key -> option datetime) (d : datetime) (entries : list (key * node)) : option node :=
  match entries with
  | [] => None
  | (k, v) :: r => match parse k with None => None | Some x => if x =? d then Some v else find_date parse d r end
  end.
(** 616-641, one key: the data below it, if there are any.  [upper]: str.upper *)
Definition descend (upper : string -> string) (parse : key -> option datetime) (current : node) (k : path_key) : option node :=
  match k, current with
  | PText s, Map _ entries => get (upper s) entries
  | PIndex i, Seq items => nth_error items i
  | PDate d, Map _ entries => find_date parse d entries
  | _, _ => None
  end.
(** 613-655; [lenient]: is_pydantic_loc *)
Fixpoint closest (upper : string -> string) (parse : key -> option datetime) (lenient : bool) (current : node) (context : marks) (path : list path_key) : marks :=
  match path with
  | [] => context
  | k :: r =>
      match descend upper parse current k with
      | Some next => closest upper parse lenient next (match next with Map m _ => m | _ => context end) r
      | None => if lenient then closest upper parse lenient current context r else context
      end
  end.
(** 657-658, get_file_context *)
Definition get_file_context (upper : string -> string) (parse : key -> option datetime) (name : string) (m : marks) (entries : list (key * node)) (path : list path_key) : file_context :=
  node_to_file_context name (closest upper parse false (Map m entries) m path).

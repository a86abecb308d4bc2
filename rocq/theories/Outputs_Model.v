(** Model of the files that a run writes: src/ecalc_cli/commands/run.py (31-278), src/ecalc_cli/io/output.py
    (25-196) and src/libecalc/presentation/exporter/handlers/handler.py (68-81).
    The texts that are written are arguments. The disk is what the run can see of it: which paths are directories
    and what is in the files. Paths are absolute, and the list of their parts. Not modelled: links, permissions, a full
    disk, and whether the model file exists (269-270). *)
From Coq Require Import PeanoNat String Ascii.
From Verif Require Import Base Archive_Model.
Local Open Scope list_scope.

Definition path := list string.
Record disk : Type := mkDisk { directory : path -> bool; file_at : path -> option string }.

(** Path / text: an absolute text replaces the path *)
Definition path_join (p : path) (text : string) : path :=
  match text with
  | String c _ => if Ascii.eqb c slash then path_of text else p ++ path_of text
  | EmptyString => p
  end.
Definition path_parent (p : path) : path := removelast p.
(** Path.stem: the name without its suffix *)
Definition stem_of_name (name : string) : string :=
  substring 0 (String.length name - String.length (suffix_of_name name)) name.
(** Path.with_name and Path.with_suffix: ValueError if the path has no name *)
Definition with_name (p : path) (name : string) : result path :=
  match p with [] => Err ValueError | _ => Ok (path_parent p ++ [name]) end.
Definition with_suffix (p : path) (ending : string) : result path := with_name p (stem_of_name (path_name p) ++ ending).

(** the files of a run *)
Inductive document : Type :=
| FlowDiagram
| ResultsCsv
| IntensityCsv
| ResultsJson
| RunInfoJson
| IntensityJson
| Ltp (installation : string)
| Stp (installation : string).

(** run.py 31-118, the arguments of the command, and what the run comes to: whether an emission of the results is called
    CO2, [r_text] for the texts of the results, and the tables of the two exports *)
Record run_call : Type := mkRun {
  r_model : path;
  r_folder : option path;
  r_prefix : option string;
  r_co2 : bool;
  r_csv : bool; r_json : bool; r_ltp : bool; r_stp : bool; r_flow : bool;
  r_text : document -> string;
  r_ltp_tables : list (string * string);
  r_stp_tables : list (string * string) }.

(** run.py 120-124 *)
Definition output_folder (r : run_call) : path :=
  match r_folder r with Some f => f | None => path_join (path_parent (r_model r)) "output" end.
Definition name_prefix (r : run_call) : string :=
  match r_prefix r with Some n => n | None => stem_of_name (path_name (r_model r)) end.

(** where each document goes: output.py 63, 72 and 191-192; run.py 167, 208, 216 and 229; handler.py 79 *)
Definition path_for (folder : path) (prefix : string) (d : document) : result path :=
  let output_prefix := path_join folder prefix in
  let stem := stem_of_name (path_name output_prefix) in
  match d with
  | FlowDiagram => Ok (path_join folder (if String.eqb prefix "" then "flow-diagram.json" else prefix ++ ".flow-diagram.json"))
  | ResultsCsv => with_suffix output_prefix ".csv"
  | IntensityCsv => with_name output_prefix (stem ++ "_intensity.csv")
  | ResultsJson => Ok (path_join folder (prefix ++ "_v3.json"))
  | RunInfoJson => Ok (path_join folder (prefix ++ "_run_info.json"))
  | IntensityJson => with_name output_prefix (stem ++ "_intensity.json")
  | Ltp g => Ok (path_join folder (prefix ++ "." ++ g ++ ".ltp" ++ ".tsv"))
  | Stp g => Ok (path_join folder (prefix ++ "." ++ g ++ ".stp" ++ ".tsv"))
  end.

(** formatters/formatter.py 46-50, format_groups: a dictionary by the name of the installation *)
Definition groups_of (tables : list (string * string)) : list (string * string) :=
  fold_left (fun d t => dict_set String.eqb (fst t) (snd t) d) tables [].

(** run.py 155-161: what is written before the model is evaluated *)
Definition to_write_first (r : run_call) : list (document * string) :=
  if r_flow r then [(FlowDiagram, r_text r FlowDiagram)] else [].
(** run.py 201-217, 219-235, 237-243 and 245-251: what is written after that, in this order *)
Definition to_write (r : run_call) : list (document * string) :=
  (if r_csv r then [(ResultsCsv, r_text r ResultsCsv); (IntensityCsv, r_text r IntensityCsv)] else []) ++
  (if r_json r then [(ResultsJson, r_text r ResultsJson); (RunInfoJson, r_text r RunInfoJson); (IntensityJson, r_text r IntensityJson)] else []) ++
  (if r_ltp r then map (fun t => (Ltp (fst t), snd t)) (groups_of (r_ltp_tables r)) else []) ++
  (if r_stp r then map (fun t => (Stp (fst t), snd t)) (groups_of (r_stp_tables r)) else []).

(** open(path, "w") and write: the directory must be there, and the path must not be a directory. What was in the
    file is lost. *)
Definition write_file (k : disk) (p : path) (text : string) : result disk :=
  if directory k (path_parent p) && negb (directory k p)
  then Ok (mkDisk (directory k) (fun q => if path_eqb q p then Some text else file_at k q))
  else Err OtherError.

(** the first failure ends the run; what was written stays *)
Fixpoint write_all (folder : path) (prefix : string) (k : disk) (l : list (document * string)) : disk * result unit :=
  match l with
  | [] => (k, Ok tt)
  | (d, text) :: l' =>
      match (do p <- path_for folder prefix d; write_file k p text) with
      | Ok k' => write_all folder prefix k' l'
      | Err e => (k, Err e)
      end
  end.

(** run.py 256-278, validate_arguments: the output folder is made if its parent is there *)
Definition make_folder (k : disk) (folder : path) : result disk :=
  if negb (directory k (path_parent folder)) then Err OtherError
  else if directory k folder then Ok k
  else match file_at k folder with
       | Some _ => Err OtherError
       | None => Ok (mkDisk (fun q => directory k q || path_eqb q folder) (file_at k))
       end.

(** run.py 119-253.  The intensities are calculated (184-189) before results are written; without an emission called CO2 the
    next() of ecalc_cli/emission_intensity.py:86-87 raises StopIteration. *)
Definition run_command (k : disk) (r : run_call) : disk * result unit :=
  match make_folder k (output_folder r) with
  | Err e => (k, Err e)
  | Ok k' =>
      match write_all (output_folder r) (name_prefix r) k' (to_write_first r) with
      | (k'', Err e) => (k'', Err e)
      | (k'', Ok _) => if r_co2 r then write_all (output_folder r) (name_prefix r) k'' (to_write r) else (k'', Err OtherError)
      end
  end.

(** Vocabulary for the files that runs write. *)
From Coq Require Import PeanoNat String Ascii.
From Verif Require Import Base Archive_Spec Outputs_Model.
Local Open Scope list_scope.

(** [s] is [name] without its extension *)
Definition has_extension (name s ext : string) : Prop := name = (s ++ "." ++ ext)%string /\ s <> ""%string /\ ext <> ""%string /\ without "." ext.
Definition bare (name s : string) : Prop := (exists ext, has_extension name s ext) \/ (s = name /\ ~ exists t ext, has_extension name t ext).

(** the name of the file with the document [d] in a run with the given prefix *)
Inductive named (prefix : string) : document -> string -> Prop :=
| named_flow : named prefix FlowDiagram (prefix ++ ".flow-diagram.json")
| named_csv : forall s, bare prefix s -> named prefix ResultsCsv (s ++ ".csv")
| named_intensity_csv : forall s, bare prefix s -> named prefix IntensityCsv (s ++ "_intensity.csv")
| named_json : named prefix ResultsJson (prefix ++ "_v3.json")
| named_run_info : named prefix RunInfoJson (prefix ++ "_run_info.json")
| named_intensity_json : forall s, bare prefix s -> named prefix IntensityJson (s ++ "_intensity.json")
| named_ltp : forall g, named prefix (Ltp g) (prefix ++ "." ++ g ++ ".ltp.tsv")
| named_stp : forall g, named prefix (Stp g) (prefix ++ "." ++ g ++ ".stp.tsv").

(** the run is asked for the document [d], and [text] is what it should hold *)
Inductive asked (r : run_call) : document -> string -> Prop :=
| asked_flow : r_flow r = true -> asked r FlowDiagram (r_text r FlowDiagram)
| asked_csv : r_csv r = true -> asked r ResultsCsv (r_text r ResultsCsv)
| asked_intensity_csv : r_csv r = true -> asked r IntensityCsv (r_text r IntensityCsv)
| asked_json : r_json r = true -> asked r ResultsJson (r_text r ResultsJson)
| asked_run_info : r_json r = true -> asked r RunInfoJson (r_text r RunInfoJson)
| asked_intensity_json : r_json r = true -> asked r IntensityJson (r_text r IntensityJson)
| asked_ltp : forall g text, r_ltp r = true -> In (g, text) (r_ltp_tables r) -> asked r (Ltp g) text
| asked_stp : forall g text, r_stp r = true -> In (g, text) (r_stp_tables r) -> asked r (Stp g) text.

(** the folder and the prefix of the run, given or not *)
Definition writes_to (r : run_call) (folder : path) : Prop :=
  r_folder r = Some folder \/ (r_folder r = None /\ exists dirs name, r_model r = dirs ++ [name] /\ folder = dirs ++ ["output"%string]).
Definition prefixed (r : run_call) (prefix : string) : Prop :=
  r_prefix r = Some prefix \/ (r_prefix r = None /\ exists dirs name, r_model r = dirs ++ [name] /\ bare name prefix).

(** the folder is there, or there is a directory in which it can be made *)
Definition has_place (k : disk) (folder : path) : Prop :=
  exists dirs name, folder = dirs ++ [name] /\ directory k dirs = true /\ (directory k folder = true \/ file_at k folder = None).
(** the installations have different names, without a slash *)
Definition plain_tables (tables : list (string * string)) : Prop :=
  NoDup (map fst tables) /\ forall g text, In (g, text) tables -> without "/" g.
(** no file of the run has the name of a directory *)
Definition unobstructed (k : disk) (folder : path) (prefix : string) (r : run_call) : Prop :=
  forall d text name, asked r d text -> named prefix d name -> directory k (folder ++ [name]) = false.
(** the run of a model with an emission called CO2, in a folder and with names that can be used *)
Definition plain_run (k : disk) (folder : path) (prefix : string) (r : run_call) : Prop :=
  r_co2 r = true /\ writes_to r folder /\ prefixed r prefix /\ has_place k folder /\ proper_part prefix /\
  plain_tables (r_ltp_tables r) /\ plain_tables (r_stp_tables r) /\ unobstructed k folder prefix r.

(** all documents that the run was asked for are in their files *)
Definition all_written (k : disk) (folder : path) (prefix : string) (r : run_call) : Prop :=
  forall d text name, asked r d text -> named prefix d name -> file_at k (folder ++ [name]) = Some text.

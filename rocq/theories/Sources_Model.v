(** Model of src/ecalc_cli/infrastructure/file_resource_service.py and the use of its resources in validate_for_run,
    src/libecalc/presentation/yaml/model.py. *)
From Coq Require Import PeanoNat String.
From Verif Require Import Base.
Local Open Scope list_scope.

(** What is at a path: no file, a file that is no text (open(path).read() fails with UnicodeDecodeError), or a text *)
Inductive file (text : Type) : Type := NoFile | NoText | FileText (t : text).
Arguments NoFile {text}. Arguments NoText {text}. Arguments FileText {text}.

(** InvalidResource, resource_service.py: the problem stands for the message and the place in the file *)
Record invalid_resource (problem : Type) : Type := mkInvalid { ir_name : string; ir_problem : problem }.
Arguments mkInvalid {problem}. Arguments ir_name {problem}. Arguments ir_problem {problem}.

Section Service.
  Context {text resource series problem : Type}.
  (** MemoryResource.from_string (allow_nans), TimeSeriesResource(...).validate(): a resource or an InvalidResourceException *)
  Variable from_string : bool -> text -> resource + problem.
  Variable to_series : resource -> series + problem.
  Variable disk : string -> file text.

  (** 20-29 and 50-57, one name: from_path, yaml_entities.py 105-116, reads the file before from_string is called; the error of a file
      that is no text is not caught *)
  Fixpoint get_resources {R} (parse : text -> R + problem) (names : list string) (found : list (string * R)) (errors : list (invalid_resource problem))
      : result (list (string * R) * list (invalid_resource problem)) :=
    match names with
    | [] => Ok (found, errors)
    | n :: names =>
        match disk n with
        | NoFile => get_resources parse names found errors
        | NoText => Err OtherError
        | FileText t =>
            match parse t with
            | inl r => get_resources parse names (dict_set String.eqb n r found) errors
            | inr p => get_resources parse names found (errors ++ [mkInvalid n p])
            end
        end
    end.
  (** 17-44, get_time_series_resources *)
  Definition get_time_series_resources (names : list string) :=
    get_resources (fun t => match from_string true t with inl r => to_series r | inr p => inr p end) names [] [].
  (** 46-72, get_facility_resources *)
  Definition get_facility_resources (names : list string) := get_resources (from_string false) names [] [].

  (** validate_for_run, model.py 369-406: the errors it raises, none if it goes on.  [configuration] stands for the errors of the
      validation of the configuration, which is told the names of the resources and has the valid time series. *)
  Inductive model_error (config : Type) : Type := InResource (name : string) (p : problem) | InConfiguration (e : config).
  Definition validation_errors {config} (configuration : list string -> list (string * series) -> list config) (time_series_names facility_names : list string)
      : result (list (model_error config)) :=
    do ts <- get_time_series_resources time_series_names;
    do fac <- get_facility_resources facility_names;
    let resource_errors := snd ts ++ snd fac in
    let resource_names := map fst (fst ts) ++ map fst (fst fac) ++ map ir_name resource_errors in
    let configuration_errors := configuration resource_names (fst ts) in
    Ok (map (fun e => InResource config (ir_name e) (ir_problem e)) resource_errors ++ map (InConfiguration config) configuration_errors).
End Service.
Arguments InResource {problem config}. Arguments InConfiguration {problem config}.

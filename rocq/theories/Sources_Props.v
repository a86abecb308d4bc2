(** Property C150: the files of a model and the errors about them. *)
From Coq Require Import PeanoNat String.
From Verif Require Import Base Sources_Model Sources_Spec Sources_Proofs.
Local Open Scope list_scope.

(** The time series resources are exactly the named files that can be read, and every broken one is reported. *)
Theorem C150_time_series : forall text resource series problem (from_string : bool -> text -> resource + problem) (to_series : resource -> series + problem) disk names found errors,
  get_time_series_resources from_string to_series disk names = Ok (found, errors) ->
  NoDup (map fst found) /\ (forall n r, In (n, r) found <-> In n names /\ good disk (series_reader from_string to_series) n r) /\
  reported disk (series_reader from_string to_series) names (map (fun e => (ir_name e, ir_problem e)) errors).
Proof. exact time_series_read. Qed.
Print Assumptions C150_time_series.

(** The same for the files of facilities, in which no value may be missing. *)
Theorem C150_facilities : forall text resource problem (from_string : bool -> text -> resource + problem) disk names found errors,
  get_facility_resources from_string disk names = Ok (found, errors) ->
  NoDup (map fst found) /\ (forall n r, In (n, r) found <-> In n names /\ good disk (from_string false) n r) /\
  reported disk (from_string false) names (map (fun e => (ir_name e, ir_problem e)) errors).
Proof. exact facilities_read. Qed.
Print Assumptions C150_facilities.

(** The validation reports every broken file and every error of the configuration, and a broken file does not count as a missing one. *)
Theorem C150_errors : forall text resource series problem config (from_string : bool -> text -> resource + problem) (to_series : resource -> series + problem) disk
    (configuration : list string -> list (string * series) -> list config) time_series facilities errors,
  validation_errors from_string to_series disk configuration time_series facilities = Ok errors ->
  exists reports reports' seen valid,
    reported disk (series_reader from_string to_series) time_series reports /\ reported disk (from_string false) facilities reports' /\
    (forall n, In n seen <-> (In n time_series \/ In n facilities) /\ exists t, disk n = FileText t) /\
    NoDup (map fst valid) /\ (forall n s, In (n, s) valid <-> In n time_series /\ good disk (series_reader from_string to_series) n s) /\
    errors = map (fun r => InResource (fst r) (snd r)) (reports ++ reports') ++ map InConfiguration (configuration seen valid).
Proof. exact errors_of_validation. Qed.
Print Assumptions C150_errors.

(** It ends with a list of errors exactly when no named file is something other than a text. *)
Theorem C150_runs : forall text resource series problem config (from_string : bool -> text -> resource + problem) (to_series : resource -> series + problem) disk
    (configuration : list string -> list (string * series) -> list config) time_series facilities,
  (exists errors, validation_errors from_string to_series disk configuration time_series facilities = Ok errors) <-> forall n, In n time_series \/ In n facilities -> disk n <> NoText.
Proof. exact validation_runs. Qed.
Print Assumptions C150_runs.

(** One file that is not a text (in the encoding of the system) ends the validation with another exception: the errors of all other files and of the configuration are not told. *)
Theorem C150_no_text_refuted : exists (disk : string -> file nat) time_series,
  (exists n p, In n time_series /\ broken disk (series_reader (fun _ t => if Nat.eqb t 0 then inr "empty"%string else inl t) (fun r => inl r)) n p) /\
  validation_errors (fun _ t => if Nat.eqb t 0 then inr "empty"%string else inl t) (fun r => inl (B := string) r) disk (fun _ _ => ["wrong keyword"%string]) time_series [] = Err OtherError.
Proof. exact no_text_refuted. Qed.
Print Assumptions C150_no_text_refuted.

(** ** A case: a good, a broken and a missing file, the broken one named twice; a facility file with a missing value *)
Definition C150_from_string (allow_nans : bool) (t : list (option nat)) : list (option nat) + string :=
  if allow_nans || forallb (fun x => match x with Some _ => true | None => false end) t then inl t else inr "empty value"%string.
Definition C150_series (r : list (option nat)) : list (option nat) + string := match r with [] => inr "no rows"%string | _ => inl r end.
Definition C150_disk (n : string) : file (list (option nat)) :=
  if String.eqb n "good.csv" then FileText [Some 1%nat; None] else if String.eqb n "bad.csv" then FileText [] else NoFile.
Definition C150_configuration (seen : list string) (valid : list (string * list (option nat))) : list string :=
  if existsb (String.eqb "gone.csv") seen then [] else ["gone.csv not found"%string].
Example C150_case : validation_errors C150_from_string C150_series C150_disk C150_configuration ["good.csv"; "bad.csv"; "gone.csv"; "bad.csv"]%string ["good.csv"]%string =
  Ok [InResource "bad.csv" "no rows"; InResource "bad.csv" "no rows"; InResource "good.csv" "empty value"; InConfiguration "gone.csv not found"]%string.
Proof. reflexivity. Qed.
Example C150_case_series : get_time_series_resources C150_from_string C150_series C150_disk ["good.csv"; "bad.csv"; "gone.csv"]%string =
  Ok ([("good.csv"%string, [Some 1%nat; None])], [mkInvalid "bad.csv"%string "no rows"%string]).
Proof. reflexivity. Qed.

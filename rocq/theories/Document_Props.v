(** Properties C139 to C142: what is read from YAML files. *)
From Coq Require Import PeanoNat String Lia.
From Verif Require Import Base Time_Model Time_Spec Input_Model Input_Spec Document_Model Document_Spec Document_Proofs Document_Proofs2 Document_Proofs3.
Local Open Scope list_scope.

(** The dates of a document are exactly the keys that are dates, at any depth. *)
Theorem C139_found : forall n d, In d (find_dates n) <-> date_key n d.
Proof. exact dates_found. Qed.
Print Assumptions C139_found.

(** They split the period of the model, and nothing but them, START, END and the dates of time series does. *)
Theorem C139_split : forall tv stop start document a, model_start start tv a -> (a < stop)%Z ->
  exists ps, document_periods tv stop start document = Ok ps /\ contiguous ps /\ spans ps a stop /\
    forall d, is_boundary ps d <-> ((a <= d <= stop)%Z /\ (d = a \/ d = stop \/ In d tv \/ date_key document d)).
Proof. exact dates_split. Qed.
Print Assumptions C139_split.

(** The files found are exactly those referred to, each once. *)
Theorem C140_files : forall m entries names, keyed (Map m entries) -> facility_resource_names entries = Ok names ->
  NoDup names /\ forall s, In s names <-> facility_file entries s.
Proof. exact facility_files. Qed.
Print Assumptions C140_files.

(** They are found exactly when facility inputs, models and curves are mappings with a proper FILE. *)
Theorem C140_found : forall m entries, keyed (Map m entries) -> ((exists names, facility_resource_names entries = Ok names) <-> findable entries).
Proof. exact facility_found. Qed.
Print Assumptions C140_found.

(** The files with time series. *)
Theorem C140_timeseries : forall m entries names, keyed (Map m entries) -> timeseries_resource_names entries = Ok names ->
  forall s, In s names <-> exists items m' fs, In (KText "TIME_SERIES", Seq items) entries /\ In (Map m' fs) items /\ In (KText "FILE", Text s) fs.
Proof. exact timeseries_files. Qed.
Print Assumptions C140_timeseries.

(** The place reported for a path is the innermost mapping on the part of the path that exists. *)
Theorem C141_place : forall upper parse name m entries path, keyed (Map m entries) ->
  exists p rest n p1 p2 m' entries',
    path = p ++ rest /\ leads_all upper parse (Map m entries) p n /\
    (rest = [] \/ exists k r, rest = k :: r /\ forall x, ~ leads upper parse n k x) /\
    p = p1 ++ p2 /\ leads_all upper parse (Map m entries) p1 (Map m' entries') /\
    (forall q q' x, p2 = q ++ q' -> q <> [] -> leads_all upper parse (Map m' entries') q x -> ~ is_map x) /\
    get_file_context upper parse name m entries path
      = mkContext name (fst (mk_start m') + 1, snd (mk_start m'))%Z (fst (mk_end m') + 1, snd (mk_end m'))%Z.
Proof. exact context_of_path. Qed.
Print Assumptions C141_place.

(** For a mapping in an included file, the line is that in the included file but the name that of the main file. *)
Theorem C141_file_refuted : exists files main document m entries path m' entries',
  read_yaml files 1 main = Ok document /\ document = Map m entries /\
  leads_all (fun s => s) (fun _ => None) document path (Map m' entries') /\
  mk_file m' <> fc_name (get_file_context (fun s => s) (fun _ => None) (mk_file m) m entries path) /\
  fc_start (get_file_context (fun s => s) (fun _ => None) (mk_file m) m entries path) = (fst (mk_start m') + 1, snd (mk_start m'))%Z.
Proof. exact context_file_refuted. Qed.
Print Assumptions C141_file_refuted.

(** What is read is the document with the included files in place, a mapping, without duplicate keys anywhere. *)
Theorem C142_read : forall files fuel main document, read_yaml files fuel main = Ok document ->
  expands files main document /\ is_map document /\ keyed document.
Proof. exact read_exact. Qed.
Print Assumptions C142_read.

(** Every such document is read, when Python's limit on recursion allows it. *)
Theorem C142_accepted : forall files main document, expands files main document -> is_map document ->
  exists enough, forall fuel, (enough <= fuel)%nat -> read_yaml files fuel main = Ok document.
Proof. exact read_complete. Qed.
Print Assumptions C142_accepted.

(** ** A case: a model with facility inputs, a pump with a file, a temporal model and an include *)
Definition C139_marks (name : string) (line : Z) : marks := mkMarks name (line, 0)%Z (line + 5, 0)%Z.
Definition C139_main : raw :=
  RMap (C139_marks "model.yaml" 0)
    [(KText "FACILITY_INPUTS", RSeq [RMap (C139_marks "model.yaml" 2) [(KText "NAME", RText "genset"); (KText "FILE", RText "genset.csv")]]);
     (KText "MODELS", RSeq [RMap (C139_marks "model.yaml" 5) [(KText "CURVES", RMap (C139_marks "model.yaml" 6) [(KText "FILE", RText "chart.csv")])];
                            RMap (C139_marks "model.yaml" 8) [(KText "CURVE", RSeq [])]]);
     (KText "PROCESS_PIPELINES", RMap (C139_marks "model.yaml" 10) [(KText "A", RSeq [RMap (C139_marks "model.yaml" 11) [(KText "FILE", RText "chart.csv")]])]);
     (KText "INSTALLATIONS", RInclude "installations.yaml")].
Definition C139_included : raw :=
  RSeq [RMap (C139_marks "installations.yaml" 0) [(KText "FUEL", RMap (C139_marks "installations.yaml" 1) [(KDate 10, RText "gas"); (KDate 20, RText "diesel")])]].
Definition C139_files (name : string) : option raw := if String.eqb name "installations.yaml" then Some C139_included else None.
Definition C139_entries : list (key * node) :=
  match read_yaml C139_files 3 C139_main with Ok (Map _ es) => es | _ => [] end.
Definition C139_document : node := Map (C139_marks "model.yaml" 0) C139_entries.
Example C142_case : read_yaml C139_files 3 C139_main = Ok C139_document.
Proof. reflexivity. Qed.
Example C142_case_duplicate : read_yaml C139_files 3 (RMap (C139_marks "model.yaml" 0) [(KText "A", RScalar); (KText "A", RNull)]) = Err ValidationError.
Proof. reflexivity. Qed.
Example C140_case_keyed : keyed C139_document.
Proof. exact (proj2 (proj2 (C142_read _ _ _ _ C142_case))). Qed.
Example C140_case : facility_resource_names C139_entries = Ok ["genset.csv"%string; "chart.csv"%string].
Proof. reflexivity. Qed.
Example C139_case : find_dates C139_document = [10; 20]%Z /\ date_key C139_document 20%Z /\
  document_periods [5; 15]%Z 30%Z None C139_document = Ok [mkPeriod 5 10; mkPeriod 10 15; mkPeriod 15 20; mkPeriod 20 30]%Z.
Proof. split; [reflexivity|]. split; [apply C139_found; cbn; auto|reflexivity]. Qed.
Example C141_case :
  get_file_context (fun s => s) (fun k => match k with KDate d => Some d | _ => None end) "model.yaml" (C139_marks "model.yaml" 0) C139_entries
    [PText "MODELS"; PIndex 0; PText "CURVES"; PText "UNKNOWN"] = mkContext "model.yaml" (7, 0)%Z (12, 0)%Z /\
  get_file_context (fun s => s) (fun k => match k with KDate d => Some d | _ => None end) "model.yaml" (C139_marks "model.yaml" 0) C139_entries
    [PText "INSTALLATIONS"; PIndex 0; PText "FUEL"; PDate 20%Z] = mkContext "model.yaml" (2, 0)%Z (7, 0)%Z.
Proof. split; reflexivity. Qed.

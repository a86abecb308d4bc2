(** Properties C144 and C145: the files that runs write. *)
From Coq Require Import PeanoNat String Ascii.
From Verif Require Import Base Archive_Spec Outputs_Model Outputs_Spec Outputs_Proofs Outputs_Proofs2.
Local Open Scope list_scope.

(** Each document that a run was asked for is in a file of its own in the output folder. *)
Theorem C144_written : forall k folder prefix r, plain_run k folder prefix r -> exists k', run_command k r = (k', Ok tt) /\ all_written k' folder prefix r.
Proof. exact run_writes. Qed.
Print Assumptions C144_written.

(** No other file is changed. *)
Theorem C144_others : forall k k' folder prefix r p, plain_run k folder prefix r -> run_command k r = (k', Ok tt) ->
  (forall d text name, asked r d text -> named prefix d name -> p <> folder ++ [name]) -> file_at k' p = file_at k p.
Proof. exact run_leaves. Qed.
Print Assumptions C144_others.

(** With an empty prefix the table of results is written beside the output folder. *)
Theorem C144_outside_refuted : exists k k' r folder outside text, writes_to r folder /\ prefixed r "" /\ has_place k folder /\ run_command k r = (k', Ok tt) /\
  asked r ResultsCsv text /\ file_at k outside = None /\ file_at k' outside = Some text /\ ~ exists parts, outside = folder ++ parts.
Proof. exact outside_refuted. Qed.
Print Assumptions C144_outside_refuted.

(** An installation may have a slash in its name, and then the export of a run fails. *)
Theorem C144_slash_refuted : exists k r folder prefix, r_co2 r = true /\ writes_to r folder /\ prefixed r prefix /\ has_place k folder /\ proper_part prefix /\
  NoDup (map fst (r_ltp_tables r)) /\ map fst (r_ltp_tables r) = ["North/South"]%string /\ snd (run_command k r) = Err OtherError.
Proof. exact slash_refuted. Qed.
Print Assumptions C144_slash_refuted.

(** The results of a model without an emission called CO2 are not written at all. *)
Theorem C144_no_co2_refuted : exists k r folder prefix, writes_to r folder /\ prefixed r prefix /\ has_place k folder /\ proper_part prefix /\
  asked r ResultsCsv "results" /\ snd (run_command k r) = Err OtherError /\ forall p, file_at (fst (run_command k r)) p = None.
Proof. exact no_co2_refuted. Qed.
Print Assumptions C144_no_co2_refuted.

(** Without such an emission every run fails, and writes nothing but the flow diagram. *)
Theorem C144_no_co2 : forall k r, r_co2 r = false -> exists k' e, run_command k r = (k', Err e) /\
  forall p, (forall q, path_for (output_folder r) (name_prefix r) FlowDiagram = Ok q -> p <> q) -> file_at k' p = file_at k p.
Proof. exact no_co2. Qed.
Print Assumptions C144_no_co2.

(** Two runs in one folder keep their files apart if their prefixes differ by more than the ending _intensity and have no dots. *)
Theorem C145_apart : forall k k1 k2 folder p q r1 r2, without "." p -> without "." q -> p <> q -> q <> (p ++ "_intensity")%string -> p <> (q ++ "_intensity")%string ->
  plain_run k folder p r1 -> run_command k r1 = (k1, Ok tt) -> plain_run k1 folder q r2 -> run_command k1 r2 = (k2, Ok tt) ->
  all_written k2 folder p r1 /\ all_written k2 folder q r2.
Proof. exact runs_apart. Qed.
Print Assumptions C145_apart.

(** Runs in different folders keep their files apart. *)
Theorem C145_folders : forall k k1 k2 f g p q r1 r2, f <> g ->
  plain_run k f p r1 -> run_command k r1 = (k1, Ok tt) -> plain_run k1 g q r2 -> run_command k1 r2 = (k2, Ok tt) ->
  all_written k2 f p r1 /\ all_written k2 g q r2.
Proof. exact folders_apart. Qed.
Print Assumptions C145_folders.

(** Prefixes that differ after the last dot only: the second run writes over the results of the first. *)
Theorem C145_dots_refuted : exists k k1 k2 folder p q r1 r2, p <> q /\
  plain_run k folder p r1 /\ run_command k r1 = (k1, Ok tt) /\ plain_run k1 folder q r2 /\ run_command k1 r2 = (k2, Ok tt) /\
  ~ all_written k2 folder p r1.
Proof. exact overwritten_refuted. Qed.
Print Assumptions C145_dots_refuted.

(** A prefix that ends in _intensity: the second run writes over the intensities of the first. *)
Theorem C145_intensity_refuted : exists k k1 k2 folder p q r1 r2, p <> q /\ without "." p /\ without "." q /\
  plain_run k folder p r1 /\ run_command k r1 = (k1, Ok tt) /\ plain_run k1 folder q r2 /\ run_command k1 r2 = (k2, Ok tt) /\
  ~ all_written k2 folder p r1.
Proof. exact overwritten_intensity_refuted. Qed.
Print Assumptions C145_intensity_refuted.

(** ** A case: a run with all documents, and one after it *)
Definition C144_run (prefix : string) : run_call :=
  mkRun ["data"; "model.yaml"]%string None (Some prefix) true true true true true true (fun _ => prefix) [("North", "ltp north"); ("South", "ltp south")]%string [("North", "stp north")]%string.
Definition C144_disk : disk := mkDisk (fun p => match p with [d] => String.eqb d "data" | _ => false end) (fun _ => None).
Example C144_case_plain : forall prefix, proper_part prefix -> plain_run C144_disk ["data"; "output"]%string prefix (C144_run prefix).
Proof.
  intros prefix P. split; [reflexivity|]. split; [right; split; [reflexivity|]; exists ["data"%string], "model.yaml"%string; split; reflexivity|]. split; [left; reflexivity|].
  split; [exists ["data"%string], "output"%string; repeat split; right; reflexivity|]. split; [exact P|].
  split; [|split; [|intros d t n _ _; reflexivity]].
  - split; [repeat constructor; cbn; intuition discriminate|]. intros g t [E|[E|[]]]; injection E as <- _; apply without_compute; reflexivity.
  - split; [repeat constructor; cbn; intuition discriminate|]. intros g t [E|[]]; injection E as <- _; apply without_compute; reflexivity.
Qed.
Example C144_case : let k := fst (run_command C144_disk (C144_run "case")) in
  map (fun name => file_at k ["data"; "output"; name]%string)
    ["case.csv"; "case_intensity.csv"; "case_v3.json"; "case_run_info.json"; "case_intensity.json"; "case.flow-diagram.json"; "case.North.ltp.tsv"; "case.South.ltp.tsv"; "case.North.stp.tsv"; "case.South.stp.tsv"]%string =
  [Some "case"; Some "case"; Some "case"; Some "case"; Some "case"; Some "case"; Some "ltp north"; Some "ltp south"; Some "stp north"; None]%string.
Proof. reflexivity. Qed.
Example C145_case : let k := fst (run_command (fst (run_command C144_disk (C144_run "low"))) (C144_run "high")) in
  map (fun name => file_at k ["data"; "output"; name]%string) ["low.csv"; "high.csv"; "low_intensity.csv"; "high.North.ltp.tsv"]%string = [Some "low"; Some "high"; Some "low"; Some "ltp north"]%string /\
  plain_run (fst (run_command C144_disk (C144_run "low"))) ["data"; "output"]%string "high" (C144_run "high").
Proof.
  cbn zeta. split; [reflexivity|]. split; [reflexivity|]. split; [right; split; [reflexivity|]; exists ["data"%string], "model.yaml"%string; split; reflexivity|]. split; [left; reflexivity|].
  split; [exists ["data"%string], "output"%string; repeat split; left; reflexivity|]. split; [repeat split; try discriminate; apply without_compute; reflexivity|].
  split; [|split; [|intros d t n _ _; reflexivity]].
  - split; [repeat constructor; cbn; intuition discriminate|]. intros g t [E|[E|[]]]; injection E as <- _; apply without_compute; reflexivity.
  - split; [repeat constructor; cbn; intuition discriminate|]. intros g t [E|[]]; injection E as <- _; apply without_compute; reflexivity.
Qed.

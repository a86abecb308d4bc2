(** Properties C133, C134 and C135: the files of a model. *)
From Coq Require Import PeanoNat String Ascii Lia.
From Verif Require Import Base BaseLemmas Input_Model Files_Spec Archive_Model Archive_Spec Archive_Proofs Archive_Proofs2 Archive_Proofs3.
Local Open Scope list_scope.

(** * C133: the path given for a file leads from the directory of the main file to the file. *)
Theorem C133_leads : forall (fs : list valid_file) (main file : valid_file) d x y m f, NoDup (map v_path fs) -> In file fs ->
  parting d x y m f (v_path main) (v_path file) -> proper_path (v_path main) -> proper_path (v_path file) ->
  (d = [] \/ only_at_start d (v_path main) /\ only_at_start d (v_path file)) ->
  exists steps, In (v_path file, written steps) (make_relative_paths fs main) /\ steps = repeat ".."%string (List.length m) ++ y :: f /\ leads (removelast (v_path main)) steps (v_path file).
Proof. exact relative_proof. Qed.
Print Assumptions C133_leads.

Theorem C133_each : forall (fs : list valid_file) (main : valid_file), NoDup (map v_path fs) -> map fst (make_relative_paths fs main) = map v_path fs.
Proof. exact relative_each. Qed.
Print Assumptions C133_each.

Theorem C133_main : forall (fs : list valid_file) (main : valid_file), NoDup (map v_path fs) -> In main fs -> In (v_path main, v_name main) (make_relative_paths fs main).
Proof. exact relative_main. Qed.
Print Assumptions C133_main.

Theorem C133_top : forall (fs : list valid_file) (main file : valid_file) x, NoDup (map v_path fs) -> In file fs -> proper_path (v_path main) -> proper_path (v_path file) -> v_path main = [x] -> ~ In x (firstn 1 (v_path file)) ->
  In (v_path file, written (v_path file)) (make_relative_paths fs main).
Proof. exact relative_top. Qed.
Print Assumptions C133_top.

Theorem C133_distinct : forall (main f1 f2 : valid_file) d1 x1 y1 m1 r1 d2 x2 y2 m2 r2,
  parting d1 x1 y1 m1 r1 (v_path main) (v_path f1) -> parting d2 x2 y2 m2 r2 (v_path main) (v_path f2) ->
  proper_path (v_path main) -> proper_path (v_path f1) -> proper_path (v_path f2) ->
  (d1 = [] \/ only_at_start d1 (v_path main) /\ only_at_start d1 (v_path f1)) -> (d2 = [] \/ only_at_start d2 (v_path main) /\ only_at_start d2 (v_path f2)) ->
  relative_path main f1 = relative_path main f2 -> v_path f1 = v_path f2.
Proof. exact relative_distinct. Qed.
Print Assumptions C133_distinct.

(** The common directory is removed wherever it is written in a path: with a/m.yml, the file a/ba/x.csv is given the path bx.csv. *)
Theorem C133_repeated_directory_refuted : ~ forall d x y m f (main file : valid_file), parting d x y m f (v_path main) (v_path file) -> proper_path (v_path main) -> proper_path (v_path file) ->
  relative_path main file = written (repeat ".."%string (List.length m) ++ y :: f).
Proof. exact repeated_directory_refuted. Qed.
Print Assumptions C133_repeated_directory_refuted.

(** Two files can get the same relative path: with a/m.yml, both a/b/a/x.csv and a/b/x.csv get b/x.csv. *)
Theorem C133_same_path_refuted : ~ forall (main f g : valid_file), proper_path (v_path main) -> proper_path (v_path f) -> proper_path (v_path g) -> relative_path main f = relative_path main g -> v_path f = v_path g.
Proof. exact same_relative_refuted. Qed.
Print Assumptions C133_same_path_refuted.

Example C133_case : exists main file, parting ["model"]%string "runs" "input" ["main.yml"]%string ["data.csv"]%string (v_path main) (v_path file)
  /\ make_relative_paths [main; file] main = [(["model"; "runs"; "main.yml"], "main.yml"); (["model"; "input"; "data.csv"], "../input/data.csv")]%string.
Proof. exists (in_tree ["model"; "runs"; "main.yml"]%string), (in_tree ["model"; "input"; "data.csv"]%string). split; [|vm_compute; reflexivity]. repeat split. discriminate. Qed.
Example C133_start_case : only_at_start ["ab"]%string ["ab"; "c"]%string.
Proof.
  intros before after E. unfold written in E. cbn in E. destruct before as [|c0 [|c1 [|c2 [|c3 b]]]]; [reflexivity| | | |].
  all: exfalso; cbn in E; repeat match type of E with String _ _ = String _ _ => injection E as E; subst; try discriminate end; try discriminate.
  all: try (destruct b; discriminate).
Qed.

(** * C134: files that are put in one place get different names. *)
Theorem C134_each : forall fresh fs, NoDup (map v_path fs) -> map fst (rename_duplicates fresh fs (find_duplicates fs)) = map v_path fs.
Proof. exact names_keys. Qed.
Print Assumptions C134_each.

Theorem C134_kept : forall fresh fs f, NoDup (map v_path fs) -> In f fs -> (forall g, In g fs -> v_name g = v_name f -> v_path g = v_path f) ->
  In (v_path f, v_name f) (rename_duplicates fresh fs (find_duplicates fs)).
Proof. exact names_kept. Qed.
Print Assumptions C134_kept.

Theorem C134_changed : forall fresh fs f g, NoDup (map v_path fs) -> In f fs -> In g fs -> v_name g = v_name f -> v_path g <> v_path f -> proper_path (v_path f) -> (String.length (written (v_path f)) <= 100)%nat ->
  In (v_path f, String.concat "_" (v_path f)) (rename_duplicates fresh fs (find_duplicates fs)).
Proof. exact names_changed. Qed.
Print Assumptions C134_changed.

Theorem C134_distinct : forall fresh fs, NoDup (map v_path fs) ->
  (forall f, In f fs -> proper_path (v_path f) /\ v_name f = last (v_path f) ""%string /\ (String.length (written (v_path f)) <= 100)%nat /\ forall x, In x (v_path f) -> without "_" x) ->
  NoDup (map snd (rename_duplicates fresh fs (find_duplicates fs))).
Proof. exact names_distinct. Qed.
Print Assumptions C134_distinct.

Theorem C134_same_name : forall fresh fs f g df dg n, NoDup (map v_path fs) -> In f fs -> In g fs -> v_name f = n -> v_name g = n -> v_path f = df ++ [n] -> v_path g = dg ++ [n] -> df <> dg ->
  proper_path (v_path f) -> proper_path (v_path g) -> (String.length (written (v_path f)) <= 100)%nat -> (String.length (written (v_path g)) <= 100)%nat ->
  (forall x, In x df -> without "_" x) -> (forall x, In x dg -> without "_" x) ->
  exists a b, In (v_path f, a) (rename_duplicates fresh fs (find_duplicates fs)) /\ In (v_path g, b) (rename_duplicates fresh fs (find_duplicates fs)) /\ a <> b.
Proof. exact names_same. Qed.
Print Assumptions C134_same_name.

Theorem C134_length : forall fresh fs f g, NoDup (map v_path fs) -> In f fs -> In g fs -> v_name g = v_name f -> v_path g <> v_path f -> (forall q, String.length (fresh q) = 6%nat) ->
  exists name, In (v_path f, name) (rename_duplicates fresh fs (find_duplicates fs)) /\ (String.length name <= 100)%nat.
Proof. exact names_length. Qed.
Print Assumptions C134_length.

(** With underscores in names two files can get the same name: a/b.csv, c/b.csv and a_b.csv. *)
Theorem C134_underscores_refuted : ~ forall fresh fs, NoDup (map v_path fs) ->
  (forall f, In f fs -> proper_path (v_path f) /\ v_name f = last (v_path f) ""%string /\ (String.length (written (v_path f)) <= 100)%nat) -> NoDup (map snd (rename_duplicates fresh fs (find_duplicates fs))).
Proof. exact underscores_refuted. Qed.
Print Assumptions C134_underscores_refuted.

Example C134_case : let fs := [in_tree ["a"; "x.csv"]; in_tree ["b"; "x.csv"]; in_tree ["y.csv"]]%string in
  rename_duplicates (fun _ => ""%string) fs (find_duplicates fs) = [(["a"; "x.csv"], "a_x.csv"); (["b"; "x.csv"], "b_x.csv"); (["y.csv"], "y.csv")]%string.
Proof. vm_compute. reflexivity. Qed.

(** * C135: which files are used. *)
Theorem C135_accepted : forall archive on_disk fs, (forall f, In f fs -> ~ zipped f) ->
  ((exists r, validate_filetypes archive on_disk fs = Ok r) <-> forall f, In f fs -> occurs "." (g_name f) -> exists p ext, names_path (g_name f) p /\ extension p ext).
Proof. exact files_accepted. Qed.
Print Assumptions C135_accepted.

Theorem C135_used : forall archive on_disk fs v i, (forall f, In f fs -> ~ zipped f) -> validate_filetypes archive on_disk fs = Ok (v, i) ->
  exists yes no, divided usable fs yes no /\ Forall2 taken yes v /\ Forall2 left_out no i.
Proof. exact files_sorted. Qed.
Print Assumptions C135_used.

Theorem C135_archive : forall archive on_disk f v i, zipped f ->
  (validate_filetypes archive on_disk [f] = Ok (v, i) <->
   exists es seen skipped yes no, archive (g_content f) = Some es /\ divided (looked_at on_disk) es seen skipped /\ divided entry_usable seen yes no /\ Forall2 entry_taken yes v /\ Forall2 entry_left_out no i /\ NoDup (map v_path v)).
Proof. exact zip_files. Qed.
Print Assumptions C135_archive.

Theorem C135_archive_alone : forall archive on_disk fs f, In f fs -> zipped f -> (1 < List.length fs)%nat -> forall r, validate_filetypes archive on_disk fs <> Ok r.
Proof. exact zip_not_alone. Qed.
Print Assumptions C135_archive_alone.

Theorem C135_main_file : forall fs f, get_main_file fs = Ok f <-> exists before after, fs = before ++ f :: after /\ starts f /\ (forall g, In g (before ++ after) -> ~ starts g).
Proof. exact main_proof. Qed.
Print Assumptions C135_main_file.

(** data.CSV given by itself is refused, although it is accepted in an archive. *)
Theorem C135_case_refuted : ~ forall archive on_disk fs v i, validate_filetypes archive on_disk fs = Ok (v, i) -> forall f p, In f fs -> names_path (g_name f) p -> model_file p -> In p (map v_path v).
Proof. exact case_refuted. Qed.
Print Assumptions C135_case_refuted.

(** A file without an extension below a directory with a dot in its name (runs.v2/data) ends in an IndexError, not in the list of invalid files. *)
Theorem C135_dot_refuted : ~ forall archive on_disk fs, (forall f, In f fs -> ~ zipped f) -> exists r, validate_filetypes archive on_disk fs = Ok r.
Proof. exact dot_refuted. Qed.
Print Assumptions C135_dot_refuted.

Example C135_case : validate_filetypes (fun _ => None) (fun _ => false) [mkGiven "main.yml" "FUEL_TYPES:"; mkGiven "notes.txt" ""; mkGiven "d/x.csv" "1"]
  = Ok ([mkValid ["main.yml"] "main.yml" "FUEL_TYPES:"; mkValid ["d"; "x.csv"] "d/x.csv" "1"], [mkInvalid ["notes.txt"] "notes.txt"])%string.
Proof. vm_compute. reflexivity. Qed.
Example C135_archive_case : zipped (mkGiven "model.zip" "") /\ validate_filetypes (fun _ => Some [mkEntry "m/" true ""; mkEntry "m/main.YML" false "INSTALLATIONS:"; mkEntry "__MACOSX/main.yml" false ""; mkEntry "m/read.me" false ""]) (fun _ => false) [mkGiven "model.zip" ""]
  = Ok ([mkValid ["m"; "main.YML"] "main.YML" "INSTALLATIONS:"], [mkInvalid ["m"; "read.me"] "read.me"])%string.
Proof.
  split; [|vm_compute; reflexivity]. exists ["model.zip"]%string. split; [apply names_path_spec; reflexivity|]. apply suffix_ext; [discriminate| |reflexivity]. unfold without. cbn. intuition discriminate.
Qed.
Example C135_main_case : starts (mkValid ["m"; "main.YML"] "main.YML" "INSTALLATIONS:")%string.
Proof. apply starts_spec. vm_compute. reflexivity. Qed.

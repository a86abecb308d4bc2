(** Model of src/libecalc/infrastructure/file_io.py: which of the given files are used, files in archives, paths relative to the
    main file and names for files that are put in one place. *)
From Coq Require Import PeanoNat String Ascii.
From Verif Require Import Base Input_Model.
Local Open Scope list_scope.

(** ** Strings of Python *)
Definition slash : ascii := "/"%char.
Definition dot : ascii := "."%char.
(** str.split with one character: never empty *)
Fixpoint split_at (c : ascii) (s : string) : list string :=
  match s with
  | EmptyString => [EmptyString]
  | String d r =>
      match split_at c r with
      | [] => [EmptyString]
      | part :: parts => if Ascii.eqb d c then EmptyString :: part :: parts else String d part :: parts
      end
  end.
(** str.join *)
Fixpoint join_with (sep : string) (l : list string) : string :=
  match l with
  | [] => EmptyString
  | [x] => x
  | x :: r => (x ++ sep ++ join_with sep r)%string
  end.
(** s.replace(pattern, ""): every occurrence from the left; nothing for an empty pattern.  [skip] is the number of characters
    of an occurrence that are still to be dropped. *)
Fixpoint remove_all (pattern s : string) (skip : nat) : string :=
  match s with
  | EmptyString => EmptyString
  | String c r =>
      match skip with
      | S k => remove_all pattern r k
      | O => match pattern with
             | EmptyString => s
             | String _ p => if String.prefix pattern s then remove_all pattern r (String.length p) else String c (remove_all pattern r 0)
             end
      end
  end.
(** s.replace(c, d) for two characters *)
Fixpoint replace_char (c d : ascii) (s : string) : string :=
  match s with EmptyString => EmptyString | String x r => String (if Ascii.eqb x c then d else x) (replace_char c d r) end.
(** "text in s" *)
Fixpoint contains (text s : string) : bool :=
  (String.prefix text s || match s with EmptyString => false | String _ r => contains text r end)%bool.

(** ** pathlib: a path is the list of its parts.  Simplified: relative paths (those of an archive are). *)
Definition path_of (s : string) : list string :=
  filter (fun p => negb (String.eqb p "" || String.eqb p ".")) (split_at slash s).
Definition path_str (p : list string) : string := match p with [] => "."%string | _ => join_with "/" p end.
Definition path_name (p : list string) : string := last p EmptyString.
(** Path.suffix: from the last dot of the name, unless that is its first or last character *)
Definition suffix_of_name (name : string) : string :=
  match rev (split_at dot name) with
  | ending :: before :: r =>
      let stem := join_with "." (rev (before :: r)) in
      if String.eqb ending "" || String.eqb stem "" then EmptyString else String dot ending
  | _ => EmptyString
  end.
Definition suffix (p : list string) : string := suffix_of_name (path_name p).

(** ** 57-101, EcalcFile *)
(** 63-65, is_csv *)
Definition is_csv (p : list string) : bool := String.eqb (lower (suffix p)) ".csv".
(** 67-74, is_yaml *)
Definition is_yaml (p : list string) : bool := existsb (String.eqb (lower (suffix p))) [".yml"; ".yaml"]%string.
(** 76-83, is_zip: the suffix is looked for IN the text ".zip" *)
Definition is_zip (p : list string) : bool := contains (lower (suffix p)) ".zip".

(** 38-48 and 103-132, the files: a name as given, and what is in it *)
Record given_file : Type := mkGiven { g_name : string; g_content : string }.
Record valid_file : Type := mkValid { v_path : list string; v_name : string; v_content : string }.
Record invalid_file : Type := mkInvalid { i_path : list string; i_name : string }.

(** 138-140, EcalcFiles.allowed_file: suffix.split(".")[1] *)
Definition allowed_file (name : string) : result bool :=
  if contains "." name then
    do ext <- of_option IndexError (nth_error (split_at dot (suffix (path_of name))) 1);
    Ok (existsb (String.eqb ext) ["yaml"; "csv"; "yml"; "zip"]%string)
  else Ok false.

(** ** 328-384, unpack_zip *)
(** an entry of an archive: its name, whether it is a directory, and what is in it *)
Record entry : Type := mkEntry { e_name : string; e_dir : bool; e_content : string }.
(** 34-35, is_ignored_zip_content; [on_disk]: whether there is a directory with this name below the working directory *)
Definition is_ignored (on_disk : list string -> bool) (p : list string) : bool :=
  (on_disk p || existsb (fun k => contains k (path_str p)) [".DS_Store"; "__MACOSX"]%string)%bool.
Fixpoint sort_entries (on_disk : list string -> bool) (es : list entry) : list valid_file * list invalid_file :=
  match es with
  | [] => ([], [])
  | e :: r =>
      let '(valid, invalid) := sort_entries on_disk r in
      let p := path_of (e_name e) in
      if is_ignored on_disk p || e_dir e then (valid, invalid)
      else if is_csv p || is_yaml p then (mkValid p (path_name p) (e_content e) :: valid, invalid)
      else (valid, mkInvalid p (path_name p) :: invalid)
  end.
Fixpoint path_eqb (p q : list string) : bool :=
  match p, q with
  | [], [] => true
  | a :: p, b :: q => String.eqb a b && path_eqb p q
  | _, _ => false
  end.
Fixpoint paths_differ (l : list (list string)) : bool :=
  match l with [] => true | p :: r => negb (existsb (path_eqb p) r) && paths_differ r end.
(** [archive]: how the content of a file is read as a zip archive; EcalcError is ValidationError here *)
Definition unpack_zip (archive : string -> option (list entry)) (on_disk : list string -> bool) (content : string) : result (list valid_file * list invalid_file) :=
  match archive content with
  | None => Err ValidationError
  | Some es =>
      let '(valid, invalid) := sort_entries on_disk es in
      if paths_differ (map v_path valid) then Ok (valid, invalid) else Err ValidationError
  end.

(** ** 170-218, validate_filetypes: one file of the loop, then the loop *)
Definition validate_one (archive : string -> option (list entry)) (on_disk : list string -> bool) (number : nat)
    (acc : list valid_file * list invalid_file) (f : given_file) : result (list valid_file * list invalid_file) :=
  let p := path_of (g_name f) in
  do allowed <- allowed_file (g_name f);
  if allowed then
    if is_zip p then
      if Nat.ltb 1 number then Err ValidationError else unpack_zip archive on_disk (g_content f)
    else if is_csv p || is_yaml p then Ok (fst acc ++ [mkValid p (g_name f) (g_content f)], snd acc)
    else Ok (fst acc, snd acc ++ [mkInvalid p (g_name f)])
  else Ok (fst acc, snd acc ++ [mkInvalid p (g_name f)]).
Fixpoint validate_loop (archive : string -> option (list entry)) (on_disk : list string -> bool) (number : nat)
    (acc : list valid_file * list invalid_file) (fs : list given_file) : result (list valid_file * list invalid_file) :=
  match fs with
  | [] => Ok acc
  | f :: r => do acc' <- validate_one archive on_disk number acc f; validate_loop archive on_disk number acc' r
  end.
Definition validate_filetypes (archive : string -> option (list entry)) (on_disk : list string -> bool) (fs : list given_file) : result (list valid_file * list invalid_file) :=
  validate_loop archive on_disk (List.length fs) ([], []) fs.

(** 115-119, is_main_yaml_file; 142-167, get_main_file *)
Definition is_main (f : valid_file) : bool :=
  existsb (fun k => contains k (v_content f)) ["INSTALLATION"; "TIME_SERIES"; "FACILITY_INPUTS"; "FUEL_TYPES"]%string.
Definition get_main_file (fs : list valid_file) : result valid_file :=
  match filter (fun f => is_yaml (v_path f) && is_main f) fs with
  | [f] => Ok f
  | _ => Err ValidationError
  end.

(** ** Relative paths *)
(** 221-236, find_longest_common_path: the common parts, each with a slash *)
Fixpoint common_path (p q : list string) : string :=
  match p, q with
  | a :: p, b :: q => if String.eqb a b then (a ++ "/" ++ common_path p q)%string else EmptyString
  | _, _ => EmptyString
  end.
(** 239-245, strip_common_path *)
Definition strip_common_path (common path : string) : string := remove_all common path 0.
(** 248-263, make_relative_path: a "../" for each part of the main file but the last *)
Definition make_relative_path (linked main : string) : string :=
  fold_left (fun acc part => if negb (String.eqb part "") && negb (String.eqb part "/") then ("../" ++ acc)%string else acc) (removelast (path_of main)) linked.
(** 302-325, make_relative_paths: the entry of one file.  Files are told apart by their paths here (the code compares all
    their fields). *)
Definition relative_path (main file : valid_file) : string :=
  if path_eqb (v_path file) (v_path main) then v_name main
  else
    let common := common_path (v_path file) (v_path main) in
    make_relative_path (strip_common_path common (path_str (v_path file))) (strip_common_path common (path_str (v_path main))).
Definition make_relative_paths (files : list valid_file) (main : valid_file) : list (list string * string) :=
  fold_left (fun d f => dict_set path_eqb (v_path f) (relative_path main f) d) files [].

(** ** Names *)
(** 266-275, find_duplicates *)
Definition occurrences (name : string) (fs : list valid_file) : nat := List.length (filter (fun f => String.eqb (v_name f) name) fs).
Fixpoint find_duplicates_from (seen : list string) (fs all : list valid_file) : list string :=
  match fs with
  | [] => []
  | f :: r => if existsb (String.eqb (v_name f)) seen then find_duplicates_from seen r all
              else if Nat.ltb 1 (occurrences (v_name f) all) then v_name f :: find_duplicates_from (v_name f :: seen) r all
              else find_duplicates_from (v_name f :: seen) r all
  end.
Definition find_duplicates (fs : list valid_file) : list string := find_duplicates_from [] fs fs.
(** 278-299, rename_duplicates.  [fresh]: the six random characters for a path that is too long *)
Definition renamed (fresh : list string -> string) (p : list string) : string :=
  let name := replace_char slash "_"%char (path_str p) in
  if Nat.ltb 100 (String.length name) then (String.substring (String.length name - 94) 94 name ++ fresh p)%string else name.
Definition rename_duplicates (fresh : list string -> string) (fs : list valid_file) (duplicates : list string) : list (list string * string) :=
  fold_left (fun d f => dict_set path_eqb (v_path f) (if existsb (String.eqb (v_name f)) duplicates then renamed fresh (v_path f) else v_name f) d) fs [].

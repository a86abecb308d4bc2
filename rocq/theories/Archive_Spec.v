(** Vocabulary for the files of a model: paths, extensions, and where a path leads. *)
From Coq Require Import PeanoNat String Ascii.
From Verif Require Import Base Files_Spec Archive_Model.
Local Open Scope list_scope.

Definition without (c : ascii) (s : string) : Prop := ~ In c (list_ascii_of_string s).
(** a name of a file or directory, and a path of such names *)
Definition proper_part (p : string) : Prop := p <> ""%string /\ p <> "."%string /\ p <> ".."%string /\ without "/" p.
Definition proper_path (p : list string) : Prop := p <> [] /\ forall x, In x p -> proper_part x.
(** how a path is written *)
Definition written (p : list string) : string := String.concat "/" p.

(** ** Extensions *)
(** the name of the file ends in a dot and [ext], and there is something before the dot *)
Definition extension (p : list string) (ext : string) : Prop :=
  exists dirs stem, p = dirs ++ [(stem ++ "." ++ ext)%string] /\ stem <> ""%string /\ ext <> ""%string /\ without "." ext.
(** a csv file or a yaml file, but for the case *)
Definition model_file (p : list string) : Prop := exists ext, extension p ext /\ (alike ext "csv" \/ alike ext "yml" \/ alike ext "yaml").
(** [text] is somewhere in [s] *)
Definition occurs (text s : string) : Prop := exists before after, s = (before ++ text ++ after)%string.

(** a list is divided: the elements that satisfy [P], in their order, are [yes], and the others are [no] *)
Inductive divided {A} (P : A -> Prop) : list A -> list A -> list A -> Prop :=
| divided_nil : divided P [] [] []
| divided_yes : forall x l yes no, P x -> divided P l yes no -> divided P (x :: l) (x :: yes) no
| divided_no : forall x l yes no, ~ P x -> divided P l yes no -> divided P (x :: l) yes (x :: no).

(** ** Where a path leads from a directory *)
Inductive leads : list string -> list string -> list string -> Prop :=
| leads_here : forall dir, leads dir [] dir
| leads_up : forall dir x steps target, leads dir steps target -> leads (dir ++ [x]) (".."%string :: steps) target
| leads_down : forall dir x steps target, x <> ".."%string -> leads (dir ++ [x]) steps target -> leads dir (x :: steps) target.
(** the common directory [d] is written in the path [p] at its start only *)
Definition only_at_start (d p : list string) : Prop :=
  forall before after, written p = (before ++ (written d ++ "/") ++ after)%string -> before = ""%string.
(** the paths are those of two files in one directory tree: they part at some directory *)
Definition parting (d : list string) (x y : string) (m f main file : list string) : Prop := main = d ++ x :: m /\ file = d ++ y :: f /\ x <> y.

(** ** Files given by name *)
(** the path that a text names: what is between the slashes, but for nothing and single dots *)
Definition names_path (text : string) (p : list string) : Prop :=
  exists parts skipped, parts <> [] /\ (forall x, In x parts -> without "/" x) /\ text = written parts /\ divided (fun x => x <> ""%string /\ x <> "."%string) parts p skipped.
(** a file given by name that can be used: the extension is exactly one of these *)
Definition usable (f : given_file) : Prop := exists p ext, names_path (g_name f) p /\ extension p ext /\ (ext = "csv" \/ ext = "yml" \/ ext = "yaml")%string.
Definition zipped (f : given_file) : Prop := exists p, names_path (g_name f) p /\ extension p "zip".
Definition taken (f : given_file) (v : valid_file) : Prop := names_path (g_name f) (v_path v) /\ v_name v = g_name f /\ v_content v = g_content f.
Definition left_out (f : given_file) (i : invalid_file) : Prop := names_path (g_name f) (i_path i) /\ i_name i = g_name f.
(** an entry of an archive that is looked at: no directory, and nothing that systems add by themselves *)
Definition looked_at (on_disk : list string -> bool) (e : entry) : Prop :=
  e_dir e = false /\ forall p, names_path (e_name e) p -> on_disk p = false /\ ~ occurs ".DS_Store" (written p) /\ ~ occurs "__MACOSX" (written p).
Definition entry_usable (e : entry) : Prop := exists p, names_path (e_name e) p /\ model_file p.
Definition entry_taken (e : entry) (v : valid_file) : Prop := names_path (e_name e) (v_path v) /\ v_name v = last (v_path v) ""%string /\ v_content v = e_content e.
Definition entry_left_out (e : entry) (i : invalid_file) : Prop := names_path (e_name e) (i_path i) /\ i_name i = last (i_path i) ""%string.
(** the file a model starts from: a yaml file with one of these words in it *)
Definition starts (f : valid_file) : Prop :=
  (exists ext, extension (v_path f) ext /\ (alike ext "yml" \/ alike ext "yaml"))
  /\ (occurs "INSTALLATION" (v_content f) \/ occurs "TIME_SERIES" (v_content f) \/ occurs "FACILITY_INPUTS" (v_content f) \/ occurs "FUEL_TYPES" (v_content f)).

(** Model of several reads of YAML files in one process: the constructor for !include is kept on the loader class
    (presentation/yaml/yaml_models/pyyaml_yaml_model.py:102-112, 150-168, 229-247). *)
From Coq Require Import PeanoNat String.
From Verif Require Import Base Document_Model.
Local Open Scope list_scope.

(** the files below a base_dir, by name *)
Definition directory : Type := string -> option raw.
(** what SafeLineLoader.yaml_constructors has for "!include"; None: nothing yet *)
Definition loader_state : Type := option directory.
(** one call of read_yaml: enable_include, base_dir and the main file.  Simplified: no resources. *)
Record read_call : Type := mkRead { rc_enable : bool; rc_base : option directory; rc_main : raw }.
(** 150-168, YamlReader.__init__: loader.add_constructor changes the class *)
Definition register (s : loader_state) (c : read_call) : loader_state :=
  if rc_enable c then match rc_base c with Some d => Some d | None => s end else s.
(** 125-146, the constructor that is registered; without one the tag is unknown (a YAMLError, here ValidationError) *)
Definition include_with (s : loader_state) (fuel : nat) (name : string) : result node :=
  match s with Some files => include_file files fuel name | None => Err ValidationError end.
(** 229-247 *)
Definition read (fuel : nat) (s : loader_state) (c : read_call) : loader_state * result node :=
  let s := register s c in
  (s, do d <- construct (include_with s fuel) (rc_main c);
      match d with Map m es => Ok (Map m es) | _ => Err ValidationError end).
(** a process: reads one after the other, with what each returned *)
Fixpoint reads (fuel : nat) (s : loader_state) (calls : list read_call) : loader_state * list (result node) :=
  match calls with
  | [] => (s, [])
  | c :: r => let (s1, x) := read fuel s c in let (s2, xs) := reads fuel s1 r in (s2, x :: xs)
  end.
(** the result of the last read of a process that made other reads before *)
Definition after (fuel : nat) (earlier : list read_call) (c : read_call) : result node :=
  snd (read fuel (fst (reads fuel None earlier)) c).

(** Property C143: reads of YAML files in one process. *)
From Coq Require Import PeanoNat String.
From Verif Require Import Base Document_Model Reads_Model Reads_Spec Reads_Proofs.
Local Open Scope list_scope.

(** A read with includes from a directory returns what it returns alone, whatever was read before. *)
Theorem C143_own : forall fuel earlier c d, includes_from c d -> after fuel earlier c = read_yaml d fuel (rc_main c).
Proof. exact own_directory. Qed.
Print Assumptions C143_own.

(** The same for all reads of a process. *)
Theorem C143_all : forall fuel s calls, (forall c, In c calls -> exists d, includes_from c d) ->
  Forall2 (fun c x => forall d, includes_from c d -> x = read_yaml d fuel (rc_main c)) calls (snd (reads fuel s calls)).
Proof. exact own_directories. Qed.
Print Assumptions C143_all.

(** A file without includes is read in the same way by any read, whatever was read before. *)
Theorem C143_no_includes : forall fuel earlier c d, ~ has_include (rc_main c) -> after fuel earlier c = read_yaml d fuel (rc_main c).
Proof. exact no_includes. Qed.
Print Assumptions C143_no_includes.

(** As long as no read had a directory, includes are refused. *)
Theorem C143_refused : forall fuel earlier c, (forall c' d, In c' (earlier ++ [c]) -> ~ includes_from c' d) -> has_include (rc_main c) ->
  exists e, after fuel earlier c = Err e.
Proof. exact no_directory_yet. Qed.
Print Assumptions C143_refused.

(** A read that may not include files uses the directory of an earlier read. *)
Theorem C143_not_allowed_refuted : exists fuel earlier c n, rc_enable c = false /\ rc_base c = None /\ has_include (rc_main c) /\
  after fuel [] c = Err ValidationError /\ after fuel [earlier] c = Ok n.
Proof. exact not_allowed_refuted. Qed.
Print Assumptions C143_not_allowed_refuted.

(** ** A case: two models with files of the same name in different directories *)
Definition C143_marks : marks := mkMarks "model.yaml" (0, 0)%Z (1, 0)%Z.
Definition C143_main : raw := RMap C143_marks [(KText "A", RInclude "part.yaml")].
Definition C143_first : read_call := mkRead true (Some (fun _ => Some (RText "first"))) C143_main.
Definition C143_second : read_call := mkRead true (Some (fun _ => Some (RText "second"))) C143_main.
Example C143_case : snd (reads 1 None [C143_first; C143_second; C143_first]) =
  [Ok (Map C143_marks [(KText "A", Text "first")]); Ok (Map C143_marks [(KText "A", Text "second")]); Ok (Map C143_marks [(KText "A", Text "first")])].
Proof. reflexivity. Qed.
Example C143_case_from : includes_from C143_second (fun _ => Some (RText "second")) /\ has_include (rc_main C143_second).
Proof.
  split; [split; reflexivity|]. apply (include_value _ _ (KText "A") (RInclude "part.yaml")); [left; reflexivity|constructor].
Qed.
Example C143_case_refused : after 1 [mkRead false None C143_main] (mkRead true None C143_main) = Err ValidationError.
Proof. reflexivity. Qed.

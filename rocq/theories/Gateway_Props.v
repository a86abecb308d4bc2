(** Property C152: the one service for NeqSim. *)
From Coq Require Import PeanoNat.
From Verif Require Import Base Gateway_Model Gateway_Spec Gateway_Proofs.
Local Open Scope list_scope.

(** If closing never fails, the only Java process that runs is that of the current service; without one none runs. *)
Theorem C152_single : forall ops, Forall closes_well ops -> running (history ops) = match current (history ops) with Some (Py4J n) => [n] | _ => [] end.
Proof. exact one_process. Qed.
Print Assumptions C152_single.

(** Whatever happened before, failures included, what is kept in a cache belongs to the current service, and its Java process runs. *)
Theorem C152_fresh : forall ops s, In s (cached (history ops)) -> alive (history ops) s.
Proof. exact caches_fresh. Qed.
Print Assumptions C152_fresh.

(** The configuration set last is that of the next service for its whole life; it cannot be set while there is a service. *)
Theorem C152_configured : forall ops c,
  (forall s, current (history ops) = Some s -> configure c (history ops) = (Err OtherError, history ops)) /\
  (current (history ops) = None -> exists n, current (history (ops ++ [Configure c; InitializePy4J true])) = Some (Py4J n) /\
     forall later, exists o, nth_error (objects (history (ops ++ [Configure c; InitializePy4J true] ++ later))) n = Some o /\ o_config o = c).
Proof. exact configuration_used. Qed.
Print Assumptions C152_configured.

(** Leaving the context ends the service, its Java process and the caches, or changes nothing if so configured. *)
Theorem C152_exit : forall ops n o, current (history ops) = Some (Py4J n) -> nth_error (objects (history ops)) n = Some o ->
  (shutdown_on_exit (o_config o) = true -> current (history (ops ++ [Exit (Py4J n) true])) = None /\ ~ In n (running (history (ops ++ [Exit (Py4J n) true]))) /\ cached (history (ops ++ [Exit (Py4J n) true])) = []) /\
  (shutdown_on_exit (o_config o) = false -> history (ops ++ [Exit (Py4J n) true]) = history ops).
Proof. exact exit_effect. Qed.
Print Assumptions C152_exit.

(** While there is a service it is the one in use, starting it again gives it again, and one of the other kind cannot be started. *)
Theorem C152_one_kind : forall ops s, current (history ops) = Some s ->
  fst (use (history ops)) = Ok s /\ match s with
  | Py4J _ => (forall starts, initialize_py4j starts (history ops) = (Ok s, history ops)) /\ initialize_jpype (history ops) = (Err ProgrammingError, history ops)
  | JPype => initialize_jpype (history ops) = (Ok s, history ops) /\ forall starts, initialize_py4j starts (history ops) = (Err ProgrammingError, history ops) end.
Proof. exact one_kind. Qed.
Print Assumptions C152_one_kind.

(** Leaving an inner context ends the service of the outer context too: its next use raises an error. *)
Theorem C152_nested_refuted : exists ops s, current (history ops) = Some s /\ initialize_py4j true (history ops) = (Ok s, history ops) /\
  fst (use (history (ops ++ [InitializePy4J true; Exit s true]))) = Err ProgrammingError.
Proof. exact nested_contexts_refuted. Qed.
Print Assumptions C152_nested_refuted.

(** A Java process that could not be closed runs on beside that of the next service; closing its service again closes the process of the next service instead. *)
Theorem C152_failed_close_refuted : exists ops, running (history ops) = [1; 0]%nat /\ current (history ops) = Some (Py4J 1) /\
  current (history (ops ++ [Shutdown (Py4J 0) true])) = None /\ running (history (ops ++ [Shutdown (Py4J 0) true])) = [0]%nat.
Proof. exact failed_close_refuted. Qed.
Print Assumptions C152_failed_close_refuted.

(** A configuration set on the class that factory() returns is accepted and ignored. *)
Theorem C152_subclass_refuted : exists c, c <> default_config /\ configure_on_subclass c initial = (Ok tt, initial) /\
  objects (history [ConfigureOnSubclass c; InitializePy4J true]) = [mkObject default_config true].
Proof. exact configured_on_subclass_refuted. Qed.
Print Assumptions C152_subclass_refuted.

(** ** Cases *)
Definition C152_ops : list operation := [Configure (mkConfig 4 true); InitializePy4J true; Use; Exit (Py4J 0) true; InitializePy4J false; InitializePy4J true; Use; Use].
Example C152_case_closes : Forall closes_well C152_ops.
Proof. repeat constructor. Qed.
Example C152_case : current (history C152_ops) = Some (Py4J 1) /\ running (history C152_ops) = [1]%nat /\ cached (history C152_ops) = [Py4J 1; Py4J 1] /\
  objects (history C152_ops) = [mkObject (mkConfig 4 true) false; mkObject (mkConfig 4 true) true].
Proof. repeat split. Qed.
Example C152_case_exit : current (history (C152_ops ++ [Exit (Py4J 1) true])) = None /\ running (history (C152_ops ++ [Exit (Py4J 1) true])) = [].
Proof. repeat split. Qed.
Example C152_case_kept : history [Configure (mkConfig 4 false); InitializePy4J true; Use; Exit (Py4J 0) true] = history [Configure (mkConfig 4 false); InitializePy4J true; Use].
Proof. reflexivity. Qed.
Example C152_case_jpype : current (history [InitializeJPype; Use; Exit JPype true]) = Some JPype /\ cached (history [InitializeJPype; Use; Exit JPype true]) = [JPype].
Proof. split; reflexivity. Qed.

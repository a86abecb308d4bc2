(** Model of src/ecalc_neqsim_wrapper/java_service.py: the one service for NeqSim in a Python process, and the Java processes it starts. *)
From Coq Require Import PeanoNat.
From Verif Require Import Base.
Local Open Scope list_scope.

(** 17-49, Py4JConfig, already valid; [memory] stands for maximum_memory *)
Record config : Type := mkConfig { memory : nat; shutdown_on_exit : bool }.
(** 36-37 and 46-49, the default: 2G *)
Definition default_config : config := mkConfig 2 true.
(** A service object: those of NeqsimPy4JService by number; there is only one of NeqsimJPypeService at a time, and its Java machine is
    that of the Python process *)
Inductive service : Type := Py4J (n : nat) | JPype.
(** the attributes _config and _gateway (None or not) of an object of NeqsimPy4JService; its Java process has its number *)
Record object : Type := mkObject { o_config : config; o_gateway : bool }.
(** _neqsim_service, the objects made so far, the Java processes that run, NeqsimService._py4j_config, and what the caches refer to *)
Record state : Type := mkState { current : option service; objects : list object; running : list nat; configured : option config; cached : list service }.
(** 54 and 92, at import *)
Definition initial : state := mkState None [] [] None [].

(** What a user can do.  Starting and closing a Java process may fail. *)
Inductive operation : Type :=
| Configure (c : config)
| ConfigureOnSubclass (c : config)
| ResetConfig
| InitializePy4J (starts : bool)
| InitializeJPype
| Use
| Shutdown (s : service) (closes : bool)
| Exit (s : service) (closes : bool).

(** 296, _gateway = None of object [n] *)
Fixpoint close_object (l : list object) (n : nat) : list object :=
  match l, n with
  | [], _ => []
  | o :: r, O => mkObject (o_config o) false :: r
  | o :: r, S n => o :: close_object r n
  end.
(** 97-123, configure_py4j, called on NeqsimService *)
Definition configure (c : config) (st : state) : result unit * state :=
  match current st with
  | Some _ => (Err OtherError, st)
  | None => (Ok tt, mkState None (objects st) (running st) (Some c) (cached st))
  end.
(** 97-123, configure_py4j, called on a subclass: line 120 sets an attribute of the subclass, which line 239 does not read *)
Definition configure_on_subclass (c : config) (st : state) : result unit * state :=
  match current st with
  | Some _ => (Err OtherError, st)
  | None => (Ok tt, st)
  end.
(** 125-131, reset_py4j_config, called on NeqsimService *)
Definition reset_config (st : state) : result unit * state := (Ok tt, mkState (current st) (objects st) (running st) None (cached st)).
(** 237-263, NeqsimPy4JService.__new__ and initialize *)
Definition initialize_py4j (starts : bool) (st : state) : result service * state :=
  match current st with
  | None =>
      if starts then
        let n := List.length (objects st) in
        let c := match configured st with Some c => c | None => default_config end in
        (Ok (Py4J n), mkState (Some (Py4J n)) (objects st ++ [mkObject c true]) (n :: running st) (configured st) (cached st))
      else (Err OtherError, st)
  | Some (Py4J n) => (Ok (Py4J n), st)
  | Some JPype => (Err ProgrammingError, st)
  end.
(** 186-202, NeqsimJPypeService.initialize *)
Definition initialize_jpype (st : state) : result service * state :=
  match current st with
  | None => (Ok JPype, mkState (Some JPype) (objects st) (running st) (configured st) (cached st))
  | Some JPype => (Ok JPype, st)
  | Some (Py4J _) => (Err ProgrammingError, st)
  end.
(** 137-146, instance; an object of its Java machine is made and kept in a cache *)
Definition use (st : state) : result service * state :=
  match current st with
  | None => (Err ProgrammingError, st)
  | Some s => (Ok s, mkState (current st) (objects st) (running st) (configured st) (cached st ++ [s]))
  end.
(** 226-228 and 277-300, shutdown; a closed gateway is None (296).  If closing fails the process is taken to run on. *)
Definition shutdown (s : service) (closes : bool) (st : state) : result unit * state :=
  match s with
  | JPype => (Ok tt, mkState (current st) (objects st) (running st) (configured st) [])
  | Py4J n =>
      match nth_error (objects st) n with
      | Some (mkObject _ true) =>
          match current st with
          | Some (Py4J m) =>
              if closes then (Ok tt, mkState None (close_object (objects st) m) (remove Nat.eq_dec m (running st)) (configured st) [])
              else (Ok tt, mkState None (objects st) (running st) (configured st) [])
          | _ => (Ok tt, mkState None (objects st) (running st) (configured st) [])
          end
      | _ => (Ok tt, st)
      end
  end.
(** 212-224 and 268-272, __exit__ *)
Definition exit_context (s : service) (closes : bool) (st : state) : result unit * state :=
  match s with
  | JPype => (Ok tt, st)
  | Py4J n => match nth_error (objects st) n with
              | Some o => if shutdown_on_exit (o_config o) then shutdown s closes st else (Ok tt, st)
              | None => (Ok tt, st)
              end
  end.

Definition step (st : state) (op : operation) : state :=
  match op with
  | Configure c => snd (configure c st)
  | ConfigureOnSubclass c => snd (configure_on_subclass c st)
  | ResetConfig => snd (reset_config st)
  | InitializePy4J starts => snd (initialize_py4j starts st)
  | InitializeJPype => snd (initialize_jpype st)
  | Use => snd (use st)
  | Shutdown s closes => snd (shutdown s closes st)
  | Exit s closes => snd (exit_context s closes st)
  end.
(** any history of a process; errors are caught by the user *)
Definition history (ops : list operation) : state := fold_left step ops initial.

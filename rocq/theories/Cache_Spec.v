(** Vocabulary for the property of the cache (C44): everything is read off the calls made and their results. *)
From Coq Require Import ZArith PeanoNat.
From Verif Require Import Base Cache_Model.
Local Open Scope list_scope.
Local Open Scope nat_scope.

Section Spec.
Context {K V : Type}.
Variable eqb : K -> K -> bool.

(** A history: calls and results, the latest first. *)
Notation history := (list (op (K := K) (V := V) * result (output (V := V)))).

(** The value of the last put for [k] since the last clear. *)
Fixpoint last_put (k : K) (h : history) : option V :=
  match h with
  | [] => None
  | (Clear, _) :: _ => None
  | (Put k' v, _) :: h' => if eqb k k' then Some v else last_put k h'
  | _ :: h' => last_put k h'
  end.

(** The key a call used: put, or got with a value. *)
Definition used (e : op (K := K) (V := V) * result (output (V := V))) : option K :=
  match e with
  | (Put k _, _) => Some k
  | (Get k, Ok (OValue (Some _))) => Some k
  | _ => None
  end.
(** Keys used since the last clear, latest first. *)
Fixpoint uses (h : history) : list K :=
  match h with
  | [] => []
  | (Clear, _) :: _ => []
  | e :: h' => match used e with Some k => k :: uses h' | None => uses h' end
  end.
(** Keys used since the last use of [k]. *)
Fixpoint until (k : K) (l : list K) : list K :=
  match l with
  | [] => []
  | x :: l' => if eqb k x then [] else x :: until k l'
  end.
Definition used_since (k : K) (h : history) : list K := until k (uses h).
(** Without repetitions. *)
Fixpoint distinct (l : list K) : list K :=
  match l with
  | [] => []
  | x :: l' => x :: filter (fun y => negb (eqb x y)) (distinct l')
  end.

(** What the cache should hold for [k]: the last value put, unless [size] or more other keys have been used since [k] was. *)
Definition expected (size : nat) (k : K) (h : history) : option V :=
  if Nat.ltb (length (distinct (used_since k h))) size then last_put k h else None.

(** Numbers of gets that found / did not find a value and of puts of a key that was not held, since the last clear. *)
Fixpoint found (h : history) : nat :=
  match h with
  | [] => 0 | (Clear, _) :: _ => 0
  | (Get _, Ok (OValue (Some _))) :: h' => S (found h') | _ :: h' => found h'
  end.
Fixpoint not_found (h : history) : nat :=
  match h with
  | [] => 0 | (Clear, _) :: _ => 0
  | (Get _, Ok (OValue None)) :: h' => S (not_found h') | _ :: h' => not_found h'
  end.
Fixpoint added (size : nat) (h : history) : nat :=
  match h with
  | [] => 0 | (Clear, _) :: _ => 0
  | (Put k _, _) :: h' => (match expected size k h' with None => 1 | Some _ => 0 end) + added size h'
  | _ :: h' => added size h'
  end.

(** The result a call must give after history [h] (with a positive size). *)
Definition right_result (size : nat) (o : op (K := K) (V := V)) (h : history) : output (V := V) :=
  match o with
  | Get k => OValue (expected size k h)
  | Put _ _ | Clear => ONothing
  | Length => OLength (Nat.min size (length (distinct (uses h))))
  | Stats => OStats (found h) (not_found h) (added size h - Nat.min size (length (distinct (uses h))))
               (Nat.min size (length (distinct (uses h)))) (Z.of_nat size)
  end.

(** A chronological list of calls and results is right if every result is the right one for the calls before it. *)
Inductive right_history (size : nat) : history -> list (op (K := K) (V := V) * result (output (V := V))) -> Prop :=
| right_nil : forall h, right_history size h []
| right_cons : forall h o r rest, r = Ok (right_result size o h) -> right_history size ((o, r) :: h) rest ->
    right_history size h ((o, r) :: rest).

(** The calls of thread [i] in a list of calls labelled with threads. *)
Definition of_thread {A} (i : nat) (l : list (nat * A)) : list A :=
  map snd (filter (fun p => Nat.eqb (fst p) i) l).
End Spec.

(** A sequential history [h] (each call labelled with its thread) explains a machine: the results are those of
    calling one after another in that order on a new cache, every thread has seen exactly its own part of it and
    has the rest of its program still to do, and when nobody holds the lock the fields are those of that sequential run. *)
Definition program_left {K V} (t : @thread K V) : list (@op K V) :=
  match running t with Some (o, _) => [o] | None => [] end ++ todo t.
Definition explains {K V} (eqb : K -> K -> bool) (size : Z) (programs : list (list (@op K V)))
    (h : list (nat * (@op K V * result (@output V)))) (m : @machine K V) : Prop :=
  snd (run eqb (map (fun e => fst (snd e)) h) (new_lru size)) = map snd h /\
  (forall e, In e h -> fst e < length programs) /\
  length (threads m) = length programs /\
  (forall i t, nth_error (threads m) i = Some t ->
     results t = of_thread i h /\ nth_error programs i = Some (map fst (results t) ++ program_left t)) /\
  (owner m = None -> shared m = fst (run eqb (map (fun e => fst (snd e)) h) (new_lru size))).

(** A thread has made all its calls. *)
Definition finished {K V} (t : @thread K V) : Prop := todo t = [] /\ running t = None.

(** The size asked for when [name] was created first. *)
From Coq Require Import String.
Fixpoint first_size {K V} (name : string) (ops : list (@service_op K V)) : option Z :=
  match ops with
  | [] => None
  | Create n size :: ops' => if String.eqb n name then Some size else first_size name ops'
  | _ :: ops' => first_size name ops'
  end.
(** The calls that reached cache [name] (clearing it counts as a call of clear; calls before it was created do not reach it). *)
Fixpoint calls_on {K V} (exists_already : bool) (name : string) (ops : list (@service_op K V)) : list (@op K V) :=
  match ops with
  | [] => []
  | Create n _ :: ops' => calls_on (exists_already || String.eqb n name) name ops'
  | ClearAll :: ops' => if exists_already then Clear :: calls_on exists_already name ops' else calls_on exists_already name ops'
  | ClearOne n :: ops' => if exists_already && String.eqb n name then Clear :: calls_on exists_already name ops' else calls_on exists_already name ops'
  | Use n o :: ops' => if exists_already && String.eqb n name then o :: calls_on exists_already name ops' else calls_on exists_already name ops'
  end.

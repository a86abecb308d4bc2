(** Shared vocabulary of the model: Python results/exceptions and list primitives. *)
From Coq Require Export ZArith List Bool Lia Sorted Permutation.
From Coq Require Import PeanoNat.
Export ListNotations.
Open Scope Z_scope.

(** Exceptions are values.  One constructor per exception class the modelled code
    raises (or that Python raises on its behalf). *)
Inductive error : Type :=
| IndexError | KeyError | ValueError | TypeError | ZeroDivisionError | AssertionError
| ProgrammingError | InvalidDateException | UnsortedKeys | InvalidKeys
| ValidationError | NotImplementedErr | DomainError | OtherError.

Inductive result (A : Type) : Type :=
| Ok (a : A)
| Err (e : error).
Arguments Ok {A} a.
Arguments Err {A} e.

Definition bind {A B} (r : result A) (f : A -> result B) : result B :=
  match r with Ok a => f a | Err e => Err e end.
Notation "'do' x <- r ; k" := (bind r (fun x => k)) (at level 200, x binder, r at level 100, k at level 200).

Definition is_ok {A} (r : result A) : bool := match r with Ok _ => true | Err _ => false end.

Fixpoint mapM {A B} (f : A -> result B) (l : list A) : result (list B) :=
  match l with
  | [] => Ok []
  | x :: xs => do y <- f x; do ys <- mapM f xs; Ok (y :: ys)
  end.

Definition of_option {A} (e : error) (o : option A) : result A :=
  match o with Some a => Ok a | None => Err e end.

(** Python [list.index]: index of the first equal element (ValueError otherwise). *)
Fixpoint index_of {A} (eqb : A -> A -> bool) (x : A) (l : list A) : option nat :=
  match l with
  | [] => None
  | y :: ys => if eqb x y then Some 0%nat else option_map S (index_of eqb x ys)
  end.

(** Python slice [l[i:j]] for non-negative indices. *)
Definition slice {A} (i j : nat) (l : list A) : list A := firstn (j - i) (skipn i l).

(** Python slice assignment [l[i:j] = new] for non-negative indices with [i <= j]. *)
Definition splice {A} (i j : nat) (new l : list A) : list A := firstn i l ++ new ++ skipn j l.

Definition last_opt {A} (l : list A) : option A :=
  match l with [] => None | x :: xs => Some (last xs x) end.

(** Python dict as an association list in insertion order: assigning to an existing
    key keeps its position, assigning to a new key appends. *)
Fixpoint dict_set {K V} (eqb : K -> K -> bool) (k : K) (v : V) (d : list (K * V)) : list (K * V) :=
  match d with
  | [] => [(k, v)]
  | (k', v') :: d' => if eqb k k' then (k', v) :: d' else (k', v') :: dict_set eqb k v d'
  end.
Fixpoint dict_get {K V} (eqb : K -> K -> bool) (k : K) (d : list (K * V)) : option V :=
  match d with
  | [] => None
  | (k', v) :: d' => if eqb k k' then Some v else dict_get eqb k d'
  end.

(** zip, truncating as Python's [zip] does. *)
Definition zip {A B} (l : list A) (m : list B) : list (A * B) := combine l m.

Fixpoint map2 {A B C} (f : A -> B -> C) (l : list A) (m : list B) : list C :=
  match l, m with
  | a :: l', b :: m' => f a b :: map2 f l' m'
  | _, _ => []
  end.

(** Python [sorted] (stable insertion sort by a boolean order). *)
Fixpoint insert_sorted {A} (le : A -> A -> bool) (x : A) (l : list A) : list A :=
  match l with
  | [] => [x]
  | y :: ys => if le x y then x :: l else y :: insert_sorted le x ys
  end.
Fixpoint sort {A} (le : A -> A -> bool) (l : list A) : list A :=
  match l with
  | [] => []
  | x :: xs => insert_sorted le x (sort le xs)
  end.

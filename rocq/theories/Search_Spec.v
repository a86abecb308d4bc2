(** Vocabulary for the properties of the search strategies (C31-C33, C55). *)
From Coq Require Import List Bool ZArith.
From Verif Require Import QcTac Search_Model.
Import ListNotations.
Open Scope Qc_scope.

(** A callback that writes down every point at which it was called, in order. *)
Definition recorded {A} (f : Qc -> outcome A) (x : Qc) : M (list Qc) A :=
  fun seen => (f x, seen ++ [x]).

(** What a probe said about a point. *)
Definition accepted (f : Qc -> outcome (bool * bool)) (x : Qc) : Prop :=
  exists higher, f x = Return (higher, true).
Definition rejected (f : Qc -> outcome (bool * bool)) (x : Qc) : Prop :=
  exists higher, f x = Return (higher, false).

(** [x] is the last point in [seen] that was accepted. *)
Definition last_accepted_in (f : Qc -> outcome (bool * bool)) (seen : list Qc) (x : Qc) : Prop :=
  exists before after, seen = before ++ x :: after /\ accepted f x /\ Forall (rejected f) after.

Definition within (b : boundary) (x : Qc) : Prop := b_min b <= x /\ x <= b_max b.

(** How far apart the two ends of the last bracket may be: either narrower than
    the tolerance relative to the larger end (at least 1), or, when the
    iterations ran out, the whole range halved that many times. *)
Definition small_bracket (tolerance : Qc) (iterations : nat) (b : boundary) (lo hi : Qc) : Prop :=
  lo <= hi /\
  (hi - lo < tolerance * Qcmax (Qcmax (Qcabs lo) (Qcabs hi)) 1
   \/ hi - lo = (b_max b - b_min b) / (qz 2) ^ iterations).

(** The same with the stop criterion of maximize_x: relative to the larger end
    without the lower limit 1. *)
Definition small_relative (tolerance : Qc) (iterations : nat) (x_min x_max lo hi : Qc) : Prop :=
  lo <= hi /\
  (hi - lo <= tolerance * Qcmax (Qcabs lo) (Qcabs hi)
   \/ hi - lo = (x_max - x_min) / (qz 2) ^ iterations).

(** A probe over a window [from, to] of feasible points: below it the search is
    told to go up, above it to go down; inside it, it is told to go [up] or
    down, and the point is accepted. *)
Definition window_probe (from to : Qc) (up : bool) (x : Qc) : bool * bool :=
  if Qcltb x from then (true, false)
  else if Qcltb to x then (false, false)
  else (up, true).

(** A predicate that is false below an edge and true from it on / true up to an
    edge and false above it. *)
Definition switches_on (p : Qc -> bool) (edge : Qc) : Prop :=
  forall x, p x = true <-> edge <= x.
Definition switches_off (p : Qc -> bool) (edge : Qc) : Prop :=
  forall x, p x = true <-> x <= edge.

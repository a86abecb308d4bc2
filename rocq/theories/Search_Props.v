(** C31, C32, C33, C55: bisection, edges of predicates, boolean maximisation and tolerant comparison. *)
From Coq Require Import List Bool ZArith Lia.
From Verif Require Import QcTac BaseLemmas Search_Model Search_Spec Search_Proofs Search_Proofs2.
Import ListNotations.
Local Open Scope Qc_scope.

(** C31: a value returned by the search is the last accepted probe, inside the boundary. *)
Theorem C31_returns_last_accepted : forall f tol n b x seen,
  b_min b <= b_max b ->
  search tol n b (recorded f) [] = (Return x, seen) ->
  within b x /\ last_accepted_in f seen x.
Proof. exact search_returns. Qed.
Print Assumptions C31_returns_last_accepted.

(** C31: the search raises only when it accepted no probe, or passes on the error of its last probe. *)
Theorem C31_raises : forall f tol n b e seen,
  b_min b <= b_max b ->
  search tol n b (recorded f) [] = (Raise e, seen) ->
  (e = DidNotConverge /\ Forall (rejected f) seen)
  \/ exists before p, seen = before ++ [p] /\ f p = Raise e.
Proof. exact search_raises. Qed.
Print Assumptions C31_raises.

(** C31: at most the given number of probes, all inside the boundary, at least one. *)
Theorem C31_bounded : forall f tol n b,
  b_min b <= b_max b ->
  let seen := snd (search tol n b (recorded f) []) in
  (length seen <= n)%nat /\ Forall (within b) seen /\ (n <> O -> seen <> []).
Proof. exact search_bounded. Qed.
Print Assumptions C31_bounded.

(** C31: over a window of feasible points, steering up inside it, the result is feasible and close to the upper end of the
    window; when it raises, the window fits in a small bracket. *)
Theorem C31_highest_in_window : forall (St : Type) from to tol n b (s : St),
  b_min b <= b_max b ->
  match search tol n b (pure_call (window_probe from to true)) s with
  | (Return x, s') => s' = s /\ from <= x /\ x <= to /\ within b x /\
      exists y, (to < y \/ y = b_max b) /\ y <= b_max b /\ small_bracket tol n b x y
  | (Raise e, s') => s' = s /\ e = DidNotConverge /\
      exists x y, (x < from \/ x = b_min b) /\ (to < y \/ y = b_max b) /\ within b x /\ within b y
                  /\ small_bracket tol n b x y
  end.
Proof. exact search_highest_in_window. Qed.
Print Assumptions C31_highest_in_window.

(** C31: steering down inside the window the result is close to its lower end. *)
Theorem C31_lowest_in_window : forall (St : Type) from to tol n b (s : St),
  b_min b <= b_max b ->
  match search tol n b (pure_call (window_probe from to false)) s with
  | (Return x, s') => s' = s /\ from <= x /\ x <= to /\ within b x /\
      exists y, (y < from \/ y = b_min b) /\ b_min b <= y /\ small_bracket tol n b y x
  | (Raise e, s') => s' = s /\ e = DidNotConverge /\
      exists x y, (x < from \/ x = b_min b) /\ (to < y \/ y = b_max b) /\ within b x /\ within b y
                  /\ small_bracket tol n b x y
  end.
Proof. exact search_lowest_in_window. Qed.
Print Assumptions C31_lowest_in_window.

Definition C31_b := mk_boundary 0 (qz 16).
Example C31_case : exists x seen,
  search (qc 1 10) 20 C31_b (recorded (fun x => Return (window_probe (qz 5) (qz 9) true x))) [] = (Return x, seen) /\
  x = qz 9 /\ length seen = 5%nat.
Proof. eexists. eexists. split; [vm_compute; reflexivity|]. split; [qc_compute | reflexivity]. Qed.
Example C31_case_lowest : exists x,
  search (qc 1 10) 20 C31_b (pure_call (window_probe (qz 5) (qz 9) false)) tt = (Return x, tt) /\ x = qz 5.
Proof. eexists. split; [vm_compute; reflexivity|]. qc_compute. Qed.
Example C31_case_raises : exists seen,
  search (qc 1 10) 3 C31_b (recorded (fun x => Return (window_probe (qz 1) (qz 1) true x))) [] = (Raise DidNotConverge, seen) /\
  seen = [qz 8; qz 4; qz 2].
Proof.
  eexists. split; [vm_compute; reflexivity|].
  repeat (f_equal; try (apply Qc_is_canon; vm_compute; reflexivity)).
Qed.

(** C32: for a predicate that is false below an edge and true from it on, lowest_true returns None iff the edge is above the
    boundary, the lower end when the predicate holds there, and otherwise a point where it holds, within a small bracket
    of the edge. *)
Theorem C32_lowest_edge : forall (St : Type) (p : Qc -> bool) edge tol n b (s : St),
  b_min b <= b_max b -> switches_on p edge ->
  (b_max b < edge -> lowest_true tol n b (pure_call p) s = (Return None, s)) /\
  (edge <= b_min b -> lowest_true tol n b (pure_call p) s = (Return (Some (b_min b)), s)) /\
  (b_min b < edge -> edge <= b_max b ->
     exists x y, lowest_true tol n b (pure_call p) s = (Return (Some x), s) /\
       p x = true /\ y < edge /\ edge <= x /\ within b x /\ small_bracket tol n b y x).
Proof. exact lowest_true_edge. Qed.
Print Assumptions C32_lowest_edge.

(** C32: the mirror image for highest_true. *)
Theorem C32_highest_edge : forall (St : Type) (p : Qc -> bool) edge tol n b (s : St),
  b_min b <= b_max b -> switches_off p edge ->
  (edge < b_min b -> highest_true tol n b (pure_call p) s = (Return None, s)) /\
  (b_max b <= edge -> highest_true tol n b (pure_call p) s = (Return (Some (b_max b)), s)) /\
  (b_min b <= edge -> edge < b_max b ->
     exists x y, highest_true tol n b (pure_call p) s = (Return (Some x), s) /\
       p x = true /\ x <= edge /\ edge < y /\ within b x /\ small_bracket tol n b x y).
Proof. exact highest_true_edge. Qed.
Print Assumptions C32_highest_edge.

(** C32: for any predicate, monotone or not: the predicate holds at the result and fails nearby on the searched side;
    None means that it fails at both ends. *)
Theorem C32_lowest_any : forall (St : Type) (p : Qc -> bool) tol n b (s : St),
  b_min b <= b_max b ->
  exists r, lowest_true tol n b (pure_call p) s = (Return r, s) /\
  match r with
  | None => p (b_min b) = false /\ p (b_max b) = false
  | Some x => p x = true /\ within b x /\
      (x = b_min b \/ exists y, p y = false /\ within b y /\ small_bracket tol n b y x)
  end.
Proof. exact lowest_true_any. Qed.
Print Assumptions C32_lowest_any.

Theorem C32_highest_any : forall (St : Type) (p : Qc -> bool) tol n b (s : St),
  b_min b <= b_max b ->
  exists r, highest_true tol n b (pure_call p) s = (Return r, s) /\
  match r with
  | None => p (b_min b) = false /\ p (b_max b) = false
  | Some x => p x = true /\ within b x /\
      (x = b_max b \/ exists y, p y = false /\ within b y /\ small_bracket tol n b x y)
  end.
Proof. exact highest_true_any. Qed.
Print Assumptions C32_highest_any.

(** C32 does not reach the tolerance in general: the default search stops after 20 halvings. *)
Theorem C32_tolerance_refuted : exists (p : Qc -> bool) edge b x,
  switches_on p edge /\ within b edge /\
  lowest_true default_tolerance default_iterations b (pure_call p) tt = (Return (Some x), tt) /\
  default_tolerance * Qcmax (Qcabs x) 1 < x - edge.
Proof. exact lowest_true_far_from_edge. Qed.
Print Assumptions C32_tolerance_refuted.

Example C32_case : exists x,
  switches_on (fun x => Qcleb (qz 3) x) (qz 3) /\
  lowest_true (qc 1 10) 20 C31_b (pure_call (fun x => Qcleb (qz 3) x)) tt = (Return (Some x), tt) /\ x = qz 3.
Proof. eexists. split; [intros x; apply Qcleb_le|]. split; [vm_compute; reflexivity|]. qc_compute. Qed.
Example C32_case_highest : exists x,
  switches_off (fun x => Qcleb x (qz 3)) (qz 3) /\
  highest_true (qc 1 10) 20 C31_b (pure_call (fun x => Qcleb x (qz 3))) tt = (Return (Some x), tt) /\ x = qz 3.
Proof. eexists. split; [intros x; apply Qcleb_le|]. split; [vm_compute; reflexivity|]. qc_compute. Qed.

(** C33: for a condition that holds up to a threshold at or above the lower end, the result satisfies the condition and lies
    within a small bracket of the threshold, or of the upper end if that is lower. *)
Theorem C33_threshold : forall (St : Type) (p : Qc -> bool) threshold x_min x_max tol n (s : St),
  x_min <= x_max -> 0 <= tol -> tol < qz 100 ->
  switches_off p threshold -> x_min <= threshold ->
  exists x y, maximize_x x_min x_max (pure_call p) tol n s = (Return x, s) /\
    p x = true /\ x_min <= x /\ x <= threshold /\ x <= x_max /\
    (threshold < y \/ y = x_max) /\ small_relative tol (S n) x_min x_max x y.
Proof. exact maximize_x_threshold. Qed.
Print Assumptions C33_threshold.

(** C33: for any condition the result is the lower end or a point where the condition holds. *)
Theorem C33_any : forall (St : Type) (p : Qc -> bool) x_min x_max tol n (s : St),
  x_min <= x_max -> 0 <= tol -> tol < qz 100 ->
  exists x, maximize_x x_min x_max (pure_call p) tol n s = (Return x, s) /\
    x_min <= x /\ x <= x_max /\ (x = x_min \/ p x = true) /\
    exists y, (y = x_max \/ p y = false) /\ y <= x_max /\ small_relative tol (S n) x_min x_max x y.
Proof. exact maximize_x_any. Qed.
Print Assumptions C33_any.

(** C33: at most one more evaluation than the given number, all inside the range. *)
Theorem C33_bounded : forall f x_min x_max tol n,
  x_min <= x_max ->
  let seen := snd (maximize_x x_min x_max (recorded f) tol n []) in
  (length seen <= S n)%nat /\ Forall (fun x => x_min <= x /\ x <= x_max) seen.
Proof. exact maximize_x_bounded. Qed.
Print Assumptions C33_bounded.

(** C33 fails when the condition does not hold at the lower end: the result then violates the condition. *)
Theorem C33_infeasible_refuted : exists (p : Qc -> bool) (x_min x_max x : Qc),
  x_min < x_max /\
  maximize_x x_min x_max (pure_call p) default_tolerance 50 tt = (Return x, tt) /\ p x = false.
Proof. exact maximize_x_infeasible. Qed.
Print Assumptions C33_infeasible_refuted.

Example C33_case : exists x,
  switches_off (fun x => Qcleb x (qz 3)) (qz 3) /\
  maximize_x 0 (qz 16) (pure_call (fun x => Qcleb x (qz 3))) (qc 1 10) 50 tt = (Return x, tt) /\ x = qz 3.
Proof. eexists. split; [intros x; apply Qcleb_le|]. split; [vm_compute; reflexivity|]. qc_compute. Qed.

(** C55: comparing a target with a number: equal within the tolerance, less or greater outside it. *)
Theorem C55_comparisons : forall c x, 0 <= fc_abs_tol c ->
  let low := fc_value c - fc_abs_tol c in
  let high := fc_value c + fc_abs_tol c in
  (fc_eq c x = true <-> low <= x /\ x <= high) /\
  (fc_ne c x = true <-> x < low \/ high < x) /\
  (fc_lt c x = true <-> high < x) /\ (fc_le c x = true <-> low <= x) /\
  (fc_gt c x = true <-> x < low) /\ (fc_ge c x = true <-> x <= high).
Proof. exact fc_compare_spec. Qed.
Print Assumptions C55_comparisons.

(** C55: exactly one of <, == and > holds. *)
Theorem C55_trichotomy : forall c x, 0 <= fc_abs_tol c ->
  (fc_lt c x = true /\ fc_eq c x = false /\ fc_gt c x = false) \/
  (fc_lt c x = false /\ fc_eq c x = true /\ fc_gt c x = false) \/
  (fc_lt c x = false /\ fc_eq c x = false /\ fc_gt c x = true).
Proof. exact fc_trichotomy. Qed.
Print Assumptions C55_trichotomy.

(** C55: equality within a tolerance is not transitive. *)
Theorem C55_transitive_refuted : exists tol a b x,
  0 < tol /\ fc_eq (mk_constraint a tol) b = true /\ fc_eq (mk_constraint b tol) x = true
  /\ fc_eq (mk_constraint a tol) x = false.
Proof. exact fc_eq_not_transitive. Qed.
Print Assumptions C55_transitive_refuted.

Example C55_case : let c := mk_constraint (qz 50) (qc 1 1000) in
  fc_eq c (qc 500005 10000) = true /\ fc_lt c (qc 50002 1000) = true /\ fc_gt c (qz 49) = true /\ fc_le c (qc 49999 1000) = true.
Proof. repeat split; vm_compute; reflexivity. Qed.

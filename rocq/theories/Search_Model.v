(** Model of the search strategies of the process solver, of the boolean
    maximisation helper and of the tolerant float comparison.
    Python's floats are exact rationals ([Qc]); rounding is not modelled.

    The functions searched over have side effects in the program (they set the
    speed, the recirculation rate or the choke of process units and may raise),
    so the searches are written in a state and exception monad: a computation
    takes the state of the units and returns an outcome and the new state. *)
From Coq Require Import List Bool ZArith Lia.
From Verif Require Import QcTac.
Import ListNotations.
Open Scope Qc_scope.

(** The exceptions that matter to the solvers.
    src/libecalc/process/process_pipeline/process_error.py (whole file),
    src/libecalc/domain/process/compressor/core/exceptions.py
    (CompressorThermodynamicCalculationError) and
    src/libecalc/process/process_solver/search_strategies.py:18-34
    (DidNotConvergeError), src/libecalc/process/fluid_stream/exceptions.py
    (streams, mixing and flash).  Simplified: the data carried by an exception
    (unit id, rates, messages) is dropped; [OtherProcessError] stands for
    every other ProcessError. *)
Inductive exn : Type :=
| StonewallError        (* CompressorStonewallError *)
| SurgeError            (* CompressorSurgeError *)
| InletPressureError    (* InsufficientInletPressureError *)
| ThermodynamicError    (* CompressorThermodynamicCalculationError *)
| LiquidError           (* LiquidAtInletError *)
| OfftakeError          (* OfftakeExceedsInletError *)
| OtherProcessError
| DidNotConverge
| AssertionErr          (* assert statements *)
| ValueErr
| KeyErr
| IndexErr
| ZeroDivisionErr
| NegativeMassRate      (* NegativeMassRateException *)
| CompositionError      (* InvalidFluidCompositionException *)
| EmptyStreamList       (* EmptyStreamListException *)
| ZeroTotalMassRate     (* ZeroTotalMassRateException *)
| IncompatibleEoS       (* IncompatibleEoSModelsException *)
| FlashError            (* FluidFlashCalculationError *)
| ValidationErr         (* EcalcValidationException *)
| AttributeErr          (* AttributeError *)
| RecursionErr.         (* RecursionError *)

Definition exn_eq_dec : forall a b : exn, {a = b} + {a <> b}.
Proof. decide equality. Defined.

(** A Python call either returns or raises. *)
Inductive outcome (A : Type) : Type :=
| Return (a : A)
| Raise (e : exn).
Arguments Return {A} _.
Arguments Raise {A} _.

(** A computation with side effects on a state [St]; the state survives an
    exception, as in Python. *)
Definition M (St A : Type) : Type := St -> outcome A * St.

Definition ret {St A} (a : A) : M St A := fun s => (Return a, s).
Definition raise {St A} (e : exn) : M St A := fun s => (Raise e, s).
Definition bind {St A B} (m : M St A) (k : A -> M St B) : M St B :=
  fun s => match m s with
           | (Return a, s') => k a s'
           | (Raise e, s') => (Raise e, s')
           end.
(** try m except ...: [h e] is [Some handler] when the except clauses name e *)
Definition catch {St A} (m : M St A) (h : exn -> option (M St A)) : M St A :=
  fun s => match m s with
           | (Return a, s') => (Return a, s')
           | (Raise e, s') => match h e with
                              | Some k => k s'
                              | None => (Raise e, s')
                              end
           end.
Notation "'let*' x ':=' m 'in' k" := (bind m (fun x => k))
  (at level 200, x pattern, right associativity).
Notation "m ';;*' k" := (bind m (fun _ => k)) (at level 199, right associativity).

(** A callback without side effects. *)
Definition pure_call {St A B} (f : A -> B) (x : A) : M St B := ret (f x).

(** src/libecalc/process/process_solver/boundary.py:1-7 (Boundary); the order
    of the two values is not checked there either. *)
Record boundary : Type := mk_boundary { b_min : Qc; b_max : Qc }.

(** Relative width of a bracket.
    src/libecalc/process/process_solver/search_strategies.py:71 *)
Definition rel_diff (x0 x1 : Qc) : Qc :=
  (x1 - x0) / Qcmax (Qcmax (Qcabs x0) (Qcabs x1)) 1.

(** The loop of Bisect._bisect; the nat is the number of iterations left, the
    probe returns (higher, accepted).
    src/libecalc/process/process_solver/search_strategies.py:60-73 *)
Fixpoint bisect_loop {St} (probe : Qc -> M St (bool * bool)) (tolerance : Qc)
    (n : nat) (x0 x1 : Qc) (last_accepted : option Qc) : M St (option Qc) :=
  match n with
  | O => ret last_accepted
  | S n' =>
      let x2 := (x0 + x1) / qz 2 in
      let* r := probe x2 in
      let last_accepted := if snd r then Some x2 else last_accepted in
      let x0 := if fst r then x2 else x0 in
      let x1 := if fst r then x1 else x2 in
      if Qcltb (rel_diff x0 x1) tolerance then ret last_accepted
      else bisect_loop probe tolerance n' x0 x1 last_accepted
  end.

(** Bisect._bisect.
    src/libecalc/process/process_solver/search_strategies.py:53-74 *)
Definition bisect {St} (tolerance : Qc) (max_iterations : nat) (b : boundary)
    (probe : Qc -> M St (bool * bool)) : M St (option Qc) :=
  bisect_loop probe tolerance max_iterations (b_min b) (b_max b) None.

(** Bisect.search.
    src/libecalc/process/process_solver/search_strategies.py:76-95 *)
Definition search {St} (tolerance : Qc) (max_iterations : nat) (b : boundary)
    (func : Qc -> M St (bool * bool)) : M St Qc :=
  let* result := bisect tolerance max_iterations b func in
  match result with
  | None => raise DidNotConverge
  | Some x => ret x
  end.

(** Bisect._first_true.
    src/libecalc/process/process_solver/search_strategies.py:105-130 *)
Definition first_true {St} (tolerance : Qc) (max_iterations : nat) (b : boundary)
    (predicate : Qc -> M St bool) (lowest : bool) : M St (option Qc) :=
  let near := if lowest then b_min b else b_max b in
  let far := if lowest then b_max b else b_min b in
  let* near_ok := predicate near in
  if near_ok then ret (Some near)
  else
    let* far_ok := predicate far in
    if negb far_ok then ret None
    else
      let probe x := let* ok := predicate x in ret (negb (Bool.eqb ok lowest), ok) in
      let* result := bisect tolerance max_iterations b probe in
      ret (Some (match result with Some x => x | None => far end)).

(** Bisect.lowest_true, Bisect.highest_true.
    src/libecalc/process/process_solver/search_strategies.py:97-103 *)
Definition lowest_true {St} tolerance max_iterations b (predicate : Qc -> M St bool) :=
  first_true tolerance max_iterations b predicate true.
Definition highest_true {St} tolerance max_iterations b (predicate : Qc -> M St bool) :=
  first_true tolerance max_iterations b predicate false.

(** The defaults of Bisect.
    src/libecalc/process/process_solver/search_strategies.py:11, 44 *)
Definition default_tolerance : Qc := qc 1 100000.
Definition default_iterations : nat := 20.

(** The loop of maximize_x_given_boolean_condition_function.  The loop runs
    while i <= maximum_number_of_iterations starting from i = 0, so [n], the
    number of iterations left, starts at maximum_number_of_iterations + 1.
    The error that is only logged on non-convergence is not modelled.
    src/libecalc/common/numeric_methods.py:205-215 *)
Fixpoint maximize_loop {St} (bool_func : Qc -> M St bool) (tolerance : Qc)
    (n : nat) (rel x0 x1 : Qc) : M St Qc :=
  match n with
  | O => ret x0
  | S n' =>
      if Qcltb tolerance (Qcabs rel) then
        let x2 := (x0 + x1) / qz 2 in
        let* ok := bool_func x2 in
        let x0 := if ok then x2 else x0 in
        let x1 := if ok then x1 else x2 in
        let rel := if Qceqb x0 x1 then 0
                   else Qcabs (x1 - x0) / Qcmax (Qcabs x0) (Qcabs x1) in
        maximize_loop bool_func tolerance n' rel x0 x1
      else ret x0
  end.

(** maximize_x_given_boolean_condition_function.
    src/libecalc/common/numeric_methods.py:186-224 *)
Definition maximize_x {St} (x_min x_max : Qc) (bool_func : Qc -> M St bool)
    (tolerance : Qc) (max_iterations : nat) : M St Qc :=
  maximize_loop bool_func tolerance (S max_iterations) (qz 100) x_min x_max.

(** FloatConstraint: a value with an absolute tolerance.
    src/libecalc/process/process_solver/float_constraint.py:6-9 *)
Record float_constraint : Type := mk_constraint { fc_value : Qc; fc_abs_tol : Qc }.

(** FloatConstraint._is_close with a float; math.isclose with rel_tol = 0 also
    accepts equal values, and raises ValueError for a negative tolerance (not
    modelled, the statements assume a non-negative one).
    src/libecalc/process/process_solver/float_constraint.py:11-17 *)
Definition fc_is_close (c : float_constraint) (x : Qc) : bool :=
  orb (Qceqb (fc_value c) x) (Qcleb (Qcabs (fc_value c - x)) (fc_abs_tol c)).

(** The comparisons [c == x], [c < x], [c <= x], [c > x], [c >= x].
    src/libecalc/process/process_solver/float_constraint.py:19-55 *)
Definition fc_eq (c : float_constraint) (x : Qc) : bool := fc_is_close c x.
Definition fc_ne (c : float_constraint) (x : Qc) : bool := negb (fc_is_close c x).
Definition fc_lt (c : float_constraint) (x : Qc) : bool :=
  andb (negb (fc_is_close c x)) (Qcltb (fc_value c) x).
Definition fc_le (c : float_constraint) (x : Qc) : bool := orb (fc_lt c x) (fc_is_close c x).
Definition fc_gt (c : float_constraint) (x : Qc) : bool :=
  andb (negb (fc_is_close c x)) (Qcltb x (fc_value c)).
Definition fc_ge (c : float_constraint) (x : Qc) : bool := orb (fc_gt c x) (fc_is_close c x).

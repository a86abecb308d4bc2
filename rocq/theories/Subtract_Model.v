(** Model of src/libecalc/common/math/math_utils.py: the difference of two dicts. *)
From Coq Require Import PeanoNat QArith.Qcanon.
From Verif Require Import Base.
Local Open Scope list_scope.

Section Subtract.
  Context {K : Type} (eqb : K -> K -> bool).
  (** the exceptions: IncompatibleDataError and its subclasses *)
  Inductive difference : Type := Difference (d : list (K * Qc)) | Incompatible | DifferentLengths | MissingKey (k : K).

  (** 32-43, the loop *)
  Fixpoint subtract_loop (this that delta : list (K * Qc)) : difference :=
    match this with
    | [] => Difference delta
    | (k, v) :: rest => match dict_get eqb k that with
                        | None => MissingKey k
                        | Some w => subtract_loop rest that (dict_set eqb k (v - w)%Qc delta)
                        end
    end.
  (** 13-43, elementwise_subtraction_by_key; numbers are exact *)
  Definition elementwise_subtraction_by_key (this that : option (list (K * Qc))) : difference :=
    match this, that with
    | Some this, Some that => if negb (Nat.eqb (List.length this) (List.length that)) then DifferentLengths else subtract_loop this that []
    | _, _ => Incompatible
    end.
End Subtract.
Arguments Difference {K}. Arguments Incompatible {K}. Arguments DifferentLengths {K}. Arguments MissingKey {K}.

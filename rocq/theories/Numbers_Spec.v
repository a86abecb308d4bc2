(** What formatting to a precision means, independently of how it is computed. *)
From Coq Require Import String.
From Verif Require Import QcTac Base Num Numbers_Model.
Local Open Scope list_scope.
Local Open Scope Qc_scope.

(** the number of decimals that are kept: [precision] for numbers below one, one less for each further digit before the
    decimal sign, but never fewer than none *)
Definition decimals_kept (x : Qc) (precision n : Z) : Prop :=
  (Qcabs x < 1 /\ n = precision) \/
  exists e, (0 <= e)%Z /\ qz (10 ^ e) <= Qcabs x /\ Qcabs x < qz (10 ^ (e + 1)) /\ n = Z.max 0 (precision - e).

(** decimal digits without superfluous zeros *)
Definition tidy (t : text) : Prop :=
  (0 <= tx_whole t)%Z /\ (forall d, In d (tx_fraction t) -> (0 <= d < 10)%Z) /\
  forall l d, tx_fraction t = l ++ [d] -> d <> 0%Z.

(** the same tree, every float replaced by its rounded value *)
Inductive rounded (precision : Z) : tree -> tree -> Prop :=
| R_model : forall l l', Forall2 (fun a b => fst a = fst b /\ rounded precision (snd a) (snd b)) l l' -> rounded precision (TModel l) (TModel l')
| R_dict : forall l l', Forall2 (fun a b => fst a = fst b /\ rounded precision (snd a) (snd b)) l l' -> rounded precision (TDict l) (TDict l')
| R_list : forall l l', Forall2 (rounded precision) l l' -> rounded precision (TList l) (TList l')
| R_float : forall x s, format_to_precision x precision = Ok s -> rounded precision (TFloat x) (TFloat (float_of_text s))
| R_other : forall n, rounded precision (TOther n) (TOther n).

(** What linear interpolation in a table means, independently of how it is computed. *)
From Coq Require Import String.
From Verif Require Import QcTac Base.
Local Open Scope list_scope.
Local Open Scope Qc_scope.

(** [y] is the value at [x]: the tabulated one, or on the line through the two neighbouring points *)
Definition interpolates (data : list (Qc * Qc)) (x y : Qc) : Prop :=
  In (x, y) data \/
  exists a ya b yb, In (a, ya) data /\ In (b, yb) data /\ a < x /\ x < b /\
    (forall c yc, In (c, yc) data -> c <= a \/ b <= c) /\ y = ya + (yb - ya) * ((x - a) / (b - a)).
(** [x] lies in the range of the table *)
Definition in_range (data : list (Qc * Qc)) (x : Qc) : Prop :=
  (exists a ya, In (a, ya) data /\ a <= x) /\ (exists b yb, In (b, yb) data /\ x <= b).
(** larger abscissas have larger (or equal) values *)
Definition monotone_table (data : list (Qc * Qc)) : Prop :=
  forall a ya b yb, In (a, ya) data -> In (b, yb) data -> a <= b -> ya <= yb.

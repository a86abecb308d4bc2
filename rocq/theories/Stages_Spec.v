(** Vocabulary for the stages of a simplified train. *)
From Coq Require Import Reals List.
From Verif Require Import Base.
Import ListNotations.
Local Open Scope list_scope.
Local Open Scope R_scope.

(** periods of a run: suction and discharge pressures are positive, and there is a period *)
Definition proper_periods (periods : list (R * R)) : Prop := periods <> [] /\ forall p, In p periods -> 0 < fst p /\ 0 < snd p.
(** [n] stages that raise the pressure [r] times at most are enough in every period *)
Definition enough (r : R) (n : nat) (periods : list (R * R)) : Prop := forall p, In p periods -> snd p <= fst p * r ^ n.
(** ... and no smaller number is *)
Definition fewest (r : R) (n : nat) (periods : list (R * R)) : Prop := enough r n periods /\ forall m, enough r m periods -> (n <= m)%nat.
(** the pressures of the stages in a period: the first stage starts at the suction pressure, each other where the one before
    ends, and all raise the pressure equally *)
Inductive chain (ratio : R) : R -> R -> list (R * R) -> Prop :=
| chain_end : forall p, chain ratio p p []
| chain_next : forall inlet outlet last rest, outlet = ratio * inlet -> chain ratio outlet last rest -> chain ratio inlet last ((inlet, outlet) :: rest).

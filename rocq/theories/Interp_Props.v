(** C48: tabulated energy functions. *)
From Coq Require Import PeanoNat String.
From Verif Require Import QcTac Base BaseLemmas Num Interp_Model Interp_Spec Interp_Proofs.
Local Open Scope list_scope.
Local Open Scope Qc_scope.

(** C48: the interpolated function has the tabulated value on the data points and the value on the line between the
    neighbouring points elsewhere; outside the range it has the documented constants. *)
Theorem C48_interpolation : forall xs ys below above f, NoDup xs -> make_interpolator xs ys below above = Ok f ->
  let data := combine xs ys in
  (forall x y, interpolates data x y -> interpolate_1d f (Some x) = Some y) /\
  (forall x, in_range data x -> exists y, interpolates data x y /\ interpolate_1d f (Some x) = Some y) /\
  (forall x, (forall a ya, In (a, ya) data -> x < a) -> interpolate_1d f (Some x) = below) /\
  (forall x, (forall a ya, In (a, ya) data -> a < x) -> interpolate_1d f (Some x) = above) /\
  interpolate_1d f None = None.
Proof. exact interpolation_proof. Qed.
Print Assumptions C48_interpolation.

(** C48: that value lies between the neighbouring values. *)
Theorem C48_between : forall x a ya b yb, a < x -> x < b ->
  let y := ya + (yb - ya) * ((x - a) / (b - a)) in
  Qcmin ya yb <= y /\ y <= Qcmax ya yb.
Proof. exact between_proof. Qed.
Print Assumptions C48_between.

(** C48: the function is monotone when the table is. *)
Theorem C48_monotone : forall xs ys below above f, NoDup xs -> make_interpolator xs ys below above = Ok f ->
  monotone_table (combine xs ys) ->
  forall x x' y y', in_range (combine xs ys) x -> in_range (combine xs ys) x' -> x <= x' ->
    interpolate_1d f (Some x) = Some y -> interpolate_1d f (Some x') = Some y' -> y <= y'.
Proof. exact monotone_proof. Qed.
Print Assumptions C48_monotone.

(** C48: the order of the rows does not matter. *)
Theorem C48_row_order : forall xs ys xs' ys' below above f f', NoDup xs ->
  Permutation (combine xs ys) (combine xs' ys') ->
  make_interpolator xs ys below above = Ok f -> make_interpolator xs' ys' below above = Ok f' ->
  forall x, interpolate_1d f x = interpolate_1d f' x.
Proof. exact row_order_proof. Qed.
Print Assumptions C48_row_order.

(** C48: energy usage and validity of a tabulated consumer: interpolated and valid unless negative inside the table,
    not a number and invalid outside. *)
Theorem C48_tabulated : forall t name values usage valid,
  tabular_evaluate_1d t name values = Ok (usage, valid) ->
  exists xs es, column_of t name xs /\
    column_of t (if existsb (String.eqb "POWER") (tb_headers t) then "POWER" else "FUEL")%string es /\
    List.length xs = List.length es /\
    List.length usage = List.length values /\ List.length valid = List.length values /\
    (NoDup xs -> forall k v, nth_error values k = Some v ->
       (* inside the table: the interpolated value, valid unless negative *)
       (forall x, v = Some x -> in_range (combine xs es) x -> exists u, interpolates (combine xs es) x u /\
          nth_error usage k = Some (Some u) /\ (nth_error valid k = Some true <-> 0 <= u) /\ (nth_error valid k = Some false <-> u < 0)) /\
       (* outside: no value and not valid *)
       (forall x, v = Some x -> ~ in_range (combine xs es) x -> nth_error usage k = Some None /\ nth_error valid k = Some false) /\
       (v = None -> nth_error usage k = Some None /\ nth_error valid k = Some false)).
Proof. exact tabular_proof. Qed.
Print Assumptions C48_tabulated.

Definition some_table := mkTable ["RATE"; "FUEL"]%string [[qz 10; qz 0; qz 20]; [qz 5; qz 1; qz 6]].
Example C48_case : exists usage valid,
  tabular_evaluate_1d some_table "RATE" [Some (qz 10); Some (qz 15); Some (qz 25); None; Some (qz 5)] = Ok (usage, valid) /\
  usage = [Some (qz 5); Some (qc 11 2); None; None; Some (qz 3)] /\ valid = [true; true; false; false; true].
Proof.
  eexists. eexists. split; [vm_compute; reflexivity|]. split; [|reflexivity]. num_compute.
Qed.
Example C48_case_distinct : NoDup [qz 10; qz 0; qz 20] /\
  monotone_table (combine [qz 10; qz 0; qz 20] [qz 5; qz 1; qz 6]).
Proof.
  split.
  - repeat constructor; cbn; intros H; repeat destruct H as [H|H]; try discriminate; auto.
  - intros a ya b yb Ha Hb. cbn in Ha, Hb.
    destruct Ha as [Ha|[Ha|[Ha|[]]]], Hb as [Hb|[Hb|[Hb|[]]]]; injection Ha as <- <-; injection Hb as <- <-; intros L;
      first [discriminate | (exfalso; revert L; vm_compute; intros L; now apply L)].
Qed.

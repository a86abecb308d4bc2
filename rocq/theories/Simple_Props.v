(** Property C45 (comparing two results): theorems. *)
From Coq Require Import String PeanoNat.
From Verif Require Import QcTac Base Num Time_Model Time_Spec Simple_Model Simple_Spec Simple_Proofs5 Simple_Proofs6.
Local Open Scope list_scope.

(** ** C45 Comparing two results

    [order] is the order in which Python iterates over a set of emission names; the theorems hold for every such order. *)

(** Models that cover common time are compared; others are refused. *)
Theorem C45_overlap : forall order, (forall l, Permutation l (order l)) -> forall reference changed s e s' e', proper reference -> proper changed ->
  spans (r_periods reference) s e -> spans (r_periods changed) s' e' ->
  (Z.max s s' < Z.min e e' -> exists c r d errs, delta_profile order reference changed = Ok (c, r, d, errs)) /\
  (Z.min e e' <= Z.max s s' -> delta_profile order reference changed = Err DomainError).
Proof. exact overlap_proof. Qed.
Print Assumptions C45_overlap.
Theorem C45_empty : forall order reference changed, r_periods reference = [] \/ r_periods changed = [] -> delta_profile order reference changed = Err IndexError.
Proof. exact empty_proof. Qed.
Print Assumptions C45_empty.

(** The comparison is made on the common time, split wherever either model splits it. *)
Theorem C45_periods : forall order, (forall l, Permutation l (order l)) -> forall reference changed c r d errs, proper reference -> proper changed ->
  delta_profile order reference changed = Ok (c, r, d, errs) ->
  r_periods c = r_periods d /\ r_periods r = r_periods d /\ common_periods (r_periods reference) (r_periods changed) (r_periods d) /\
  forall z, In z (r_components c) \/ In z (r_components r) \/ In z (r_components d) -> c_periods z = r_periods d.
Proof. exact periods_proof. Qed.
Print Assumptions C45_periods.

(** Every component of either model appears once; those whose units differ are reported as errors instead of compared. *)
Theorem C45_components : forall order, (forall l, Permutation l (order l)) -> forall reference changed c r d errs, proper reference -> proper changed ->
  delta_profile order reference changed = Ok (c, r, d, errs) ->
  map id_of (r_components c) = map id_of (r_components r) /\ NoDup (map id_of (r_components r)) /\
  Sorted (fun a b => id_leb a b = true) (map id_of (r_components r)) /\
  (forall i, In i (map id_of (r_components r)) <-> present changed i \/ present reference i) /\
  NoDup (map id_of (r_components d)) /\
  (forall i, In i (map id_of (r_components d)) <-> (present changed i \/ present reference i) /\ same_units changed reference i) /\
  (forall i, In i errs <-> (present changed i \/ present reference i) /\ ~ same_units changed reference i).
Proof. exact components_proof. Qed.
Print Assumptions C45_components.

(** At every instant of the common time the profiles carry each model's own amount, and the difference is the changed amount
    minus the reference amount. *)
Theorem C45_profiles : forall order, (forall l, Permutation l (order l)) -> forall reference changed c r d errs, proper reference -> proper changed ->
  delta_profile order reference changed = Ok (c, r, d, errs) ->
  forall t, covers (r_periods reference) t -> covers (r_periods changed) t -> forall z q v,
  (In z (r_components c) -> (has_value (r_periods c) z q t v <-> compared changed reference (id_of z) q /\ amount changed (id_of z) q t v)) /\
  (In z (r_components r) -> (has_value (r_periods r) z q t v <-> compared changed reference (id_of z) q /\ amount reference (id_of z) q t v)).
Proof. exact sides_proof. Qed.
Print Assumptions C45_profiles.
Theorem C45_difference : forall order, (forall l, Permutation l (order l)) -> forall reference changed c r d errs, proper reference -> proper changed ->
  delta_profile order reference changed = Ok (c, r, d, errs) ->
  forall t, covers (r_periods reference) t -> covers (r_periods changed) t -> forall z, In z (r_components d) -> forall q w,
  has_value (r_periods d) z q t w <-> compared changed reference (id_of z) q /\
    exists new old, amount changed (id_of z) q t new /\ amount reference (id_of z) q t old /\ w = nsub new old.
Proof. exact difference_proof. Qed.
Print Assumptions C45_difference.

(** An amount is unique, and exists unless the model reports the component without power. *)
Theorem C45_amount : forall r i q t, proper r -> covers (r_periods r) t ->
  (forall v w, amount r i q t v -> amount r i q t w -> v = w) /\
  ((exists v, amount r i q t v) <-> (q = Power -> present r i -> reported r i Power)).
Proof. exact amount_proof. Qed.
Print Assumptions C45_amount.

(** A difference is valid where both models are. *)
Theorem C45_valid : forall order, (forall l, Permutation l (order l)) -> forall reference changed c r d errs, proper reference -> proper changed ->
  delta_profile order reference changed = Ok (c, r, d, errs) ->
  forall t, covers (r_periods reference) t -> covers (r_periods changed) t -> forall z, In z (r_components d) ->
  (value_on (r_periods d) (c_valid z) t 1 <-> valid_in changed (id_of z) t /\ valid_in reference (id_of z) t).
Proof. exact valid_proof. Qed.
Print Assumptions C45_valid.

(** Swapping the models negates every difference. *)
Theorem C45_swap : forall order, (forall l, Permutation l (order l)) -> forall reference changed c r d errs, proper reference -> proper changed ->
  delta_profile order reference changed = Ok (c, r, d, errs) ->
  exists c' r' d' errs', delta_profile order changed reference = Ok (c', r', d', errs') /\ r_periods d' = r_periods d /\
    (forall i, In i errs' <-> In i errs) /\ (forall i, In i (map id_of (r_components d')) <-> In i (map id_of (r_components d))) /\
    forall z z', In z (r_components d) -> In z' (r_components d') -> id_of z' = id_of z -> forall t q w,
      has_value (r_periods d) z q t w -> has_value (r_periods d') z' q t (nneg w).
Proof. exact swap_proof. Qed.
Print Assumptions C45_swap.

(** A model compared with itself: no difference, except that a value that is not a number stays so. *)
Theorem C45_self : forall order, (forall l, Permutation l (order l)) -> forall model, proper model ->
  exists c r d, delta_profile order model model = Ok (c, r, d, []) /\ r_periods d = r_periods model /\
    (forall i, In i (map id_of (r_components d)) <-> present model i) /\
    forall z, In z (r_components d) -> forall t q w, has_value (r_periods d) z q t w -> w = Some 0%Qc \/ (w = None /\ amount model (id_of z) q t None).
Proof. exact self_proof. Qed.
Print Assumptions C45_self.

(** A component with power in only one of the models loses its power in the difference. *)
Theorem C45_power_refuted : exists reference changed i, proper reference /\ proper changed /\ present reference i /\ reported changed i Power /\
  exists c r d errs z, delta_profile (fun l => l) reference changed = Ok (c, r, d, errs) /\ In z (r_components d) /\ id_of z = i /\
    forall t w, ~ has_value (r_periods d) z Power t w.
Proof. exact power_refuted_proof. Qed.
Print Assumptions C45_power_refuted.

(** Components that cover only some of the model's periods, which eCalc's own results do not contain, are moved in time. *)
Theorem C45_partial_periods_refuted : exists model c0 t v, contiguous (r_periods model) /\ In c0 (r_components model) /\ NoDup (map id_of (r_components model)) /\
  (forall p, In p (c_periods c0) -> In p (r_periods model)) /\ proper_component (c_periods c0) c0 /\
  ~ covers (c_periods c0) t /\
  exists c r d errs z, delta_profile (fun l => l) model model = Ok (c, r, d, errs) /\ In z (r_components r) /\ id_of z = id_of c0 /\
    has_value (r_periods r) z Energy t v /\ v <> Some 0%Qc.
Proof. exact partial_periods_refuted_proof. Qed.
Print Assumptions C45_partial_periods_refuted.

(** *** Example: a reference over [0, 10) and [10, 30), a changed model over [5, 20) and [20, 40) *)
Definition em (n : string) (l : list num) : string * emission := (n, mkEmission n l).
Definition ref_model : results := mkResults [mkPeriod 0 10; mkPeriod 10 30]
  [plain "a" [mkPeriod 0 10; mkPeriod 10 30] [Some (qz 5); Some (qz 7)] (Some [Some 1%Qc; Some (qz 2)]) [em "co2" [Some (qz 3); Some (qz 4)]];
   plain "b" [mkPeriod 0 10; mkPeriod 10 30] [Some (qz 1); None] None []].
Definition new_model : results := mkResults [mkPeriod 5 20; mkPeriod 20 40]
  [plain "c" [mkPeriod 5 20; mkPeriod 20 40] [Some (qz 9); Some (qz 9)] None [];
   plain "a" [mkPeriod 5 20; mkPeriod 20 40] [Some (qz 6); Some (qz 6)] (Some [Some 1%Qc; Some (qz 1)]) [em "nox" [Some (qz 1); Some (qz 8)]]].

Example C45_example_proper : proper ref_model /\ proper new_model.
Proof.
  assert (forall b, In b [1; 1] -> b = 0 \/ b = 1) as B by (intros b [<-|[<-|[]]]; auto).
  assert (forall a b, a <> b -> NoDup [a; b : component_id]) as N by (intros a b H; constructor; [intros [E|[]]; now apply H|constructor; [tauto|constructor]]).
  split; (split; [discriminate|]); (split; [cbn; unfold nonempty; cbn; lia|]); (split; [|cbn; apply N; discriminate]);
    intros c [<-|[<-|[]]]; unfold proper_component; cbn; (split; [reflexivity|]); (split; [reflexivity|]); (split; [exact B|]); (split; [reflexivity|]);
    (split; [intros p [= <-]; reflexivity || discriminate|]) ; (split; [repeat constructor; cbn; tauto|]); intros n e H; cbn in H; try tauto;
    destruct H as [H|[]]; injection H as <- <-; auto.
Qed.
Definition num_eqb (a b : num) : bool := match a, b with Some x, Some y => Qceqb x y | None, None => true | _, _ => false end.
Fixpoint nums_eqb (a b : list num) : bool := match a, b with [], [] => true | x :: a', y :: b' => num_eqb x y && nums_eqb a' b' | _, _ => false end.
(** "a" differs by 1, -1, -1; its co2 by -3, -4, -4 and its nox by 1, 1, 8; "b" is absent from the changed model, "c" from the
    reference *)
Example C45_example :
  match delta_profile (fun l => l) ref_model new_model with
  | Ok (_, _, d, []) =>
      periods_eqb (r_periods d) [mkPeriod 5 10; mkPeriod 10 20; mkPeriod 20 30] &&
      match r_components d with
      | [a; b; c] =>
          nums_eqb (c_energy a) [Some (qz 1); Some (qz (-1)); Some (qz (-1))] && nums_eqb (c_energy b) [Some (qz (-1)); None; None] &&
          nums_eqb (c_energy c) [Some (qz 9); Some (qz 9); Some (qz 9)] &&
          match map (fun e => (fst e, em_rate (snd e))) (c_emissions a) with
          | [("co2"%string, x); ("nox"%string, y)] => nums_eqb x [Some (qz (-3)); Some (qz (-4)); Some (qz (-4))] && nums_eqb y [Some (qz 1); Some (qz 1); Some (qz 8)]
          | _ => false
          end
      | _ => false
      end
  | _ => false
  end = true.
Proof. vm_compute. reflexivity. Qed.
Example C45_example_overlap : Z.max 0 5 < Z.min 30 40 /\ spans (r_periods ref_model) 0 30 /\ spans (r_periods new_model) 5 40.
Proof. split; [cbn; lia|]. split; apply spans_last; auto. Qed.

(** Property C154: the difference of two dicts. *)
From Coq Require Import PeanoNat String QArith.Qcanon.
From Verif Require Import QcTac Base Subtract_Model Subtract_Spec Subtract_Proofs.
Local Open Scope list_scope.

(** Dicts with the same keys, in any order, are subtracted key by key. *)
Theorem C154_subtracts : forall K (eqb : K -> K -> bool) this that, (forall a b, eqb a b = true <-> a = b) -> dict this -> dict that -> same_keys this that ->
  exists d, elementwise_subtraction_by_key eqb (Some this) (Some that) = Difference d /\
    forall k, dict_get eqb k d = match dict_get eqb k this, dict_get eqb k that with Some v, Some w => Some (v - w)%Qc | _, _ => None end.
Proof. exact subtracts. Qed.
Print Assumptions C154_subtracts.

(** Only dicts with the same keys are subtracted. *)
Theorem C154_only_same_keys : forall K (eqb : K -> K -> bool) this that d, (forall a b, eqb a b = true <-> a = b) -> dict this -> dict that ->
  elementwise_subtraction_by_key eqb (Some this) (Some that) = Difference d -> same_keys this that.
Proof. exact only_same_keys. Qed.
Print Assumptions C154_only_same_keys.

(** The key that is named as missing is in the first dict and not in the second. *)
Theorem C154_missing : forall K (eqb : K -> K -> bool) this that k, (forall a b, eqb a b = true <-> a = b) ->
  elementwise_subtraction_by_key eqb (Some this) (Some that) = MissingKey k -> In k (map fst this) /\ ~ In k (map fst that).
Proof. exact missing_named. Qed.
Print Assumptions C154_missing.

(** Subtracting the other way round gives the opposite values. *)
Theorem C154_reversed : forall K (eqb : K -> K -> bool) this that d d', (forall a b, eqb a b = true <-> a = b) -> dict this -> dict that ->
  elementwise_subtraction_by_key eqb (Some this) (Some that) = Difference d -> elementwise_subtraction_by_key eqb (Some that) (Some this) = Difference d' ->
  forall k, dict_get eqb k d' = option_map Qcopp (dict_get eqb k d).
Proof. exact reversed. Qed.
Print Assumptions C154_reversed.

(** ** Cases *)
Example C154_case : elementwise_subtraction_by_key Z.eqb (Some [(1, qz 5); (2, qz 7)]%Z) (Some [(2, qz 3); (1, qz 1)]%Z) = Difference [(1, qz 4); (2, qz 4)]%Z /\
  elementwise_subtraction_by_key Z.eqb (Some [(1, qz 5); (2, qz 7)]%Z) (Some [(2, qz 3); (3, qz 1)]%Z) = MissingKey 1%Z /\
  elementwise_subtraction_by_key Z.eqb (Some [(1, qz 5); (2, qz 7)]%Z) (Some [(2, qz 3)]%Z) = DifferentLengths /\
  elementwise_subtraction_by_key Z.eqb None (Some [(2, qz 3)]%Z) = Incompatible.
Proof. repeat split; vm_compute; repeat f_equal; try (apply Qc_is_canon; reflexivity). Qed.
Example C154_case_keys : dict [(1, qz 5); (2, qz 7)]%Z /\ same_keys [(1, qz 5); (2, qz 7)]%Z [(2, qz 3); (1, qz 1)]%Z.
Proof. split; [repeat constructor; cbn; intuition discriminate|]. intros k. cbn. tauto. Qed.

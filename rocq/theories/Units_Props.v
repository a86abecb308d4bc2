(** Property C18: unit conversions.  Model: Units_Model.v.  Meaning of the units: Units_Spec.v. *)
From Verif Require Import QcTac Base BaseLemmas Units_Model Units_Spec Units_Proofs.

(** C18: a registered conversion keeps the physical amount. *)
Theorem C18_conversion_keeps_amount : forall a b f x, unit_to a b = Ok f -> same_amount a x b (f x).
Proof. exact unit_to_same_amount_proof. Qed.
Print Assumptions C18_conversion_keeps_amount.

(** C18: there and back is the identity. *)
Theorem C18_round_trip : forall a b f g x, unit_to a b = Ok f -> unit_to b a = Ok g -> g (f x) = x.
Proof. exact unit_round_trip_proof. Qed.
Print Assumptions C18_round_trip.

(** C18: every conversion can be undone, with the exception of MWd to GWh. *)
Theorem C18_conversion_back : forall a b f, unit_to a b = Ok f ->
  (a = MEGA_WATT_DAYS /\ b = GIGA_WATT_HOURS) \/ exists g, unit_to b a = Ok g.
Proof. exact unit_to_back_proof. Qed.
Print Assumptions C18_conversion_back.

(** C18: going via another unit gives the same as going directly. *)
Theorem C18_path_independent : forall a b c f g h x,
  unit_to a b = Ok f -> unit_to b c = Ok g -> unit_to a c = Ok h -> g (f x) = h x.
Proof. exact unit_path_proof. Qed.
Print Assumptions C18_path_independent.

(** C18: converting to the same unit changes nothing. *)
Theorem C18_same_unit : forall a, unit_to a a = Ok (fun x => x).
Proof. exact unit_to_refl_proof. Qed.
Print Assumptions C18_same_unit.

(** C18: the unit of a rate and of its volume determine each other, and converting a rate uses the same
    factor as converting its volume. *)
Theorem C18_rate_and_volume_units : forall u v, rate_to_volume u = Ok v <-> volume_to_rate v = Ok u.
Proof. exact rate_volume_unit_proof. Qed.
Print Assumptions C18_rate_and_volume_units.
Theorem C18_rate_and_volume_conversion : forall u v u' v' f g x,
  rate_to_volume u = Ok u' -> rate_to_volume v = Ok v' ->
  unit_to u v = Ok f -> unit_to u' v' = Ok g -> f x = g x.
Proof. exact rate_volume_conversion_proof. Qed.
Print Assumptions C18_rate_and_volume_conversion.

Example C18_case :
  exists f g h, unit_to POLYTROPIC_HEAD_METER_LIQUID_COLUMN POLYTROPIC_HEAD_JOULE_PER_KG = Ok f /\
    unit_to POLYTROPIC_HEAD_JOULE_PER_KG POLYTROPIC_HEAD_KILO_JOULE_PER_KG = Ok g /\
    unit_to POLYTROPIC_HEAD_METER_LIQUID_COLUMN POLYTROPIC_HEAD_KILO_JOULE_PER_KG = Ok h /\
    f (qz 1000) = qz 9810 /\ h (qz 1000) = qc 981 100.
Proof. do 3 eexists. do 3 (split; [reflexivity|]). split; qc_compute. Qed.

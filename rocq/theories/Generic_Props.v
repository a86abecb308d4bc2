(** The properties of generic compressor charts (C70) and of units (C71).

    Every theorem is closed by the proof in the [Generic_Proofs] files. *)
From Verif Require Import QcTac Base Chart_Model Chart_Spec Compressor_Model Compressor_Spec Generic_Model Generic_Spec Generic_Proofs
  Generic_Proofs2 Generic_Proofs3 Generic_Proofs4 Generic_Proofs5.
Local Open Scope list_scope.
Local Open Scope Qc_scope.

(** ** C70: generic charts *)
(** the chart of a design point is the unified chart, scaled; it is a chart for which the capacity check means what it says *)
Theorem C70_design : forall rate head e, 0 < rate -> 0 < head -> 0 <= e -> e <= 1 ->
  exists cs, from_design_point rate head e = Ok cs /\ design_chart rate head e cs /\ regular_chart cs.
Proof. exact design_proof. Qed.
Print Assumptions C70_design.
(** the chart made from rates and heads is always found, covers the largest rate and head, and holds every point once the
    pressure can be throttled *)
Theorem C70_holds : forall rates heads e qm hm, List.length rates = List.length heads -> greatest rates qm -> greatest heads hm ->
  0 < qm -> 0 < hm -> 0 <= e -> e <= 1 ->
  exists cs rate head, (forall n, (51 <= n)%nat -> from_values n rates heads e = Ok (Some cs)) /\
    design_chart rate head e cs /\ qm <= rate * largest_unified_rate /\ hm <= head * greatest_unified_head /\
    forall q h, In (q, h) (combine rates heads) -> exists c, evaluate_capacity cs true q h = Ok c /\ ca_exceeds c = false.
Proof. exact holds_proof. Qed.
Print Assumptions C70_holds.
(** without throttling, a chart made from rates and heads need not hold them *)
Theorem C70_input_refuted : exists rates heads e cs q h c, List.length rates = List.length heads /\
  (forall n, from_values n rates heads e = Ok (Some cs)) /\ In (q, h) (combine rates heads) /\
  evaluate_capacity cs false q h = Ok c /\ ca_exceeds c = true.
Proof. exact input_refuted. Qed.
Print Assumptions C70_input_refuted.
Example C70_case : List.length rates_example = List.length heads_example /\ greatest rates_example (qz 65) /\ greatest heads_example (qz 30) /\
  0 < qz 65 /\ 0 < qz 30 /\ 0 <= eff_example /\ eff_example <= 1.
Proof.
  split; [reflexivity|]. destruct example_greatest as [G H]. destruct example_eff as [E F]. split; [exact G|]. split; [exact H|].
  split; [reflexivity|]. split; [reflexivity|]. split; [exact E|exact F].
Qed.

(** ** C71: units of rate and head *)
(** the capacity check answers the same question the same way in other units *)
Theorem C71_capacity : forall a b cs choke q h, 0 < a -> 0 < b ->
  evaluate_capacity (map (curve_in_units a b) cs) choke (a * q) (b * h) =
  match evaluate_capacity cs choke q h with Ok c => Ok (capacity_in_units a b c) | Err e => Err e end.
Proof. exact capacity_units_proof. Qed.
Print Assumptions C71_capacity.
(** a generic chart made from rates and heads in other units is the same chart in other units *)
Theorem C71_generic : forall a b n rates heads e, 0 < a -> 0 < b ->
  from_values n (map (fun q => a * q) rates) (map (fun h => b * h) heads) e =
  match from_values n rates heads e with
  | Ok (Some cs) => Ok (Some (map (curve_in_units a b) cs))
  | Ok None => Ok None
  | Err x => Err x
  end.
Proof. exact generic_units_proof. Qed.
Print Assumptions C71_generic.
Example C71_case : 0 < qz 24 /\ 0 < qc 1 1000 /\ exists c, evaluate_capacity [slow_of 1 1 eff_example; fast_of 1 1 eff_example] true 1 1 = Ok c /\ ca_exceeds c = false.
Proof.
  split; [reflexivity|]. split; [reflexivity|].
  assert (match evaluate_capacity [slow_of 1 1 eff_example; fast_of 1 1 eff_example] true 1 1 with Ok c => negb (ca_exceeds c) | Err _ => false end = true) as E
    by (vm_compute; reflexivity).
  destruct (evaluate_capacity _ _ _ _) as [c|]; [|discriminate]. exists c. split; [reflexivity|]. destruct (ca_exceeds c); [discriminate E|reflexivity].
Qed.

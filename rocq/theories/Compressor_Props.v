(** The properties of compressor charts (C67, C68, C69).

    Every theorem is closed by the proof in the [Compressor_Proofs] files. *)
From Verif Require Import QcTac Base Interp_Spec Chart_Model Chart_Spec Compressor_Model Compressor_Spec Compressor_Proofs Compressor_Proofs2
  Compressor_Proofs3 Compressor_Proofs4 Compressor_Proofs5 Compressor_Proofs6 Compressor_Proofs7 Compressor_Proofs8 Compressor_Proofs9.
Local Open Scope list_scope.
Local Open Scope Qc_scope.

(** ** C67: the point of a compressor chart *)
(** a point is valid exactly when the machine can run at the speed and the rate is within the range there *)
Theorem C67_valid : forall cs speed rate choke asv, proper_chart cs ->
  (forall c p, In c cs -> right_end c p -> EPSILON < p_rate p) -> EPSILON < rate \/ asv = true ->
  exists r, single_point cs speed rate None choke asv = Ok r /\
    (cp_valid r = true <-> exists s lo hi, runs_at cs choke speed s /\ smallest_rate cs s lo /\ largest_rate cs s hi /\
       rate <= hi /\ (asv = true \/ lo <= rate)).
Proof. exact valid_proof. Qed.
Print Assumptions C67_valid.
(** a valid point has the head and the efficiency of the chart *)
Theorem C67_inside : forall cs speed rate choke asv r, proper_chart cs ->
  (forall c p, In c cs -> right_end c p -> EPSILON < p_rate p) -> EPSILON < rate \/ asv = true ->
  single_point cs speed rate None choke asv = Ok r -> cp_valid r = true ->
  exists s lo h e, runs_at cs choke speed s /\ smallest_rate cs s lo /\ cp_head r = Some h /\ cp_eff r = Some e /\
    on_chart p_head cs s (Qcmax lo rate) h /\ on_chart p_eff cs s (Qcmax lo rate) e.
Proof. exact inside_proof. Qed.
Print Assumptions C67_inside.
(** an invalid point has the values of the nearest end of the chart, or none if the speed is out of reach *)
Theorem C67_outside : forall cs speed rate choke asv r, proper_chart cs ->
  (forall c p, In c cs -> right_end c p -> EPSILON < p_rate p) -> EPSILON < rate \/ asv = true ->
  single_point cs speed rate None choke asv = Ok r -> cp_valid r = false ->
  ((forall s, ~ runs_at cs choke speed s) /\ cp_head r = None /\ cp_eff r = None) \/
  (exists s h e, runs_at cs choke speed s /\ cp_head r = Some h /\ cp_eff r = Some e /\
     ((exists hi, largest_rate cs s hi /\ hi < rate /\ across right_end p_head cs s h /\ across right_end p_eff cs s e) \/
      (exists lo, smallest_rate cs s lo /\ rate < lo /\ asv = false /\ across left_end p_head cs s h /\ across left_end p_eff cs s e))).
Proof. exact outside_proof. Qed.
Print Assumptions C67_outside.
(** the flag tells where the point lies *)
Theorem C67_flag : forall cs speed rate choke asv r, proper_chart cs ->
  (forall c p, In c cs -> right_end c p -> EPSILON < p_rate p) -> EPSILON < rate \/ asv = true ->
  single_point cs speed rate None choke asv = Ok r -> flagged EPSILON cs choke speed rate (cp_flag r).
Proof. exact flag_proof. Qed.
Print Assumptions C67_flag.
(** the head of a valid point lies within those of the chart; its efficiency is a fraction *)
Theorem C67_bounds : forall cs speed rate choke asv r h e lo hi, proper_chart cs ->
  (forall c p, In c cs -> right_end c p -> EPSILON < p_rate p) -> EPSILON < rate \/ asv = true ->
  single_point cs speed rate None choke asv = Ok r -> cp_valid r = true -> cp_head r = Some h -> cp_eff r = Some e ->
  (forall c p, In c cs -> In p (cv_points c) -> lo <= p_head p /\ p_head p <= hi) ->
  lo <= h /\ h <= hi /\ 0 <= e /\ e <= 1.
Proof. exact bounds_proof. Qed.
Print Assumptions C67_bounds.
(** the rate of one curve at a head is the one on the curve, and beyond the heads of the curve the rate of the end that is near *)
Theorem C67_rate_of_curve : forall c head, cv_points c <> [] -> Sorted.StronglySorted (fun a b => b < a) (cv_head c) ->
  exists rate, curve_rate_at c head = Ok rate /\ value_at (map (fun p => (p_head p, p_rate p)) (cv_points c)) head rate.
Proof. exact curve_rate_proof. Qed.
Print Assumptions C67_rate_of_curve.
Example C67_case_curve : cv_points slow_example <> [] /\ Sorted.StronglySorted (fun a b => b < a) (cv_head slow_example) /\ curve_rate_at slow_example (qz 75) = Ok (qz 2) /\ curve_rate_at slow_example (qz 200) = Ok (qz 1).
Proof. split; [discriminate|]. split; [repeat constructor|]. split; vm_compute; f_equal; apply Qc_is_canon; reflexivity. Qed.
(** without recirculation, no flow is an internal error *)
Theorem C67_no_flow_refuted : exists cs speed rate, proper_chart cs /\ (forall c p, In c cs -> right_end c p -> EPSILON < p_rate p) /\
  within_speeds cs speed /\ single_point cs speed rate None false false = Err OtherError.
Proof. exact no_flow_refuted. Qed.
Print Assumptions C67_no_flow_refuted.
(** a rate through the compressor beyond the chart is accepted, or an internal error *)
Theorem C67_recirculated_refuted : exists cs speed speed' rate through hi hi',
  proper_chart cs /\ (forall c p, In c cs -> right_end c p -> EPSILON < p_rate p) /\
  rate < hi /\ largest_rate cs speed hi /\ hi < through /\ largest_rate cs speed' hi' /\ hi' < through /\
  (exists r, single_point cs speed rate (Some through) false true = Ok r /\ cp_valid r = true) /\
  single_point cs speed' rate (Some through) false true = Err OtherError.
Proof. exact recirculated_refuted. Qed.
Print Assumptions C67_recirculated_refuted.
Example C67_case : proper_chart chart_example /\ (forall c p, In c chart_example -> right_end c p -> EPSILON < p_rate p) /\
  exists r, single_point chart_example (qz 150) (qz 3) None false false = Ok r /\ cp_valid r = true /\ cp_flag r = InternalPoint.
Proof. split; [apply chart_example_ok|]. split; [apply chart_example_ok|]. destruct point_example as (r & A & B & C & _). exists r. split; [exact A|]. split; [exact B|exact C]. Qed.
Example C67_case_outside : exists r, single_point chart_example (qz 50) (qz 4) None true true = Ok r /\ cp_valid r = false /\
  cp_flag r = BelowMinimumSpeedAboveMaximumFlowRate.
Proof. exact point_example_outside. Qed.

(** ** C68: the capacity of a compressor chart *)
(** recirculation lifts the rate to the flow line, choking lifts the head to the slowest curve, and what then is not under the
    fastest curve exceeds the capacity *)
Theorem C68_capacity : forall cs rate head, regular_chart cs -> exists c m k h e,
  evaluate_capacity cs true rate head = Ok c /\
  flow_line cs head m /\ ca_rate c = Qcmax m rate /\ (ca_recirculates c = true <-> rate < m) /\
  least_head cs (ca_rate c) k /\ ca_head c = Qcmax k head /\ (ca_choked c = true <-> head < k) /\
  greatest_head cs (ca_rate c) h /\ end_of_chart cs e /\
  (ca_exceeds c = false <-> ca_rate c <= e /\ ca_head c <= h).
Proof. exact capacity_proof. Qed.
Print Assumptions C68_capacity.
(** the points of the chart are within the capacity, as they are *)
Theorem C68_accepts : forall cs rate head m k h e, regular_chart cs ->
  flow_line cs head m -> m <= rate -> end_of_chart cs e -> rate <= e ->
  least_head cs rate k -> k <= head -> greatest_head cs rate h -> head <= h ->
  exists c, evaluate_capacity cs true rate head = Ok c /\ ca_exceeds c = false /\ ca_rate c = rate /\ ca_head c = head /\
    ca_recirculates c = false /\ ca_choked c = false.
Proof. exact accepts_proof. Qed.
Print Assumptions C68_accepts.
(** a point that was moved to the flow line is not moved again *)
Theorem C68_settled : forall cs rate head c, regular_chart cs ->
  evaluate_capacity cs true rate head = Ok c -> ca_exceeds c = false -> ca_choked c = false ->
  exists d, evaluate_capacity cs true (ca_rate c) (ca_head c) = Ok d /\ ca_exceeds d = false /\
    ca_rate d = ca_rate c /\ ca_head d = ca_head c /\ ca_recirculates d = false /\ ca_choked d = false.
Proof. exact settled_proof. Qed.
Print Assumptions C68_settled.
(** with crossing curves a point above the chart is accepted *)
Theorem C68_crossing_refuted : exists cs rate head c h, proper_chart cs /\
  (forall c, fastest cs c -> StronglySorted (fun a b => b < a) (cv_head c)) /\
  evaluate_capacity cs true rate head = Ok c /\ ca_exceeds c = false /\ greatest_head cs (ca_rate c) h /\ h < ca_head c.
Proof. exact crossing_refuted. Qed.
Print Assumptions C68_crossing_refuted.
Example C68_case : regular_chart chart_example. Proof. exact example_regular. Qed.
Example C68_case_points :
  map (fun p => match evaluate_capacity chart_example true (fst p) (snd p) with
                | Ok c => Some (this (ca_rate c), this (ca_head c), ca_recirculates c, ca_choked c, ca_exceeds c) | Err _ => None end)
    [(qz 4, qz 110); (qz 1, qz 150); (qz 2, qz 20); (qz 5, qz 160); (qz 7, qz 100)] =
  [Some (this (qz 4), this (qz 110), false, false, false); Some (this (qc 3 2), this (qz 150), true, false, false);
   Some (this (qz 2), this (qz 75), false, true, false); Some (this (qz 5), this (qz 160), false, false, true);
   Some (this (qz 7), this (qz 120), false, true, true)].
Proof. exact capacity_example. Qed.

(** ** C69: the control margin *)
(** the margin cuts the curve off, and changes nothing else *)
Theorem C69_margin : forall c m, proper_curve c -> NoDup (cv_rate c) -> 0 < m -> m < 1 ->
  exists c', adjust_for_control_margin c (Some m) = Ok c' /\ proper_curve c' /\ NoDup (cv_rate c') /\ trimmed m c c'.
Proof. exact margin_proof. Qed.
Print Assumptions C69_margin.
(** no margin changes nothing *)
Theorem C69_no_margin : forall c, adjust_for_control_margin c None = Ok c /\ adjust_for_control_margin c (Some 0) = Ok c.
Proof. exact no_margin_proof. Qed.
Print Assumptions C69_no_margin.
(** the curves of a chart, in order of speed *)
Theorem C69_chart : forall cs m, (forall c, In c cs -> proper_curve c /\ NoDup (cv_rate c)) -> 0 < m -> m < 1 ->
  exists cs' ordered, user_defined_curves cs (Some m) = Ok cs' /\ Permutation cs ordered /\
    StronglySorted Qcle (map cv_speed cs') /\
    Forall2 (fun c c' => proper_curve c' /\ NoDup (cv_rate c') /\ trimmed m c c') ordered cs'.
Proof. exact chart_margin_proof. Qed.
Print Assumptions C69_chart.
(** a margin beyond the range of rates leaves one point that is not on the curve *)
Theorem C69_large_margin_refuted : exists c m c' p q, proper_curve c /\ NoDup (cv_rate c) /\ 1 < m /\
  adjust_for_control_margin c (Some m) = Ok c' /\ cv_points c' = [p] /\ right_end c q /\ p_rate q < p_rate p /\ p_head q < p_head p.
Proof. exact large_margin_refuted. Qed.
Print Assumptions C69_large_margin_refuted.
Example C69_case : proper_curve slow_example /\ NoDup (cv_rate slow_example) /\ exists c', adjust_for_control_margin slow_example (Some (qc 1 2)) = Ok c' /\
  match cv_points c' with [p; q] => Qceqb (p_rate p) (qz 2) && Qceqb (p_head p) (qz 75) && Qceqb (p_rate q) (qz 3) && Qceqb (p_head q) (qz 50) | _ => false end = true.
Proof.
  destruct chart_example_ok as [(_ & P & _) _]. destruct (P slow_example (or_introl eq_refl)) as [A B]. split; auto. split; auto.
  destruct (adjust_for_control_margin slow_example (Some (qc 1 2))) as [c'|] eqn:E; [|vm_compute in E; discriminate].
  exists c'. split; auto. vm_compute in E. injection E as <-. vm_compute. reflexivity.
Qed.

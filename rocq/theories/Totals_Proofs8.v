(** Examples. *)
From Coq Require Import PeanoNat String Permutation.
From Verif Require Import QcTac BaseLemmas Num Time_Model Time_Spec Units_Model Rates_Model Rates_Spec Graph_Model Graph_Spec Totals_Model Totals_Spec Totals_Proofs Base.
Local Open Scope list_scope.
Local Open Scope Qc_scope.

Definition two_days : list period := [mkPeriod 0 86400; mkPeriod 86400 259200].
Definition rate_of (u : unit_) (ty : rate_type) (x y g h : Qc) : rate_series := mkRate two_days [Some x; Some y] u ty [Some g; Some h].
Lemma two_days_contiguous : contiguous two_days. Proof. repeat split; vm_compute; reflexivity. Qed.
Lemma rate_of_ok : forall u ty x y g h, on_periods two_days (rate_of u ty x y g h).
Proof. intros. split; [|reflexivity]. split; [exact two_days_contiguous|]. repeat split; discriminate. Qed.
Definition half := qc 1 2.
(** a turbine-driven consumer, and a generator set with two consumers *)
Definition case_installation : installation :=
  mkInstallation
    [mkFuelComponent (rate_of STANDARD_CUBIC_METER_PER_DAY STREAM_DAY (qz 10) (qz 20) half 1)
       [("co2"%string, rate_of TONS_PER_DAY STREAM_DAY (qz 2) (qz 4) half 1)]
       (Mechanical (Some (rate_of MEGA_WATT STREAM_DAY (qz 3) (qz 6) half 1)));
     mkFuelComponent (rate_of STANDARD_CUBIC_METER_PER_DAY STREAM_DAY (qz 4) (qz 4) 1 1)
       [("co2"%string, rate_of TONS_PER_DAY STREAM_DAY 1 1 1 1); ("ch4"%string, rate_of TONS_PER_DAY STREAM_DAY 0 1 1 1)]
       (Electrical [Some (rate_of MEGA_WATT STREAM_DAY 1 1 1 1); None; Some (rate_of MEGA_WATT STREAM_DAY (qz 2) 0 half 1)])]
    [[("ch4"%string, rate_of TONS_PER_DAY STREAM_DAY 1 1 half half)]]
    (rate_of STANDARD_CUBIC_METER_PER_DAY CALENDAR_DAY (qz 100) (qz 300) 1 1).
Lemma case_ok : installation_ok two_days case_installation.
Proof.
  unfold installation_ok, case_installation, all_emitters, mechanical_powers, electrical_powers. cbn [in_components in_venting in_export fc_fuel fc_emissions fc_power map flat_map app].
  repeat split; repeat constructor; cbn; try discriminate; auto using rate_of_ok, two_days_contiguous.
Qed.
(** powers of opposite sign *)
Definition signed_installation : installation :=
  mkInstallation
    [mkFuelComponent (rate_of STANDARD_CUBIC_METER_PER_DAY STREAM_DAY 1 1 1 1) []
       (Electrical [Some (rate_of MEGA_WATT STREAM_DAY 1 1 half half); Some (rate_of MEGA_WATT STREAM_DAY (- (1)) 1 1 1)])]
    [] (rate_of STANDARD_CUBIC_METER_PER_DAY CALENDAR_DAY 0 0 1 1).
Lemma signed_ok : installation_ok two_days signed_installation.
Proof.
  unfold installation_ok, signed_installation, all_emitters, mechanical_powers, electrical_powers. cbn [in_components in_venting in_export fc_fuel fc_emissions fc_power map flat_map app].
  repeat split; repeat constructor; cbn; try discriminate; auto using rate_of_ok, two_days_contiguous.
Qed.
Lemma negative_power_refuted : exists ps i t r,
  installation_ok ps i /\ map_installation ps i = Ok t /\ t_electrical t = Some r /\ ~ adds_up (map calendar_rates (electrical_powers i)) (calendar_rates r).
Proof.
  destruct (map_installation two_days signed_installation) as [t|e] eqn:E; [|vm_compute in E; discriminate].
  destruct (t_electrical t) as [r|] eqn:R; [|vm_compute in E; injection E as <-; vm_compute in R; discriminate].
  exists two_days, signed_installation, t, r. split; [exact signed_ok|]. split; [exact E|]. split; [exact R|]. intros A. specialize (A 0%nat).
  assert (number_at (calendar_rates r) 0 = 0) as Z.
  { vm_compute in E. injection E as <-. vm_compute in R. injection R as <-. vm_compute. reflexivity. }
  rewrite Z in A. apply (f_equal this) in A. vm_compute in A. discriminate.
Qed.

Definition check (l : list num) (m : list num) : bool := list_eqb num_eqb l m.
Definition case_totals (t : totals) : bool :=
  check (r_values (t_energy t)) [Some (qz 9); Some (qz 24)] && check (s_values (t_energy_cumulative t)) [Some (qz 9); Some (qz 57)] &&
  check (rates_of (t_electrical t)) [Some (qz 3); Some 1] && check (rates_of (t_mechanical t)) [Some (qz 3); Some (qz 6)] &&
  check (rates_of (t_power t)) [Some (qz 6); Some (qz 7)] &&
  check (numbers_of (t_power_cumulative t)) [Some (qz 7 / qz 2 * qc 24 1000); Some (qz 35 / qz 2 * qc 24 1000)] &&
  check (emission_rate "co2" t) [Some (qz 2); Some (qz 5)] && check (emission_rate "ch4" t) [Some half; Some (qc 3 2)] &&
  check (emission_cumulative "ch4" t) [Some half; Some (qc 7 2)].
Lemma case_computes : exists t, map_installation two_days case_installation = Ok t /\ case_totals t = true.
Proof.
  destruct (map_installation two_days case_installation) as [t|e] eqn:E; [|vm_compute in E; discriminate]. exists t. split; [reflexivity|].
  vm_compute in E. injection E as <-. vm_compute. reflexivity.
Qed.

(** Property C66 (what an installation offers for export): theorems. *)
From Coq Require Import String PeanoNat Sorted.
From Verif Require Import QcTac Num Time_Model Time_Spec Units_Model Rates_Model Rates_Spec Numbers_Model Base Export_Model Export_Spec Export_Proofs5 Attributes_Model Attributes_Spec Attributes_Proofs3 Attributes_Proofs6 Attributes_Proofs7 Attributes_Proofs8.
Local Open Scope list_scope.

(** ** C66 What an installation offers for export *)

(** What a query finds in a period is the sum over the components whose labels it wants, of their volume in the period: each
    component counts once, under the categories that are in force when the period starts. *)
Theorem C66_production : forall i u ps,
  (forall x, In x (in_producers i) -> exists c, pr_category x = Some c /\ ordered c /\ on_grid ps c /\ rate_well_formed (pr_production x) /\ r_periods (pr_production x) = ps /\ to_volume_unit (pr_production x) u) ->
  exists l, electricity_production i u = Ok l /\ forall q p, In p ps -> exists x,
    sum_over (fun c => exists m, producer_labels (pr_category c) p m /\ wants q m) (fun c => volume_at (pr_production c) u p) (in_producers i) x /\
    total_in (matches q) p l x.
Proof. exact production_proof. Qed.
Print Assumptions C66_production.
Theorem C66_maximum : forall i u ps,
  (forall x m, In x (in_producers i) -> pr_maximum x = Some m -> exists c f, pr_category x = Some c /\ ordered c /\ on_grid ps c /\ rate_well_formed m /\ r_periods m = ps /\ unit_to (r_unit m) u = Ok f) ->
  exists l, maximum_electricity_production i u = Ok l /\ forall q p, In p ps -> exists x,
    sum_over (fun c => pr_maximum c <> None /\ exists m, producer_labels (pr_category c) p m /\ wants q m)
      (fun c y => forall m, pr_maximum c = Some m -> level_at m u p y) (in_producers i) x /\
    total_in (matches q) p l x.
Proof. exact maximum_proof. Qed.
Print Assumptions C66_maximum.
Theorem C66_storage : forall i u ps,
  (forall x, In x (in_containers i) -> exists c, co_category x = Some c /\ ordered c /\ inside_grid ps c /\ rate_well_formed (co_rates x) /\ r_periods (co_rates x) = ps /\ to_volume_unit (co_rates x) u) ->
  exists l, storage_volumes i u = Ok l /\ forall q p, In p ps -> exists x,
    sum_over (fun c => exists m, storage_labels (co_category c) p m /\ wants q m) (fun c => volume_at (co_rates c) u p) (in_containers i) x /\
    total_in (matches q) p l x.
Proof. exact storage_proof. Qed.
Print Assumptions C66_storage.
Theorem C66_fuel : forall i ps vu,
  (forall x, In x (in_fuel_consumers i) -> exists c, fc_category x = Some c /\ ordered c /\ on_grid ps c /\ fuel_ok (fc_fuel x) /\ fuel_on_grid ps (fc_fuel x) /\
    rate_well_formed (fc_rate x) /\ r_periods (fc_rate x) = ps /\ rate_to_volume (r_unit (fc_rate x)) = Ok vu) ->
  exists l, fuel_consumption i = Ok l /\ forall q p, In p ps -> exists x,
    sum_over (fun c => exists m, fuel_labels c p m /\ wants q m) (fun c => volume_at (fc_rate c) vu p) (in_fuel_consumers i) x /\
    total_in (matches q) p l x.
Proof. exact fuel_proof. Qed.
Print Assumptions C66_fuel.
Theorem C66_power : forall i u ps,
  (forall x, In x (in_power_consumers i) -> exists c, pc_category x = Some c /\ ordered c /\ on_grid ps c /\
    (forall pr, pc_producer x = Some pr -> exists r, pr = Some r /\ ordered r /\ on_grid ps r) /\
    rate_well_formed (pc_rate x) /\ r_periods (pc_rate x) = ps /\ to_volume_unit (pc_rate x) u) ->
  exists l, power_consumption i u = Ok l /\ forall q p, In p ps -> exists x,
    sum_over (fun c => exists m, power_labels c p m /\ wants q m) (fun c => volume_at (pc_rate c) u p) (in_power_consumers i) x /\
    total_in (matches q) p l x.
Proof. exact power_proof. Qed.
Print Assumptions C66_power.
Theorem C66_emissions : forall i u ps,
  (forall x, In x (in_emitters i) -> (exists c, em_category x = Some c /\ ordered c /\ on_grid ps c) /\ (forall fuel, em_fuel x = Some fuel -> fuel_ok fuel /\ fuel_on_grid ps fuel) /\
    forall ne, In ne (em_emissions x) -> rate_well_formed (snd ne) /\ r_periods (snd ne) = ps /\ to_volume_unit (snd ne) u) ->
  exists l, emissions i u = Ok l /\ forall q p, In p ps -> exists x,
    sum_over (fun _ => True) (fun c => sum_over (fun ne => exists m, emission_labels c p (fst ne) m /\ wants q m) (fun ne => volume_at (snd ne) u p) (em_emissions c)) (in_emitters i) x /\
    total_in (matches q) p l x.
Proof. exact emission_proof. Qed.
Print Assumptions C66_emissions.

(** The same for the rows of an exported column. *)
Theorem C66_fuel_rows : forall i e ps vu u q,
  (forall x, In x (in_fuel_consumers i) -> exists c, fc_category x = Some c /\ ordered c /\ on_grid ps c /\ fuel_ok (fc_fuel x) /\ fuel_on_grid ps (fc_fuel x) /\
    rate_well_formed (fc_rate x) /\ r_periods (fc_rate x) = ps /\ rate_to_volume (r_unit (fc_rate x)) = Ok vu) ->
  (forall x, In x (in_fuel_consumers i) -> finite_rates (fc_rate x)) -> in_periods i = ps -> contiguous ps ->
  exportable_of i = Ok e -> right_installation q e -> q_kind q = Fuel ->
  exists sums, Forall2 (fun p x => sum_over (fun c => exists m, fuel_labels c p m /\ wants q m) (fun c => volume_at (fc_rate c) vu p) (in_fuel_consumers i) x) ps sums /\
    run_query q e u FreqNone = Ok (Some (combine ps (map Some sums))).
Proof. exact fuel_rows_proof. Qed.
Print Assumptions C66_fuel_rows.

(** A single component without a category makes the whole export fail, and so does an installation with several categories. *)
Theorem C66_required : forall i u,
  ((exists x, In x (in_producers i) /\ pr_category x = None) -> forall l, electricity_production i u <> Ok l) /\
  ((exists x, In x (in_containers i) /\ co_category x = None) -> forall l, storage_volumes i u <> Ok l) /\
  ((exists x, In x (in_fuel_consumers i) /\ fc_category x = None) -> forall l, fuel_consumption i <> Ok l) /\
  ((exists x, In x (in_power_consumers i) /\ (pc_category x = None \/ pc_producer x = Some None)) -> forall l, power_consumption i u <> Ok l) /\
  ((exists x, In x (in_emitters i) /\ em_category x = None) -> forall l, emissions i u <> Ok l).
Proof. exact required_proof. Qed.
Print Assumptions C66_required.
Theorem C66_one_category : forall i, (exists e, exportable_of i = Ok e) <-> in_category i = None \/ exists p c, in_category i = Some [(p, c)].
Proof. exact one_category_proof. Qed.
Print Assumptions C66_one_category.

(** A fuel whose category changes while another fuel is used makes the export fail, although its category is known in every period. *)
Theorem C66_fuel_change_refuted : exists i x, in_fuel_consumers i = [x] /\ rate_well_formed (fc_rate x) /\ finite_rates (fc_rate x) /\ r_periods (fc_rate x) = in_periods i /\
  (forall p, In p (in_periods i) -> exists f k, fuel_category_at (fc_fuel x) p (Some f) /\ fuel_labels x p (mkMeta (Some f) (Some k) None None)) /\
  fuel_consumption i = Err AssertionError.
Proof. exact fuel_change_refuted_proof. Qed.
Print Assumptions C66_fuel_change_refuted.

(** *** Example: a turbine that changes fuel and category, a boiler, a generator set with a consumer, storage *)
Definition h1 : period := mkPeriod (day 2020 1 1) (day 2020 7 1).
Definition h2 : period := mkPeriod (day 2020 7 1) (day 2021 1 1).
Definition always (c : string) : option categories := Some [(year2020, c)].
Definition example_fuel : list (period * option categories) := [(h1, always "FUEL-GAS"); (h2, always "DIESEL")].
Definition example : installation :=
  mkInstallation "A" (always "FIXED") half_years
    [mkProducer (always "GAS-TURBINE") (flat (qz 2) MEGA_WATT) (Some (flat (qz 20) MEGA_WATT))]
    [mkContainer (Some [(h1, "STORAGE"); (h2, "LOADING")]%string) (flat (qz 3) STANDARD_CUBIC_METER_PER_DAY)]
    [mkFuelConsumer (Some [(h1, "TURBINE-GENERATOR"); (h2, "BOILER")]%string) example_fuel (flat (qz 10) STANDARD_CUBIC_METER_PER_DAY);
     mkFuelConsumer (always "BOILER") [(year2020, always "FUEL-GAS")] (flat (qz 7) STANDARD_CUBIC_METER_PER_DAY)]
    [mkPowerConsumer (always "BASE-LOAD") (Some (always "GAS-TURBINE")) (flat (qz 2) MEGA_WATT)]
    [mkEmitter (always "BOILER") (Some [(year2020, always "FUEL-GAS")]) [("co2"%string, flat (qz 5) TONS_PER_DAY); ("nox"%string, flat (qz 1) TONS_PER_DAY)];
     mkEmitter (always "COLD-VENTING-FUGITIVE") None [("co2"%string, flat (qz 4) TONS_PER_DAY)]].
Ltac dates := first [left; exists h1; split; [now left|]; first [left; reflexivity|right; reflexivity] | left; exists h2; split; [now right; left|]; first [left; reflexivity|right; reflexivity]].
Lemma year_ordered : forall M (c : M), ordered [(year2020, c)].
Proof. intros M c. split; repeat constructor. Qed.
Lemma year_grid : forall M (c : M), on_grid half_years [(year2020, c)].
Proof. intros M c e [<-|[]]. split; dates. Qed.
Lemma halves_ordered : forall M (c d : M), ordered [(h1, c); (h2, d)].
Proof. intros M c d. split; repeat constructor. cbn. lia. Qed.
Lemma halves_grid : forall M (c d : M), on_grid half_years [(h1, c); (h2, d)].
Proof. intros M c d e [<-|[<-|[]]]; split; dates. Qed.
Lemma flat_ok : forall x u, rate_well_formed (flat x u).
Proof. intros x u. split; [|split; [discriminate|split; reflexivity]]. vm_compute. repeat split. Qed.
Lemma flat_finite : forall x u, finite_rates (flat x u).
Proof. intros x u r [<-|[<-|[]]]; eexists; reflexivity. Qed.
Lemma fuel_example_ok : forall x, In x (in_fuel_consumers example) -> exists c, fc_category x = Some c /\ ordered c /\ on_grid half_years c /\ fuel_ok (fc_fuel x) /\ fuel_on_grid half_years (fc_fuel x) /\
    rate_well_formed (fc_rate x) /\ r_periods (fc_rate x) = half_years /\ rate_to_volume (r_unit (fc_rate x)) = Ok STANDARD_CUBIC_METER.
Proof.
  intros x [<-|[<-|[]]]; eexists; (split; [reflexivity|]).
  - split; [apply halves_ordered|]. split; [apply halves_grid|]. split; [|split; [|split; [apply flat_ok|split; reflexivity]]].
    + split; [apply halves_ordered|]. intros e c [<-|[<-|[]]] E; injection E as <-; (split; [apply year_ordered|]); intros pc [<-|[]]; [exists (day 2020 1 1)|exists (day 2020 7 1)]; vm_compute; repeat split; congruence.
    + split; [apply halves_grid|]. intros e c [<-|[<-|[]]] E; injection E as <-; apply year_grid.
  - split; [apply year_ordered|]. split; [apply year_grid|]. split; [|split; [|split; [apply flat_ok|split; reflexivity]]].
    + split; [apply year_ordered|]. intros e c [<-|[]] E; injection E as <-. split; [apply year_ordered|]. intros pc [<-|[]]. exists (day 2020 1 1). vm_compute. repeat split; congruence.
    + split; [apply year_grid|]. intros e c [<-|[]] E; injection E as <-. apply year_grid.
Qed.
Definition boilers : query := mkQuery Fuel (Some "FIXED"%string) (Some ["BOILER"%string]) None None None.
Definition of_installation (i : installation) : exportable := match exportable_of i with Ok e => e | Err _ => mkExportable "" None [] (Ok []) (fun _ => Ok []) (fun _ => Ok []) (fun _ => Ok []) (fun _ => Ok []) (fun _ => Ok []) end.
Example C66_fuel_ex : exists sums, exportable_of example = Ok (of_installation example) /\
  Forall2 (fun p x => sum_over (fun c => exists m, fuel_labels c p m /\ wants boilers m) (fun c => volume_at (fc_rate c) STANDARD_CUBIC_METER p) (in_fuel_consumers example) x) half_years sums /\
  run_query boilers (of_installation example) STANDARD_CUBIC_METER FreqNone = Ok (Some (combine half_years (map Some sums))).
Proof.
  destruct (C66_fuel_rows example (of_installation example) half_years STANDARD_CUBIC_METER STANDARD_CUBIC_METER boilers fuel_example_ok) as (sums & F & Q).
  - intros x [<-|[<-|[]]]; apply flat_finite.
  - reflexivity.
  - vm_compute. repeat split.
  - reflexivity.
  - intros c E. exact E.
  - reflexivity.
  - exists sums. split; [reflexivity|]. split; [exact F|exact Q].
Qed.
(** the boiler counts in both half years, the turbine as a boiler in the second: 182 days of 7, then 184 days of 17 *)
Example C66_fuel_values : match run_query boilers (of_installation example) STANDARD_CUBIC_METER FreqNone with
  | Ok (Some [(p, Some x); (q, Some y)]) => period_eqb p h1 && period_eqb q h2 && Qceqb x (qz 1274) && Qceqb y (qz 3128) | _ => false end = true.
Proof. vm_compute. reflexivity. Qed.
Ltac each := let x := fresh in intros x; cbn [in_producers in_containers in_power_consumers in_emitters example]; intros [<-|[]].
Example C66_production_ex : exists l, electricity_production example GIGA_WATT_HOURS = Ok l.
Proof.
  destruct (C66_production example GIGA_WATT_HOURS half_years) as (l & E & _).
  - each. eexists. split; [reflexivity|]. split; [apply year_ordered|]. split; [apply year_grid|]. split; [apply flat_ok|]. split; [reflexivity|]. eexists. eexists. split; reflexivity.
  - exists l. exact E.
Qed.
Example C66_maximum_ex : exists l, maximum_electricity_production example MEGA_WATT = Ok l.
Proof.
  destruct (C66_maximum example MEGA_WATT half_years) as (l & E & _).
  - intros x m. cbn [in_producers example]. intros [<-|[]] Em. injection Em as <-. eexists. eexists. split; [reflexivity|]. split; [apply year_ordered|]. split; [apply year_grid|]. split; [apply flat_ok|]. split; reflexivity.
  - exists l. exact E.
Qed.
Example C66_storage_ex : exists l, storage_volumes example STANDARD_CUBIC_METER = Ok l.
Proof.
  destruct (C66_storage example STANDARD_CUBIC_METER half_years) as (l & E & _).
  - each. eexists. split; [reflexivity|]. split; [apply halves_ordered|]. split.
    + intros e [<-|[<-|[]]]; (split; [|exists h2; split; [now right; left|]]).
      * exists h1. split; [now left|left; reflexivity].
      * left. reflexivity.
      * exists h2. split; [now right; left|left; reflexivity].
      * right. reflexivity.
    + split; [apply flat_ok|]. split; [reflexivity|]. eexists. eexists. split; reflexivity.
  - exists l. exact E.
Qed.
Example C66_power_ex : exists l, power_consumption example GIGA_WATT_HOURS = Ok l.
Proof.
  destruct (C66_power example GIGA_WATT_HOURS half_years) as (l & E & _).
  - each. eexists. split; [reflexivity|]. split; [apply year_ordered|]. split; [apply year_grid|]. split.
    + intros pr Epr. injection Epr as <-. eexists. split; [reflexivity|]. split; [apply year_ordered|apply year_grid].
    + split; [apply flat_ok|]. split; [reflexivity|]. eexists. eexists. split; reflexivity.
  - exists l. exact E.
Qed.
Example C66_emissions_ex : exists l, emissions example TONS = Ok l.
Proof.
  destruct (C66_emissions example TONS half_years) as (l & E & _).
  - intros x. cbn [in_emitters example]. intros [<-|[<-|[]]].
    + split; [eexists; split; [reflexivity|]; split; [apply year_ordered|apply year_grid]|]. split.
      * intros fuel Ef. injection Ef as <-. split; (split; [first [apply year_ordered|apply year_grid]|]); intros e c [<-|[]] Ec; injection Ec as <-; [split; [apply year_ordered|]; intros pc [<-|[]]; exists (day 2020 1 1); vm_compute; repeat split; congruence|apply year_grid].
      * intros ne [<-|[<-|[]]]; (split; [apply flat_ok|]); (split; [reflexivity|]); eexists; eexists; (split; reflexivity).
    + split; [eexists; split; [reflexivity|]; split; [apply year_ordered|apply year_grid]|]. split; [intros fuel Ef; discriminate|].
      intros ne [<-|[]]; (split; [apply flat_ok|]); (split; [reflexivity|]); eexists; eexists; (split; reflexivity).
  - exists l. exact E.
Qed.

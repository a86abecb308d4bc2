(** Property C46 (exporting results): theorems. *)
From Coq Require Import String PeanoNat Sorted.
From Verif Require Import QcTac Num Time_Model Time_Spec Units_Model Rates_Model Rates_Spec Numbers_Model Base Export_Model Export_Spec Export_Proofs Export_Proofs2 Export_Proofs3 Export_Proofs4 Export_Proofs5.
Local Open Scope list_scope.

(** ** C46 Exporting results *)

(** The totals that the theorems speak of are determined by the attributes. *)
Theorem C46_total_unique : forall P p l x y, total_in P p l x -> total_in P p l y -> x = y.
Proof. exact total_unique. Qed.
Print Assumptions C46_total_unique.

(** An installation of another category than the wanted one gives nothing; the others give rows. *)
Theorem C46_category : forall q e u f, ~ right_installation q e -> run_query q e u f = Ok None.
Proof. exact category_proof. Qed.
Print Assumptions C46_category.
Theorem C46_category_answer : forall q e u f r, right_installation q e -> run_query q e u f = Ok r -> exists rows, r = Some rows.
Proof. exact category_answer_proof. Qed.
Print Assumptions C46_category_answer.

(** Without a frequency there is a row for every period of the installation: the sum over the attributes that match. *)
Theorem C46_sum : forall q e u l, q_kind q <> MaxUsageFromShore -> unit_ok q u -> contiguous (e_periods e) -> right_installation q e ->
  attributes_of e (q_kind q) u = Ok l -> (forall a, In a l -> matches q a -> finite_on (e_periods e) a) ->
  exists sums, Forall2 (fun p x => total_in (matches q) p l x) (e_periods e) sums /\
    run_query q e u FreqNone = Ok (Some (combine (e_periods e) (map Some sums))).
Proof. exact query_sum_proof. Qed.
Print Assumptions C46_sum.
(** With a frequency every new period has the share of the sums that falls in it, and the shares add up to the sums. *)
Theorem C46_resampled : forall q e u l f A B, q_kind q <> MaxUsageFromShore -> unit_ok q u -> contiguous (e_periods e) -> right_installation q e ->
  attributes_of e (q_kind q) u = Ok l -> (forall a, In a l -> matches q a -> finite_on (e_periods e) a) ->
  f <> FreqNone -> (A < B)%Z -> spans (e_periods e) (86400 * A) (86400 * B) ->
  exists sums new, Forall2 (fun p x => total_in (matches q) p l x) (e_periods e) sums /\
    resample_periods (e_periods e) f true true = Ok new /\ contiguous new /\ spans new (86400 * A) (86400 * B) /\
    run_query q e u f = Ok (Some (map (fun p => (p, Some (prorated (e_periods e) (map Some sums) p))) new)) /\
    qsum (map (prorated (e_periods e) (map Some sums)) new) = qsum sums.
Proof. exact query_resampled_proof. Qed.
Print Assumptions C46_resampled.
Theorem C46_rows : forall q e u l f, q_kind q <> MaxUsageFromShore -> unit_ok q u -> contiguous (e_periods e) -> right_installation q e -> frequency_ok f (e_periods e) ->
  attributes_of e (q_kind q) u = Ok l -> (forall a, In a l -> matches q a -> finite_on (e_periods e) a) ->
  exists sums new, Forall2 (fun p x => total_in (matches q) p l x) (e_periods e) sums /\ resample_periods (e_periods e) f true true = Ok new /\ contiguous new /\
    run_query q e u f = Ok (Some (map (fun p => (p, Some (prorated (e_periods e) (map Some sums) p))) new)).
Proof. exact query_rows_proof. Qed.
Print Assumptions C46_rows.

(** The maximum usage from shore: the sums; with a frequency the level of the latest period that starts with a new period. *)
Theorem C46_max : forall q e u l, q_kind q = MaxUsageFromShore -> contiguous (e_periods e) -> e_periods e <> [] -> right_installation q e ->
  attributes_of e (q_kind q) u = Ok l -> (forall a, In a l -> matches q a -> finite_on (e_periods e) a) ->
  exists sums, Forall2 (fun p x => total_in (matches q) p l x) (e_periods e) sums /\
    run_query q e u FreqNone = Ok (Some (combine (e_periods e) (map Some sums))).
Proof. exact max_sum_proof. Qed.
Print Assumptions C46_max.
Theorem C46_max_resampled : forall q e u l f A B, q_kind q = MaxUsageFromShore -> contiguous (e_periods e) -> right_installation q e ->
  attributes_of e (q_kind q) u = Ok l -> (forall a, In a l -> matches q a -> finite_on (e_periods e) a) ->
  f <> FreqNone -> (A < B)%Z -> spans (e_periods e) (86400 * A) (86400 * B) ->
  exists sums new rows, Forall2 (fun p x => total_in (matches q) p l x) (e_periods e) sums /\
    resample_periods (e_periods e) f true true = Ok new /\ contiguous new /\ spans new (86400 * A) (86400 * B) /\
    run_query q e u f = Ok (Some rows) /\ map fst rows = new /\
    forall k p v, nth_error rows k = Some (p, v) ->
      exists i o j r x, (j <= k)%nat /\ nth_error new j = Some r /\ nth_error (e_periods e) i = Some o /\ p_start o = p_start r /\ nth_error sums i = Some x /\ v = Some x /\
        forall j' r' o', (j < j' <= k)%nat -> nth_error new j' = Some r' -> In o' (e_periods e) -> p_start o' <> p_start r'.
Proof. exact max_resampled_proof. Qed.
Print Assumptions C46_max_resampled.

(** Modifiers change signs and then print, every period for itself. *)
Theorem C46_formatted : forall ms rows, ~ In Format ms -> exists cells, modify (ms ++ [Format]) (map (fun pv : period * Qc => (fst pv, Some (snd pv))) rows) = Ok cells /\
  Forall2 (fun pv pc => fst pc = fst pv /\ exists y t, signs ms (snd pv) y /\ format_to_precision y 6 = Ok t /\ snd pc = Text (Some t)) rows cells.
Proof. exact formatted_proof. Qed.
Print Assumptions C46_formatted.

(** A report has one group for each installation and in it one column for each applier that wants its category. *)
Theorem C46_report : forall f appliers es, (forall e, In e es -> contiguous (e_periods e) /\ e_periods e <> [] /\ frequency_ok f (e_periods e) /\ forall a, In a appliers -> can_report f e a) ->
  exists groups, aggregate f appliers es = Ok groups /\ Forall2 (fun e g => fst g = e_name e /\ reported f e appliers (snd g)) es groups.
Proof. exact report_proof. Qed.
Print Assumptions C46_report.

(** The table of a group has a sorted row for every period and in it the cell of every column; it is refused if the columns have
    different periods. *)
Theorem C46_table : forall l r0, NoDup (map qr_name l) -> (forall r, In r l -> NoDup (map fst (qr_values r))) -> In r0 l ->
  ((forall r r' p, In r l -> In r' l -> In p (map fst (qr_values r)) -> In p (map fst (qr_values r'))) ->
    exists rows, table l = Ok (map qr_name l, rows) /\ Sorted (fun p q => (p_start p < p_start q \/ p_start p = p_start q /\ p_end p <= p_end q)%Z) (map fst rows) /\
      NoDup (map fst rows) /\ (forall p, In p (map fst rows) <-> In p (map fst (qr_values r0))) /\
      forall p cells, In (p, cells) rows -> Forall2 (fun r c => In (p, c) (qr_values r)) l cells) /\
  (~ (forall r r' p, In r l -> In r' l -> In p (map fst (qr_values r)) -> In p (map fst (qr_values r'))) -> table l = Err AssertionError).
Proof. exact table_proof. Qed.
Print Assumptions C46_table.

(** The exported maximum usage is not the maximum. *)
Theorem C46_max_refuted : exists q e l p o x, q_kind q = MaxUsageFromShore /\ contiguous (e_periods e) /\ right_installation q e /\
  attributes_of e (q_kind q) MEGA_WATT = Ok l /\ (forall a, In a l -> matches q a -> finite_on (e_periods e) a) /\
  run_query q e MEGA_WATT FreqYear = Ok (Some [(p, Some (qz 1))]) /\
  In o (e_periods e) /\ (p_start p <= p_start o /\ p_end o <= p_end p)%Z /\ total_in (matches q) o l x /\ x = qz 5.
Proof. exact max_refuted_proof. Qed.
Print Assumptions C46_max_refuted.
(** A value that is not a number makes the sum of all matching attributes zero. *)
Theorem C46_nan_refuted : exists q e l p a x rows, contiguous (e_periods e) /\ right_installation q e /\ attributes_of e (q_kind q) STANDARD_CUBIC_METER = Ok l /\
  In a l /\ matches q a /\ In (p, Some x) (a_points a) /\ x = qz 7 /\ run_query q e STANDARD_CUBIC_METER FreqNone = Ok (Some rows) /\ In (p, Some 0%Qc) rows.
Proof. exact nan_refuted_proof. Qed.
Print Assumptions C46_nan_refuted.
(** Two columns of the same name show the values of the first. *)
Theorem C46_same_name_refuted : exists l rows p, table l = Ok (map qr_name l, rows) /\
  exists r, nth_error l 1 = Some r /\ In (p, Number (Some (qz 2))) (qr_values r) /\ In (p, [Number (Some (qz 1)); Number (Some (qz 1))]) rows.
Proof. exact same_name_refuted_proof. Qed.
Print Assumptions C46_same_name_refuted.

(** *** Example: two consumers and a third that does not match, in half years, exported by half year and by year *)
Definition example_points (x y : Qc) : list (period * num) := combine half_years [Some x; Some y].
Lemma example_finite : forall c x y, finite_on half_years (fuel_of c (example_points x y)).
Proof.
  intros c x y p v I. assert (In (fst (p, v)) half_years /\ exists z, snd (p, v) = Some z) as H; [|exact H]. destruct I as [<-|[<-|[]]]; (split; [cbn; auto|eexists; reflexivity]).
Qed.
Definition example_query : query := mkQuery Fuel (Some "FIXED"%string) (Some ["FLARE"; "TURBINE"]%string) None (Some "FUEL-GAS"%string) None.
Definition example_attributes : list attribute :=
  [fuel_of "FLARE" (example_points (qz 1) (qz 2)); fuel_of "BOILER" (example_points (qz 100) (qz 200)); fuel_of "TURBINE" (example_points (qz 10) (qz 20))].
Definition example_installation : exportable := burner example_attributes.
Definition example_applier : applier := mkApplier "fuel" "Fuel" STANDARD_CUBIC_METER example_query [Invert; Format].
Example C46_example_hypotheses : contiguous (e_periods example_installation) /\ right_installation example_query example_installation /\
  attributes_of example_installation (q_kind example_query) STANDARD_CUBIC_METER = Ok example_attributes /\
  (forall a, In a example_attributes -> finite_on (e_periods example_installation) a) /\ frequency_ok FreqYear (e_periods example_installation).
Proof.
  split; [cbn; unfold nonempty; repeat split; vm_compute; reflexivity|]. split; [intros c [= <-]; reflexivity|]. split; [reflexivity|]. split.
  - intros a [<-|[<-|[<-|[]]]]; apply example_finite.
  - right. exists (date_day 2020 1 1), (date_day 2021 1 1). split; [vm_compute; reflexivity|]. exists (mkPeriod (day 2020 1 1) (day 2020 7 1)), (mkPeriod (day 2020 7 1) (day 2021 1 1)). eexists. repeat split; reflexivity.
Qed.
Example C46_example_applier : can_report FreqYear example_installation example_applier.
Proof.
  split; [discriminate|]. split; [intros [=]|]. split; [exists [Invert]; split; [reflexivity|intros [[=]|[]]]|]. intros _. exists example_attributes. split; [reflexivity|].
  intros a I _. now apply C46_example_hypotheses.
Qed.
Example C46_example_matches : matches example_query (fuel_of "FLARE" []) /\ ~ matches example_query (fuel_of "BOILER" []).
Proof.
  split; [split; [intros c [= <-]; reflexivity|intros l [= <-]; exists "FLARE"%string; split; [reflexivity|now left]]|]. intros [_ H]. destruct (H _ eq_refl) as (c & [= <-] & [[=]|[[=]|[]]]).
Qed.
Example C46_example_rows : run_query example_query example_installation STANDARD_CUBIC_METER FreqNone = Ok (Some (example_points (qz 11) (qz 22))) /\
  run_query example_query example_installation STANDARD_CUBIC_METER FreqYear = Ok (Some [(mkPeriod (day 2020 1 1) (day 2021 1 1), Some (qz 33))]).
Proof. split; vm_compute; reflexivity. Qed.
Example C46_example_report : aggregate FreqYear [example_applier] [example_installation] =
  Ok [("A"%string, [mkQueryResult "fuel" "Fuel" STANDARD_CUBIC_METER [(mkPeriod (day 2020 1 1) (day 2021 1 1), Text (Some (mkText true 33 [])))]])].
Proof. vm_compute. reflexivity. Qed.
Example C46_example_max : run_query shore_query (shore (example_points (qz 3) (qz 4))) MEGA_WATT FreqNone = Ok (Some (example_points (qz 3) (qz 4))).
Proof. vm_compute. reflexivity. Qed.

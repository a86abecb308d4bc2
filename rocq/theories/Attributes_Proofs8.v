(** Proofs about exported attributes: from an installation to the rows of an export, and what goes wrong. *)
From Coq Require Import String PeanoNat Sorted.
From Verif Require Import QcTac Num Time_Model Time_Spec Time_Proofs Time_Proofs2 Time_Proofs3 Units_Model Units_Proofs Rates_Model Rates_Spec Numbers_Model Base BaseLemmas Simple_Proofs2 Export_Model Export_Spec Export_Proofs Export_Proofs2 Export_Proofs3 Export_Proofs4 Export_Proofs5 Attributes_Model Attributes_Spec Attributes_Proofs Attributes_Proofs2 Attributes_Proofs3 Attributes_Proofs4 Attributes_Proofs5 Attributes_Proofs6 Attributes_Proofs7.
Local Open Scope list_scope.

Lemma map2_In : forall A B C (f : A -> B -> C) l m c, In c (map2 f l m) -> exists a b, In a l /\ In b m /\ c = f a b.
Proof.
  intros A B C f l. induction l as [|a l IH]; intros [|b m] c I; cbn [map2] in I; try easy. destruct I as [<-|I]; [exists a, b; repeat split; now left|]. destruct (IH m c I) as (x & y & H1 & H2 & ->). exists x, y. repeat split; now right.
Qed.
Lemma combine_In : forall A B (l : list A) (m : list B) a b, In (a, b) (combine l m) -> In a l /\ In b m.
Proof. intros A B l m a b I. split; [eapply in_combine_l|eapply in_combine_r]; eauto. Qed.
Lemma fuel_finite : forall s w vu r v, rate_well_formed s -> window_ok (r_periods s) w -> rate_to_volume (r_unit s) = Ok vu -> finite_rates s ->
  rate_for_period s w = Ok r -> rate_to_volumes r = Ok v -> forall p y, In (p, y) (zip (s_periods v) (s_values v)) -> In p (r_periods s) /\ exists x, y = Some x.
Proof.
  intros s w vu r v W O U F Er Ev p y I. destruct (rate_volumes_window s w vu W O U) as (i & j & r' & E & V & _). rewrite E in Er. injection Er as <-. rewrite V in Ev. injection Ev as <-. cbn [s_periods s_values] in I.
  apply combine_In in I as [I J]. apply slice_In in I as (k & _ & I). apply slice_In in J as (k' & _ & J). apply nth_error_In in I. apply nth_error_In in J. split; [exact I|]. apply map2_In in J as (c & q & J & _ & ->). destruct (F c J) as (x & ->). eexists. reflexivity.
Qed.
Lemma fuel_all_finite : forall i ps vu l,
  (forall x, In x (in_fuel_consumers i) -> exists c, fc_category x = Some c /\ ordered c /\ on_grid ps c /\ fuel_ok (fc_fuel x) /\ fuel_on_grid ps (fc_fuel x) /\
    rate_well_formed (fc_rate x) /\ r_periods (fc_rate x) = ps /\ rate_to_volume (r_unit (fc_rate x)) = Ok vu) ->
  (forall x, In x (in_fuel_consumers i) -> finite_rates (fc_rate x)) -> fuel_consumption i = Ok l -> forall a, In a l -> finite_on ps a.
Proof.
  intros i ps vu l H Fi E a I. unfold fuel_consumption in E. destruct (mapM _ (in_fuel_consumers i)) as [ls|] eqn:M; [|discriminate]. cbn [Base.bind] in E. injection E as <-.
  apply in_concat in I as (l & Il & I). apply mapM_Ok in M. apply (Forall2_in_r _ _ _ _ _ _ M) in Il as (c & Ic & E).
  destruct (H c Ic) as (cs & Ec & O & G & F & Gf & W & Eps & U). destruct (fuel_windows ps (fc_fuel c) cs F Gf O G) as (f & ws & Ef & Ew & Ow & Gw & _).
  rewrite Ef in E. cbn [Base.bind] in E. rewrite Ec, Ew in E. cbn [Base.bind] in E. apply mapM_Ok in E. apply (Forall2_in_r _ _ _ _ _ _ E) in I as (e & Ie & E').
  destruct (rate_for_period (fc_rate c) (fst e)) as [r|] eqn:Er; [|discriminate]. cbn [Base.bind] in E'. destruct (rate_to_volumes r) as [v|] eqn:Ev; [|discriminate]. cbn [Base.bind] in E'. injection E' as <-.
  intros p y J. rewrite <- Eps. eapply (fuel_finite (fc_rate c) (fst e)); eauto. rewrite Eps. now apply (grid_window _ _ _ _ Ow Gw).
Qed.

(** ** From an installation to the rows of a fuel query *)
Theorem fuel_rows_proof : forall i e ps vu u q,
  (forall x, In x (in_fuel_consumers i) -> exists c, fc_category x = Some c /\ ordered c /\ on_grid ps c /\ fuel_ok (fc_fuel x) /\ fuel_on_grid ps (fc_fuel x) /\
    rate_well_formed (fc_rate x) /\ r_periods (fc_rate x) = ps /\ rate_to_volume (r_unit (fc_rate x)) = Ok vu) ->
  (forall x, In x (in_fuel_consumers i) -> finite_rates (fc_rate x)) -> in_periods i = ps -> contiguous ps ->
  exportable_of i = Ok e -> right_installation q e -> q_kind q = Fuel ->
  exists sums, Forall2 (fun p x => sum_over (fun c => exists m, fuel_labels c p m /\ wants q m) (fun c => volume_at (fc_rate c) vu p) (in_fuel_consumers i) x) ps sums /\
    run_query q e u FreqNone = Ok (Some (combine ps (map Some sums))).
Proof.
  intros i e ps vu u q H Fi Ep C E R K. destruct (fuel_proof i ps vu H) as (l & El & T). unfold exportable_of in E. destruct (installation_category i) as [c|]; [|discriminate]. cbn [Base.bind] in E. injection E as <-.
  match goal with |- context [run_query q ?e0 u _] => set (e := e0) in *; assert (attributes_of e (q_kind q) u = Ok l) as A by (rewrite K; exact El); assert (e_periods e = ps) as Ee by exact Ep end.
  destruct (query_sum_proof q e u l) as (sums & F & Q); [rewrite K; discriminate|unfold unit_ok; rewrite K; discriminate|rewrite Ee; exact C|exact R|exact A| |].
  - intros a I _. rewrite Ee. eapply fuel_all_finite; eauto.
  - rewrite Ee in F, Q. exists sums. split; [|exact Q]. assert (forall p, In p ps -> exists x, sum_over (fun c => exists m, fuel_labels c p m /\ wants q m) (fun c => volume_at (fc_rate c) vu p) (in_fuel_consumers i) x /\ total_in (matches q) p l x) as T' by (intros p I; now apply T).
    clear - F T'. induction F as [|p x ps sums Tx F IH]; constructor.
    + destruct (T' p (or_introl eq_refl)) as (y & S & Ty). rewrite (total_unique _ _ _ _ _ Tx Ty). exact S.
    + apply IH. intros p' I. apply T'. now right.
Qed.

(** ** Components without a category *)
Lemma mapM_fails : forall A B (f : A -> result B) l a, In a l -> (forall b, f a <> Ok b) -> forall bs, mapM f l <> Ok bs.
Proof. intros A B f l a I H bs E. apply mapM_Ok in E. apply (Forall2_in_l _ _ _ _ _ _ E) in I as (b & _ & X). exact (H b X). Qed.
Theorem required_proof : forall i u,
  ((exists x, In x (in_producers i) /\ pr_category x = None) -> forall l, electricity_production i u <> Ok l) /\
  ((exists x, In x (in_containers i) /\ co_category x = None) -> forall l, storage_volumes i u <> Ok l) /\
  ((exists x, In x (in_fuel_consumers i) /\ fc_category x = None) -> forall l, fuel_consumption i <> Ok l) /\
  ((exists x, In x (in_power_consumers i) /\ (pc_category x = None \/ pc_producer x = Some None)) -> forall l, power_consumption i u <> Ok l) /\
  ((exists x, In x (in_emitters i) /\ em_category x = None) -> forall l, emissions i u <> Ok l).
Proof.
  intros i u. repeat split; intros (x & I & N) l E.
  - unfold electricity_production in E. destruct (mapM _ (in_producers i)) as [ls|] eqn:M; [|discriminate]. revert M. apply mapM_fails with (a := x); auto. intros b. rewrite N. discriminate.
  - unfold storage_volumes in E. destruct (mapM _ (in_containers i)) as [ls|] eqn:M; [|discriminate]. revert M. apply mapM_fails with (a := x); auto. intros b. rewrite N. destruct (rate_to_volumes _) as [v|]; [|discriminate]. cbn [Base.bind]. destruct (series_to_unit v u); discriminate.
  - unfold fuel_consumption in E. destruct (mapM _ (in_fuel_consumers i)) as [ls|] eqn:M; [|discriminate]. revert M. apply mapM_fails with (a := x); auto. intros b. rewrite N. destruct (fuel_category _); discriminate.
  - unfold power_consumption in E. destruct (mapM _ (in_power_consumers i)) as [ls|] eqn:M; [|discriminate]. revert M. apply mapM_fails with (a := x); auto. intros b. unfold power_windows. destruct N as [N|N]; rewrite N; [discriminate|]. destruct (pc_category x); discriminate.
  - unfold emissions in E. destruct (mapM _ (in_emitters i)) as [ls|] eqn:M; [|discriminate]. revert M. apply mapM_fails with (a := x); auto. intros b. unfold emission_windows. rewrite N. discriminate.
Qed.
Theorem one_category_proof : forall i, (exists e, exportable_of i = Ok e) <-> in_category i = None \/ exists p c, in_category i = Some [(p, c)].
Proof.
  intros i. unfold exportable_of, installation_category. destruct (in_category i) as [[|[p c] [|y l]]|]; cbn [Base.bind]; split; try (intros (e & E); discriminate); try (intros [E|(p' & c' & E)]; congruence); eauto.
Qed.

(** ** What goes wrong *)
Definition year2020 : period := mkPeriod (day 2020 1 1) (day 2021 1 1).
Definition flat (x : Qc) (u : unit_) : rate_series := mkRate half_years [Some x; Some x] u CALENDAR_DAY [Some 1%Qc; Some 1%Qc].
Definition two_fuels : list (period * option categories) :=
  [(mkPeriod (day 2020 1 1) (day 2020 7 1), Some [(mkPeriod (day 2020 1 1) (day 2020 7 1), "FUEL-GAS"%string); (mkPeriod (day 2020 7 1) (day 2021 1 1), "DIESEL"%string)]);
   (mkPeriod (day 2020 7 1) (day 2021 1 1), Some [(year2020, "DIESEL"%string)])].
Definition burns (fuel : list (period * option categories)) : installation :=
  mkInstallation "A" None half_years [] [] [mkFuelConsumer (Some [(year2020, "FLARE"%string)]) fuel (flat 1 STANDARD_CUBIC_METER_PER_DAY)] [] [].
Lemma fuel_change_refuted_proof : exists i x, in_fuel_consumers i = [x] /\ rate_well_formed (fc_rate x) /\ finite_rates (fc_rate x) /\ r_periods (fc_rate x) = in_periods i /\
  (forall p, In p (in_periods i) -> exists f k, fuel_category_at (fc_fuel x) p (Some f) /\ fuel_labels x p (mkMeta (Some f) (Some k) None None)) /\
  fuel_consumption i = Err AssertionError.
Proof.
  exists (burns two_fuels). eexists. split; [reflexivity|]. split; [|split; [|split; [reflexivity|split; [|vm_compute; reflexivity]]]].
  - split; [|split; [discriminate|split; reflexivity]]. vm_compute. repeat split.
  - intros r [<-|[<-|[]]]; eexists; reflexivity.
  - intros p [<-|[<-|[]]].
    + exists "FUEL-GAS"%string, "FLARE"%string. assert (fuel_category_at two_fuels (mkPeriod (day 2020 1 1) (day 2020 7 1)) (Some "FUEL-GAS"%string)) as A.
      { eexists. split; [eexists; split; [left; reflexivity|vm_compute; split; congruence]|]. eexists. split; [left; reflexivity|vm_compute; split; congruence]. }
      split; [exact A|]. eexists. exists (Some "FUEL-GAS"%string), (Some "FLARE"%string). split; [reflexivity|]. split; [|split; [exact A|split; [|reflexivity]]].
      * split; (exists (day 2020 1 1); split; [vm_compute; congruence|]); right; eexists; eexists; (split; [left; reflexivity|vm_compute; split; congruence]).
      * eexists. split; [left; reflexivity|vm_compute; split; congruence].
    + exists "DIESEL"%string, "FLARE"%string. assert (fuel_category_at two_fuels (mkPeriod (day 2020 7 1) (day 2021 1 1)) (Some "DIESEL"%string)) as A.
      { eexists. split; [eexists; split; [right; left; reflexivity|vm_compute; split; congruence]|]. eexists. split; [left; reflexivity|vm_compute; split; congruence]. }
      split; [exact A|]. eexists. exists (Some "DIESEL"%string), (Some "FLARE"%string). split; [reflexivity|]. split; [|split; [exact A|split; [|reflexivity]]].
      * split; (exists (day 2020 7 1); split; [vm_compute; congruence|]); right; eexists; eexists; (split; [left; reflexivity|vm_compute; split; congruence]).
      * eexists. split; [left; reflexivity|vm_compute; split; congruence].
Qed.

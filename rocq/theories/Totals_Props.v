(** The properties of totals (C72), validity (C73), emission intensity (C74) and the list of components (C75).

    Every theorem is closed by the proof in the [Totals_Proofs] files. *)
From Coq Require Import String.
From Verif Require Import QcTac Num Time_Model Time_Spec Units_Model Rates_Model Rates_Spec Graph_Model Graph_Spec Totals_Model Totals_Spec Totals_Proofs Totals_Proofs3
  Totals_Proofs4 Totals_Proofs5 Totals_Proofs6 Totals_Proofs7 Totals_Proofs8 Base.
Local Open Scope list_scope.
Local Open Scope Qc_scope.

(** ** C72: totals *)
(** the totals of an installation are the sums over its components *)
Theorem C72_installation : forall ps i, installation_ok ps i ->
  exists t, map_installation ps i = Ok t /\ summed ps (map fc_fuel (in_components i)) (electrical_powers i) (mechanical_powers i) (all_emitters i) t /\ t_export t = in_export i.
Proof. exact installation_proof. Qed.
Print Assumptions C72_installation.
(** the totals of the asset are the sums over all components *)
Theorem C72_asset : forall ps l, l <> [] -> Forall (installation_ok ps) l ->
  exists t, asset_totals ps l = Ok t /\
    summed ps (flat_map (fun i => map fc_fuel (in_components i)) l) (flat_map electrical_powers l) (flat_map mechanical_powers l) (flat_map all_emitters l) t /\
    export_ok ps (t_export t) /\ adds_up (map (fun i => r_values (in_export i)) l) (r_values (t_export t)).
Proof. exact asset_proof. Qed.
Print Assumptions C72_asset.
(** and the sums of the totals of its installations *)
Theorem C72_asset_installations : forall ps l t, l <> [] -> Forall (installation_ok ps) l -> asset_totals ps l = Ok t ->
  exists ts, mapM (map_installation ps) l = Ok ts /\ length ts = length l /\
    adds_up (map (fun x => r_values (t_energy x)) ts) (r_values (t_energy t)) /\
    adds_up (map (fun x => s_values (t_energy_cumulative x)) ts) (s_values (t_energy_cumulative t)) /\
    adds_up (map (fun x => rates_of (t_electrical x)) ts) (rates_of (t_electrical t)) /\
    adds_up (map (fun x => rates_of (t_mechanical x)) ts) (rates_of (t_mechanical t)) /\
    adds_up (map (fun x => rates_of (t_power x)) ts) (rates_of (t_power t)) /\
    adds_up (map (fun x => r_values (t_export x)) ts) (r_values (t_export t)) /\
    (forall name, adds_up (map (emission_rate name) ts) (emission_rate name t) /\ adds_up (map (emission_cumulative name) ts) (emission_cumulative name t)) /\
    ((forall i, In i l -> Forall sound_power (electrical_powers i ++ mechanical_powers i)) ->
     adds_up (map (fun x => numbers_of (t_electrical_cumulative x)) ts) (numbers_of (t_electrical_cumulative t)) /\
     adds_up (map (fun x => numbers_of (t_mechanical_cumulative x)) ts) (numbers_of (t_mechanical_cumulative t)) /\
     adds_up (map (fun x => numbers_of (t_power_cumulative x)) ts) (numbers_of (t_power_cumulative t))).
Proof. exact asset_installations_proof. Qed.
Print Assumptions C72_asset_installations.
(** with powers of opposite sign and different regularities the calendar-day power of the total is not the sum *)
Theorem C72_negative_power_refuted : exists ps i t r,
  installation_ok ps i /\ map_installation ps i = Ok t /\ t_electrical t = Some r /\ ~ adds_up (map calendar_rates (electrical_powers i)) (calendar_rates r).
Proof. exact negative_power_refuted. Qed.
Print Assumptions C72_negative_power_refuted.
Example C72_case : installation_ok two_days case_installation /\ Forall sound_power (electrical_powers case_installation ++ mechanical_powers case_installation) /\
  exists t, map_installation two_days case_installation = Ok t /\ case_totals t = true.
Proof.
  split; [exact case_ok|]. split; [|exact case_computes].
  repeat constructor; intros x; cbn [In r_values r_regularity rate_of]; intuition subst; eexists; split; try reflexivity; vm_compute; discriminate.
Qed.
Example C72_asset_case : exists t, [case_installation; signed_installation] <> [] /\ Forall (installation_ok two_days) [case_installation; signed_installation] /\
  asset_totals two_days [case_installation; signed_installation] = Ok t /\ check (r_values (t_energy t)) [Some (qz 10); Some (qz 25)] = true.
Proof.
  destruct (asset_totals two_days [case_installation; signed_installation]) as [t|e] eqn:E; [|vm_compute in E; discriminate].
  exists t. split; [discriminate|]. split; [repeat apply Forall_cons; auto using case_ok, signed_ok|]. split; [reflexivity|]. vm_compute in E. injection E as <-. vm_compute. reflexivity.
Qed.

(** ** C73: validity *)
(** an installation, and the asset, is valid in a period exactly when everything below it is *)
Theorem C73_validity : forall regs asset g aggregates own ps c n, one_asset regs asset -> build regs = Ok g ->
  (forall d s, own d = Some s -> s_periods s = ps /\ length (s_values s) = length ps) ->
  (forall d, aggregates d = true -> exists e, above regs d e) -> In c (map fst regs) -> (length regs <= n)%nat ->
  exists s, get_validity g aggregates own ps n c = Ok s /\ s_periods s = ps /\ length (s_values s) = length ps /\
    forall k, (k < length ps)%nat -> (nth_error (s_values s) k = Some true <->
      if aggregates c then valid_below regs aggregates own c k
      else match own c with Some o => nth_error (s_values o) k = Some true | None => True end).
Proof. exact validity_proof. Qed.
Print Assumptions C73_validity.
Definition C73_asset := NStr "asset". Definition C73_installation := NStr "installation". Definition C73_genset := NStr "genset".
Definition C73_pump := NStr "pump". Definition C73_flare := NStr "flare".
Definition C73_regs : list registration :=
  [(C73_asset, None); (C73_installation, Some C73_asset); (C73_genset, Some C73_installation); (C73_pump, Some C73_genset); (C73_flare, Some C73_installation)].
Lemma C73_one_asset : one_asset C73_regs C73_asset.
Proof.
  split; [split|split].
  - cbn. repeat constructor; cbn; intuition discriminate.
  - intros c p H. cbn in H. decompose [or] H; try discriminate; try contradiction; injection H0 as <- <- || injection H1 as <- <-; cbn; auto 7.
  - cbn. auto.
  - intros c C. cbn in C. decompose [or] C; subst; try contradiction; auto; right.
    + constructor; cbn; auto.
    + apply (above_step _ _ C73_installation); [constructor|]; cbn; auto 7.
    + apply (above_step _ _ C73_genset); [apply (above_step _ _ C73_installation); [constructor|]|]; cbn; auto 7.
    + apply (above_step _ _ C73_installation); [constructor|]; cbn; auto 7.
Qed.
Definition C73_aggregates (c : node_id) : bool := node_eqb c C73_asset || node_eqb c C73_installation.
Definition C73_own (c : node_id) : option (series bool) :=
  if node_eqb c C73_genset then Some (mkSeries two_days [true; true] NONE) else if node_eqb c C73_pump then Some (mkSeries two_days [true; false] NONE) else None.
Example C73_case : one_asset C73_regs C73_asset /\
  (forall d s, C73_own d = Some s -> s_periods s = two_days /\ length (s_values s) = length two_days) /\
  (forall d, C73_aggregates d = true -> exists e, above C73_regs d e) /\
  exists g s, build C73_regs = Ok g /\ get_validity g C73_aggregates C73_own two_days 5 C73_asset = Ok s /\ s_values s = [true; false].
Proof.
  split; [exact C73_one_asset|]. split; [|split].
  - intros d s. unfold C73_own. destruct (node_eqb d C73_genset); [intros [= <-]; auto|]. destruct (node_eqb d C73_pump); [intros [= <-]; auto|discriminate].
  - intros d. unfold C73_aggregates, node_eqb. destruct (node_eq_dec d C73_asset) as [->|]; [intros _; exists C73_installation; constructor; cbn; auto|].
    destruct (node_eq_dec d C73_installation) as [->|]; [intros _; exists C73_genset; constructor; cbn; auto|discriminate].
  - destruct (build C73_regs) as [g|e] eqn:E; [|vm_compute in E; discriminate]. exists g.
    vm_compute in E. injection E as <-. eexists. split; [reflexivity|]. split; vm_compute; reflexivity.
Qed.

(** ** C74: emission intensity *)
(** intensities are CO2 per exported volume, so far and by period, and not a number where nothing is exported *)
Theorem C74_intensity : forall lower ps export emissions co2 yearly, export_ok ps export -> first_co2 lower emissions co2 -> emission_ok ps ("co2"%string, co2) ->
  exists r, intensity_results_of lower export emissions yearly = Ok r /\
    let kg := fun k => qz 1000 * produced ps (calendar_rates co2) k in let kg_in := fun k => qz 1000 * produced_in ps (calendar_rates co2) k in
    let sm3 := produced ps (r_values export) in let sm3_in := produced_in ps (r_values export) in
    s_unit (i_sm3 r) = KG_SM3 /\ intensity_is ps (i_sm3 r) (fun k => per (kg k) (sm3 k)) /\
    s_unit (i_boe r) = KG_BOE /\ intensity_is ps (i_boe r) (fun k => per (kg k) (qc 629 100 * sm3 k)) /\
    match i_yearly_sm3 r, i_yearly_boe r with
    | Some y, Some z => yearly = true /\ s_unit y = KG_SM3 /\ intensity_is ps y (fun k => per (kg_in k) (sm3_in k)) /\
                        s_unit z = KG_BOE /\ intensity_is ps z (fun k => per (kg_in k) (qc 629 100 * sm3_in k))
    | None, None => yearly = false
    | _, _ => False
    end.
Proof. exact intensity_proof. Qed.
Print Assumptions C74_intensity.
(** what has been emitted is the sum over the periods of intensity times export *)
Theorem C74_weighted : forall ps emitted exported k, (k < length ps)%nat ->
  (forall j, (j <= k)%nat -> produced_in ps exported j = 0 -> produced_in ps emitted j = 0) ->
  produced ps emitted k =
  qsum (map (fun j => nan_zero (per (produced_in ps emitted j) (produced_in ps exported j)) * produced_in ps exported j) (seq 0 (S k))).
Proof. exact weighted_proof. Qed.
Print Assumptions C74_weighted.
Definition C74_export := rate_of STANDARD_CUBIC_METER_PER_DAY CALENDAR_DAY (qz 100) 0 1 1.
Definition C74_co2 := rate_of TONS_PER_DAY CALENDAR_DAY (qz 2) (qz 4) 1 1.
Definition C74_lower (s : string) : string := if String.eqb s "CO2" then "co2"%string else s.
Definition C74_check (r : intensity_results) : bool :=
  check (s_values (i_sm3 r)) [Some (qz 20); Some (qz 100)] && check (numbers_of (i_yearly_sm3 r)) [Some (qz 20); None] &&
  check (s_values (i_boe r)) [Some (qz 20 / qc 629 100); Some (qz 100 / qc 629 100)].
Example C74_case : export_ok two_days C74_export /\ emission_ok two_days ("co2"%string, C74_co2) /\
  first_co2 C74_lower [("ch4"%string, C74_export); ("CO2"%string, C74_co2)] C74_co2 /\
  exists r, intensity_results_of C74_lower C74_export [("ch4"%string, C74_export); ("CO2"%string, C74_co2)] true = Ok r /\ C74_check r = true.
Proof.
  split; [repeat split; auto using two_days_contiguous; discriminate|]. split; [repeat split; auto using two_days_contiguous; discriminate|].
  split; [exists [("ch4"%string, C74_export)], "CO2"%string, []; repeat split; intros e [<-|[]]; vm_compute; discriminate|].
  destruct (intensity_results_of C74_lower C74_export [("ch4"%string, C74_export); ("CO2"%string, C74_co2)] true) as [r|e] eqn:E; [|vm_compute in E; discriminate].
  exists r. split; [reflexivity|]. vm_compute in E. injection E as <-. vm_compute. reflexivity.
Qed.

(** ** C75: the components of the result *)
(** every container but the asset is listed once, installations and generator sets before what they contain or feed *)
Theorem C75_components : forall regs asset g generator n, one_asset regs asset -> build regs = Ok g -> three_levels regs asset generator -> (length regs <= n)%nat ->
  exists l, asset_components g generator n (children_of regs asset) = Ok l /\
    NoDup l /\ (forall c, In c l <-> In c (map fst regs) /\ c <> asset) /\
    (forall c p, In (c, Some p) regs -> p <> asset -> listed_before l p c).
Proof. exact components_proof. Qed.
Print Assumptions C75_components.
Definition C75_generator (c : node_id) : bool := node_eqb c C73_genset.
Example C75_case : three_levels C73_regs C73_asset C75_generator /\
  exists g, build C73_regs = Ok g /\ asset_components g C75_generator 5 (children_of C73_regs C73_asset) = Ok [C73_installation; C73_genset; C73_pump; C73_flare].
Proof.
  split.
  - intros c p H. cbn in H. decompose [or] H; try discriminate; try contradiction; injection H0 as <- <- || injection H1 as <- <-; auto; right; auto; left; cbn; auto 7.
  - destruct (build C73_regs) as [g|e] eqn:E; [|vm_compute in E; discriminate]. exists g. vm_compute in E. injection E as <-. split; vm_compute; reflexivity.
Qed.

(** Cumulatives, fuel, power and emissions. *)
From Coq Require Import PeanoNat String.
From Verif Require Import QcTac Base BaseLemmas Num Time_Model Time_Spec Units_Model Units_Proofs Rates_Model Rates_Spec Rates_Proofs Rates_Proofs2 Rates_Proofs3
  Rates_Proofs4 Rates_Proofs5 Stream_Proofs System_Proofs2 Graph_Model Graph_Spec Totals_Model Totals_Spec Totals_Proofs.
Local Open Scope list_scope.
Local Open Scope Qc_scope.

(** ** cumulatives *)
Lemma volumes_produced : forall (f : Qc -> Qc) c, (forall x, f x = c * x) -> forall ps rates n,
  qsum (map nan_zero (firstn n (map (option_map f) (map2 rate_volume rates ps)))) =
  c * qsum (map2 (fun p r => nan_zero r * (qz (seconds p) / qz 86400)) (firstn n ps) (firstn n rates)).
Proof.
  intros f c F. assert (forall x l, qsum (x :: l) = x + qsum l) as Q by reflexivity.
  induction ps as [|p ps IH]; intros [|r rates] [|n]; cbn [map2 map firstn]; try (cbn; ring).
  rewrite !Q, IH. unfold rate_volume. destruct r as [r|]; cbn [option_map nan_zero]; [rewrite F|]; ring.
Qed.
Lemma cumulative_runs : forall f c ps rates w, (forall x, f x = c * x) -> length rates = length ps ->
  exists e, volumes_cumulative (mkSeries ps (map (option_map f) (map2 rate_volume rates ps)) w) = Ok e /\ s_unit e = w /\ runs_up ps c rates e.
Proof.
  intros f c ps rates w F L. set (s := mkSeries ps (map (option_map f) (map2 rate_volume rates ps)) w).
  assert (length (s_values s) = length ps) as Ls by (cbn; rewrite map_length, map2_length_eq; auto).
  destruct (volumes_cumulative_proof s Ls) as (v & E & V & Lv & _). eexists. split; [exact E|]. split; [reflexivity|].
  unfold runs_up. cbn [s_periods s_values]. split; [reflexivity|]. split; [congruence|]. intros k K. rewrite V by congruence. do 2 f_equal.
  unfold s. cbn [s_values]. rewrite (volumes_produced f c F). reflexivity.
Qed.
Lemma option_map_id : forall (A : Type) (l : list (option A)), map (option_map (fun x => x)) l = l.
Proof. intros A l. rewrite <- (map_id l) at 2. apply map_ext. now intros [x|]. Qed.
Lemma cumulative_of_ok : forall ps r u, on_periods ps r -> rate_to_volume (r_unit r) = Ok u ->
  exists c, cumulative_of r = Ok c /\ s_unit c = u /\ runs_up ps 1 (calendar_rates r) c.
Proof.
  intros ps r u P U. destruct (on_periods_len _ _ P) as (_ & _ & L). destruct P as [W <-]. destruct (volumes_either_proof r u W U) as [E _]. unfold cumulative_of. rewrite E.
  cbn [bind]. destruct (cumulative_runs (fun x => x) 1 (r_periods r) (calendar_rates r) u) as (c & Ec & X); auto; [intros; ring|].
  rewrite option_map_id in Ec. eauto.
Qed.
Lemma cumulative_power_ok : forall ps r, power_ok ps r ->
  exists c, cumulative_in GIGA_WATT_HOURS r = Ok c /\ s_unit c = GIGA_WATT_HOURS /\ runs_up ps (qc 24 1000) (calendar_rates r) c.
Proof.
  intros ps r (P & U & T). destruct (on_periods_len _ _ P) as (_ & _ & L). destruct P as [W <-].
  destruct (volumes_either_proof r MEGA_WATT_DAYS W) as [E _]; [now rewrite U|]. unfold cumulative_in. rewrite E. cbn [bind].
  unfold series_to_unit. cbn [s_unit s_values s_periods]. change (unit_eqb GIGA_WATT_HOURS MEGA_WATT_DAYS) with false. cbn match.
  change (unit_to MEGA_WATT_DAYS GIGA_WATT_HOURS) with (Ok (fun x => x * qz 24 / qz 1000)). cbn [bind].
  apply cumulative_runs; auto. intros x. replace (qc 24 1000) with (qz 24 / qz 1000) by (apply Qc_is_canon; vm_compute; reflexivity).
  field. intros Z. apply (f_equal this) in Z. vm_compute in Z. discriminate.
Qed.

(** ** the fuel *)
Lemma mapM_ok : forall (A B : Type) (f : A -> result B) (g : A -> B) l, (forall x, In x l -> f x = Ok (g x)) -> mapM f l = Ok (map g l).
Proof.
  induction l as [|x l IH]; intros H; [reflexivity|]. cbn [mapM map]. rewrite (H x) by now left. cbn [bind]. rewrite IH by (intros; apply H; now right). reflexivity.
Qed.
Definition as_calendar (r : rate_series) : rate_series := mkRate (r_periods r) (calendar_rates r) (r_unit r) CALENDAR_DAY (r_regularity r).
Lemma as_calendar_on : forall ps r, on_periods ps r -> on_periods ps (as_calendar r).
Proof.
  intros ps r P. destruct (on_periods_len _ _ P) as (_ & L2 & L3). destruct P as [(C & N & _ & _) <-]. split; [|reflexivity].
  unfold rate_well_formed, as_calendar. cbn. auto.
Qed.
Lemma calendar_of_calendar : forall r, r_type r = CALENDAR_DAY -> calendar_rates r = r_values r.
Proof. intros r T. unfold calendar_rates. now rewrite T. Qed.
Lemma zero_fuel_ok : forall ps, contiguous ps -> ps <> [] -> exists s, zero_fuel ps = Ok s /\ fuel_ok ps s /\ r_type s = CALENDAR_DAY /\ adds_up [] (r_values s).
Proof.
  intros ps C N. unfold zero_fuel, make_rate. rewrite !map_length, !Nat.eqb_refl. cbn [andb]. eexists. split; [reflexivity|]. split; [|split; [reflexivity|]].
  - repeat split; cbn; auto; now rewrite map_length.
  - intros k. cbn. unfold number_at. rewrite nth_error_map. now destruct (nth_error ps k).
Qed.
Lemma aggregate_fuel_ok : forall ps l, contiguous ps -> ps <> [] -> Forall (fun c => fuel_ok ps (fc_fuel c)) l ->
  exists s, aggregate_fuel ps l = Ok s /\ fuel_ok ps s /\ r_type s = CALENDAR_DAY /\ adds_up (map calendar_rates (map fc_fuel l)) (r_values s).
Proof.
  intros ps l C N F. destruct l as [|c l]; [now apply zero_fuel_ok|]. unfold aggregate_fuel.
  rewrite (mapM_ok _ _ _ (fun c => as_calendar (fc_fuel c))).
  2:{ intros x X. rewrite Forall_forall in F. destruct (F x X) as [[W _] U]. unfold rate_to_unit. rewrite U, unit_eqb_refl. cbn [bind]. now apply to_calendar_day_eq. }
  cbn [bind]. destruct (reduce_ok ps STANDARD_CUBIC_METER_PER_DAY CALENDAR_DAY (map (fun c => as_calendar (fc_fuel c)) (c :: l))) as (s & E & P & U & T & A).
  - discriminate.
  - rewrite Forall_forall in *. intros r R. apply in_map_iff in R as (x & <- & X). destruct (F x X) as [P U]. split; [now apply as_calendar_on|]. split; [exact U|reflexivity].
  - exists s. split; [exact E|]. split; [split; auto|]. split; auto. rewrite map_map in A |- *. exact A.
Qed.

(** ** power *)
Lemma aggregate_power_ok : forall ps l, Forall (power_ok ps) l ->
  match l with
  | [] => aggregate_power l = Ok None
  | _ => exists s, aggregate_power l = Ok (Some s) /\ power_ok ps s /\ adds_up (map r_values l) (r_values s) /\
           (Forall nearly_sound l -> nearly_sound s /\ adds_up (map calendar_rates l) (calendar_rates s))
  end.
Proof.
  intros ps l F. destruct l as [|p l]; [reflexivity|]. unfold aggregate_power.
  rewrite (mapM_ok _ _ _ (fun p => p)).
  2:{ intros x X. rewrite Forall_forall in F. destruct (F x X) as (_ & U & _). unfold rate_to_unit. now rewrite U, unit_eqb_refl. }
  cbn [bind]. rewrite map_id. destruct (reduce_ok ps MEGA_WATT STREAM_DAY (p :: l)) as (s & E & P & U & T & A); [discriminate|exact F|].
  exists s. rewrite E. cbn [bind]. split; [reflexivity|]. split; [split; auto|]. split; auto. intros N. now apply (reduce_sound ps MEGA_WATT (p :: l) s).
Qed.
Lemma power_truthy : forall ps r, power_ok ps r -> truthy r = true.
Proof.
  intros ps r (P & _). destruct (on_periods_len _ _ P) as (L & _). unfold truthy. destruct P as [(_ & N & _) <-]. rewrite L. now destruct (r_periods r).
Qed.
Lemma optional_ok : forall ps l o, match o with None => l = [] | Some r => l <> [] /\ power_ok ps r /\ adds_up (map r_values l) (r_values r) /\
    (Forall sound_power l -> adds_up (map calendar_rates l) (calendar_rates r)) end ->
  exists c, optional_cumulative o = Ok c /\ power_summed ps l o c.
Proof.
  intros ps l [r|] H.
  - destruct H as (N & P & A & S). unfold optional_cumulative. rewrite (power_truthy ps r P). destruct (cumulative_power_ok ps r P) as (c & E & U & R). rewrite E. cbn [bind].
    eexists. split; [reflexivity|]. cbn. auto 7.
  - exists None. split; [reflexivity|]. exact H.
Qed.

(** electrical and mechanical, and both together *)
Definition powers_ok (ps : list period) (l : list rate_series) (o : option rate_series) : Prop :=
  match o with None => l = [] | Some r => l <> [] /\ power_ok ps r /\ adds_up (map r_values l) (r_values r) /\
    (Forall nearly_sound l -> nearly_sound r /\ adds_up (map calendar_rates l) (calendar_rates r)) end.
Lemma powers_sound : forall ps l o, Forall (power_ok ps) l -> powers_ok ps l o ->
  match o with None => l = [] | Some r => l <> [] /\ power_ok ps r /\ adds_up (map r_values l) (r_values r) /\
    (Forall sound_power l -> adds_up (map calendar_rates l) (calendar_rates r)) end.
Proof.
  intros ps l [r|] F H; auto. destruct H as (N & P & A & S). repeat split; auto; try apply P. intros X. apply S. rewrite Forall_forall in *. intros x I.
  apply (sound_nearly ps); [now apply F|now apply X].
Qed.
Lemma aggregate_powers : forall ps l, Forall (power_ok ps) l -> exists o, aggregate_power l = Ok o /\ powers_ok ps l o.
Proof.
  intros ps l F. pose proof (aggregate_power_ok ps l F) as H. destruct l as [|p l]; [exists None; split; [exact H|reflexivity]|].
  destruct H as (s & E & H). exists (Some s). split; [exact E|]. split; [discriminate|]. exact H.
Qed.
Lemma both_ok : forall ps la lb a b f, powers_ok ps la a -> powers_ok ps lb b ->
  exists o, both_powers a b f = Ok o /\ powers_ok ps (la ++ lb) o.
Proof.
  intros ps la lb [x|] [y|] f Ha Hb; unfold both_powers.
  - destruct Ha as (Na & (Pa & Ua & Ta) & Aa & Sa), Hb as (Nb & (Pb & Ub & Tb) & Ab & Sb).
    rewrite (power_truthy ps x), (power_truthy ps y) by (repeat split; auto; apply Pa || apply Pb). cbn [andb].
    destruct (add_on ps x y Pa Pb) as (s & E & Ps & Us & Ts & Vs & _); [congruence|congruence|]. rewrite E. cbn [bind].
    exists (Some s). split; [reflexivity|]. split; [destruct la; [congruence|discriminate]|]. split; [repeat split; try apply Ps; congruence|].
    assert (adds_up [r_values x; r_values y] (r_values s)) as A1.
    { intros k. rewrite Vs, number_at_sum; [cbn; ring|]. destruct (on_periods_len _ _ Pa) as [-> _]. now destruct (on_periods_len _ _ Pb) as [-> _]. }
    split; [rewrite map_app; now apply (adds_up_app _ _ (r_values x) (r_values y))|]. rewrite Forall_app. intros [Xa Xb].
    destruct (Sa Xa) as [Na' Ca]. destruct (Sb Xb) as [Nb' Cb]. destruct (add_sound ps x y s) as [Ns Cs]; auto; [congruence|]. split; auto.
    rewrite map_app. apply (adds_up_app _ _ (calendar_rates x) (calendar_rates y)); auto. intros k. rewrite Cs. cbn. ring.
  - cbn in Hb. subst lb. rewrite app_nil_r. exists (Some x). split; [|exact Ha]. destruct Ha as (_ & P & _). rewrite (power_truthy ps x P). now destruct f.
  - cbn in Ha. subst la. exists (Some y). split; [|exact Hb]. destruct Hb as (_ & P & _). rewrite (power_truthy ps y P). now destruct f.
  - cbn in Ha, Hb. subst. exists None. split; [now destruct f|reflexivity].
Qed.
Lemma powers_swap : forall ps la lb o, powers_ok ps (la ++ lb) o -> powers_ok ps (lb ++ la) o.
Proof.
  assert (forall la lb t, adds_up (la ++ lb) t -> adds_up (lb ++ la) t) as X.
  { intros la lb t H k. rewrite (H k), !map_app, !qsum_app. ring. }
  intros ps la lb [r|] H.
  - destruct H as (N & P & A & S). rewrite map_app in A. split; [destruct la, lb; try discriminate; cbn in *; congruence|]. split; auto. rewrite map_app. split; [now apply X|].
    intros F. destruct S as [S1 S2]; [apply Forall_app in F as [F1 F2]; now apply Forall_app|]. split; auto. rewrite map_app in *. now apply X.
  - cbn in *. apply app_eq_nil in H as [-> ->]. reflexivity.
Qed.

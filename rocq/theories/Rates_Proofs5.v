From Coq Require Import PeanoNat.
From Verif Require Import QcTac Base BaseLemmas Num Time_Model Time_Spec Time_Proofs Time_Proofs2 Time_Proofs3 Units_Model Units_Proofs Rates_Model Rates_Spec Rates_Proofs Rates_Proofs2 Rates_Proofs3 Rates_Proofs4.
Local Open Scope Z_scope.

(** ** C14: addition *)
Lemma num_eqb_spec : forall a b, num_eqb a b = true <-> a = b.
Proof.
  intros [x|] [y|]; cbn; split; intros H; try discriminate; try reflexivity.
  - apply Qceqb_eq in H. congruence.
  - injection H as ->. now apply Qceqb_eq.
Qed.
Lemma rate_type_eqb_spec : forall a b, rate_type_eqb a b = true <-> a = b.
Proof. intros [] []; cbn; split; easy. Qed.

Lemma elementwise_sum_eq : forall a b, length a = length b ->
  elementwise_sum a b = Ok (map2 (fun x y => Some (nan_zero x + nan_zero y)%Qc) a b).
Proof. intros. unfold elementwise_sum. now apply np_broadcast_same. Qed.

Definition sum_rates := map2 (fun x y => Some (nan_zero x + nan_zero y)%Qc).

Lemma rate_add_eq : forall a b, rate_well_formed a -> rate_well_formed b -> length (r_periods a) = length (r_periods b) ->
  r_unit a = r_unit b -> r_type a = r_type b ->
  rate_add a b = Ok (mkRate (r_periods a) (sum_rates (r_values a) (r_values b)) (r_unit a) (r_type a)
    (if list_eqb num_eqb (r_regularity a) (r_regularity b) then r_regularity a
     else map2 ndiv (sum_rates (calendar_rates a) (calendar_rates b)) (sum_rates (stream_rates a) (stream_rates b)))).
Proof.
  intros a b Wa Wb L Hu Ht. pose proof Wa as (_ & _ & La & Ra). pose proof Wb as (_ & _ & Lb & Rb).
  pose proof (calendar_rates_length _ Wa). pose proof (calendar_rates_length _ Wb).
  pose proof (stream_rates_length _ Wa). pose proof (stream_rates_length _ Wb).
  unfold rate_add. rewrite Hu, unit_eqb_refl. cbn [negb].
  replace (rate_type_eqb (r_type a) (r_type b)) with true by (symmetry; now apply rate_type_eqb_spec). cbn [negb].
  rewrite elementwise_sum_eq by congruence. cbn [bind]. fold sum_rates.
  assert (length (sum_rates (r_values a) (r_values b)) = length (r_periods a)) as Ls
    by (unfold sum_rates; rewrite map2_length_eq; congruence).
  destruct (list_eqb num_eqb (r_regularity a) (r_regularity b)).
  - unfold make_rate. rewrite Ls, Ra, !Nat.eqb_refl. reflexivity.
  - rewrite !to_calendar_day_eq, !to_stream_day_eq by assumption. cbn [bind r_values].
    rewrite !elementwise_sum_eq by congruence. cbn [bind]. fold sum_rates.
    assert (length (sum_rates (calendar_rates a) (calendar_rates b)) = length (r_periods a)) as Lc
      by (unfold sum_rates; rewrite map2_length_eq; congruence).
    assert (length (sum_rates (stream_rates a) (stream_rates b)) = length (r_periods a)) as Lt
      by (unfold sum_rates; rewrite map2_length_eq; congruence).
    rewrite np_broadcast_same by congruence. cbn [bind]. unfold make_rate.
    rewrite map2_length_eq by congruence. rewrite Ls, Lc, !Nat.eqb_refl. reflexivity.
Qed.

Theorem rate_add_proof : forall a b, rate_well_formed a -> rate_well_formed b -> r_periods a = r_periods b ->
  r_unit a = r_unit b -> r_type a = r_type b ->
  exists s, rate_add a b = Ok s /\ r_periods s = r_periods a /\ r_unit s = r_unit a /\ r_type s = r_type a /\
    rate_well_formed s /\
    forall k x y g h ca cb sa sb,
      nth_error (r_values a) k = Some (Some x) -> nth_error (r_values b) k = Some (Some y) ->
      nth_error (r_regularity a) k = Some (Some g) -> nth_error (r_regularity b) k = Some (Some h) ->
      nth_error (calendar_rates a) k = Some (Some ca) -> nth_error (calendar_rates b) k = Some (Some cb) ->
      nth_error (stream_rates a) k = Some (Some sa) -> nth_error (stream_rates b) k = Some (Some sb) ->
      nth_error (r_values s) k = Some (Some (x + y)%Qc) /\
      (r_regularity a = r_regularity b \/ ((sa + sb)%Qc <> 0%Qc /\ (r_type a = CALENDAR_DAY -> (ca + cb)%Qc <> 0%Qc)) ->
       nth_error (calendar_rates s) k = Some (Some (ca + cb)%Qc) /\
       nth_error (stream_rates s) k = Some (Some (sa + sb)%Qc)).
Proof.
  intros a b Wa Wb Ep Hu Ht. pose proof Wa as (Hc & Hne & La & Ra). pose proof Wb as (_ & _ & Lb & Rb).
  rewrite rate_add_eq; auto; [|now rewrite Ep]. eexists. split; [reflexivity|]. cbn [r_periods r_unit r_type].
  do 3 (split; [reflexivity|]). split.
  { split; [exact Hc|]. split; [exact Hne|]. cbn [r_periods r_values r_regularity]. split.
    - unfold sum_rates. rewrite map2_length_eq; congruence.
    - destruct (list_eqb _ _ _); [exact Ra|]. unfold sum_rates.
      pose proof (calendar_rates_length _ Wa). pose proof (calendar_rates_length _ Wb).
      pose proof (stream_rates_length _ Wa). pose proof (stream_rates_length _ Wb).
      rewrite !map2_length_eq; try congruence. rewrite !map2_length_eq; congruence. }
  intros k x y g h ca cb sa sb Hx Hy Hg Hh Hca Hcb Hsa Hsb.
  assert (nth_error (sum_rates (r_values a) (r_values b)) k = Some (Some (x + y)%Qc)) as Hs
    by (unfold sum_rates; rewrite nth_error_map2, Hx, Hy; reflexivity).
  cbn [r_values]. split; [exact Hs|]. intros Hcase.
  remember (if list_eqb num_eqb (r_regularity a) (r_regularity b) then r_regularity a
     else map2 ndiv (sum_rates (calendar_rates a) (calendar_rates b)) (sum_rates (stream_rates a) (stream_rates b))) as reg eqn:Hreg.
  cut (nth_error match r_type a with CALENDAR_DAY => sum_rates (r_values a) (r_values b)
                 | STREAM_DAY => map2 nmul (sum_rates (r_values a) (r_values b)) reg end k = Some (Some (ca + cb)%Qc) /\
       nth_error match r_type a with STREAM_DAY => sum_rates (r_values a) (r_values b)
                 | CALENDAR_DAY => map2 (fun (r reg : num) => match reg with
                         | Some g => if Qc_eq_dec g 0 then Some 0%Qc else option_map (fun x => x / g)%Qc r
                         | None => None end) (sum_rates (r_values a) (r_values b)) reg end k = Some (Some (sa + sb)%Qc)); [exact (fun H => H)|].
  assert (nth_error (calendar_rates a) k = Some (match r_type a with CALENDAR_DAY => Some x | STREAM_DAY => Some (x * g)%Qc end)) as E1
    by (unfold calendar_rates; destruct (r_type a); rewrite ?nth_error_map2, Hx, ?Hg; reflexivity).
  assert (nth_error (calendar_rates b) k = Some (match r_type a with CALENDAR_DAY => Some y | STREAM_DAY => Some (y * h)%Qc end)) as E2
    by (unfold calendar_rates; rewrite <- Ht; destruct (r_type a); rewrite ?nth_error_map2, Hy, ?Hh; reflexivity).
  assert (nth_error (stream_rates a) k = Some (match r_type a with STREAM_DAY => Some x
            | CALENDAR_DAY => if Qc_eq_dec g 0 then Some 0%Qc else Some (x / g)%Qc end)) as E3
    by (unfold stream_rates; destruct (r_type a); rewrite ?nth_error_map2, Hx, ?Hg; reflexivity).
  assert (nth_error (stream_rates b) k = Some (match r_type a with STREAM_DAY => Some y
            | CALENDAR_DAY => if Qc_eq_dec h 0 then Some 0%Qc else Some (y / h)%Qc end)) as E4
    by (unfold stream_rates; rewrite <- Ht; destruct (r_type a); rewrite ?nth_error_map2, Hy, ?Hh; reflexivity).
  destruct (list_eqb num_eqb (r_regularity a) (r_regularity b)) eqn:El; subst reg.
  - apply list_eqb_spec in El; [|apply num_eqb_spec].
    assert (g = h) as <- by (rewrite <- El in Hh; congruence).
    rewrite Hca in E1; rewrite Hcb in E2; rewrite Hsa in E3; rewrite Hsb in E4.
    destruct (r_type a).
    + rewrite nth_error_map2, Hs, Hg. injection E1 as ->. injection E2 as ->. injection E3 as ->. injection E4 as ->.
      split; [cbn [nmul num_lift2]; do 2 f_equal; ring|reflexivity].
    + rewrite nth_error_map2, Hs, Hg. injection E1 as ->. injection E2 as ->. split; [reflexivity|].
      destruct (Qc_eq_dec g 0); injection E3 as ->; injection E4 as ->; cbn [option_map].
      * reflexivity.
      * do 2 f_equal. field. assumption.
  - destruct Hcase as [Hcase|[Hz1 Hz2]].
    { apply (list_eqb_spec _ _ num_eqb_spec) in Hcase. congruence. }
    assert (nth_error (map2 ndiv (sum_rates (calendar_rates a) (calendar_rates b)) (sum_rates (stream_rates a) (stream_rates b))) k
            = Some (Some ((ca + cb) / (sa + sb))%Qc)) as Hr.
    { unfold sum_rates. rewrite !nth_error_map2, Hca, Hcb, Hsa, Hsb. cbn [nan_zero ndiv].
      replace (Qceqb (sa + sb) 0) with false by (symmetry; now apply Qceqb_neq). reflexivity. }
    rewrite Hca in E1; rewrite Hcb in E2; rewrite Hsa in E3; rewrite Hsb in E4.
    destruct (r_type a).
    + rewrite nth_error_map2, Hs, Hr. injection E3 as ->. injection E4 as ->. cbn [nmul num_lift2].
      split; [do 2 f_equal; field; assumption|reflexivity].
    + rewrite nth_error_map2, Hs, Hr. injection E1 as ->. injection E2 as ->. split; [reflexivity|].
      specialize (Hz2 eq_refl). clear E3 E4. destruct (Qc_eq_dec ((x + y) / (sa + sb)) 0) as [E|E].
      * elim Hz2. transitivity ((x + y) / (sa + sb) * (sa + sb))%Qc; [field; assumption|]. rewrite E. ring.
      * cbn [option_map]. do 2 f_equal. field. split; assumption.
Qed.

Theorem rate_add_refuses_proof : forall a b, r_unit a <> r_unit b \/ r_type a <> r_type b -> rate_add a b = Err ValueError.
Proof.
  intros a b H. unfold rate_add. destruct (unit_eqb (r_unit a) (r_unit b)) eqn:E; [|reflexivity]. cbn [negb].
  destruct (rate_type_eqb (r_type a) (r_type b)) eqn:E2; [|reflexivity].
  apply unit_eqb_eq in E. apply rate_type_eqb_spec in E2. tauto.
Qed.

Lemma sum_rates_comm : forall l m, sum_rates l m = sum_rates m l.
Proof.
  unfold sum_rates. induction l as [|x l IH]; intros [|y m]; cbn; auto. rewrite IH. f_equal. f_equal. ring.
Qed.
Theorem rate_add_comm_proof : forall a b, rate_well_formed a -> rate_well_formed b -> r_periods a = r_periods b ->
  rate_add a b = rate_add b a.
Proof.
  intros a b Wa Wb Ep.
  destruct (unit_eqb (r_unit a) (r_unit b)) eqn:Eu.
  2:{ assert (r_unit a <> r_unit b) as N by (intros E; apply unit_eqb_eq in E; congruence).
      rewrite !rate_add_refuses_proof; auto. }
  destruct (rate_type_eqb (r_type a) (r_type b)) eqn:Et.
  2:{ assert (r_type a <> r_type b) as N by (intros E; apply rate_type_eqb_spec in E; congruence).
      rewrite !rate_add_refuses_proof; auto. }
  apply unit_eqb_eq in Eu. apply rate_type_eqb_spec in Et.
  rewrite !rate_add_eq by (auto; now rewrite Ep). f_equal.
  rewrite Ep, Eu, Et, (sum_rates_comm (r_values a)). f_equal.
  rewrite (sum_rates_comm (calendar_rates a)), (sum_rates_comm (stream_rates a)).
  destruct (list_eqb num_eqb (r_regularity a) (r_regularity b)) eqn:E1;
  destruct (list_eqb num_eqb (r_regularity b) (r_regularity a)) eqn:E2; auto.
  - now apply (list_eqb_spec _ _ num_eqb_spec) in E1.
  - apply (list_eqb_spec _ _ num_eqb_spec) in E1. rewrite E1 in E2.
    assert (list_eqb num_eqb (r_regularity b) (r_regularity b) = true) by now apply (list_eqb_spec _ _ num_eqb_spec). congruence.
  - apply (list_eqb_spec _ _ num_eqb_spec) in E2. rewrite E2 in E1.
    assert (list_eqb num_eqb (r_regularity a) (r_regularity a) = true) by now apply (list_eqb_spec _ _ num_eqb_spec). congruence.
Qed.

(** different regularity elsewhere, both rates zero here: the sum has no calendar-day rate here *)
Theorem rate_add_refuted_proof : exists a b s,
  rate_well_formed a /\ rate_well_formed b /\ r_periods a = r_periods b /\ r_unit a = r_unit b /\ r_type a = r_type b /\
  rate_add a b = Ok s /\
  nth_error (calendar_rates a) 0 = Some (Some 0%Qc) /\ nth_error (calendar_rates b) 0 = Some (Some 0%Qc) /\
  nth_error (r_regularity a) 0 = Some (Some 1%Qc) /\ nth_error (r_regularity b) 0 = Some (Some 1%Qc) /\
  nth_error (calendar_rates s) 0 = Some None.
Proof.
  exists (mkRate [mkPeriod 0 10; mkPeriod 10 20] [Some 0%Qc; Some 1%Qc] KILO_PER_DAY STREAM_DAY [Some 1%Qc; Some 1%Qc]),
         (mkRate [mkPeriod 0 10; mkPeriod 10 20] [Some 0%Qc; Some 1%Qc] KILO_PER_DAY STREAM_DAY [Some 1%Qc; Some (qc 1 2)]).
  eexists. split; [repeat split; try discriminate; unfold nonempty; cbn; lia|].
  split; [repeat split; try discriminate; unfold nonempty; cbn; lia|].
  repeat split; try reflexivity;
  (cbn; do 2 f_equal; ring).
Qed.

(** ** C17: fill *)
Lemma fresh_fold : forall V (v : V) new acc, NoDup (map fst acc ++ new) ->
  fold_left (fun d p => dict_set period_eqb p v d) new acc = acc ++ map (fun p => (p, v)) new.
Proof.
  intros V v new; induction new as [|p new IH]; intros acc H; cbn; [now rewrite app_nil_r|].
  rewrite dict_set_keys_notin.
  - rewrite IH; [now rewrite <- app_assoc|]. rewrite map_app. cbn. now rewrite <- app_assoc.
  - apply period_eqb_spec.
  - intros Hp. apply NoDup_remove_2 in H. apply H. apply in_or_app. now left.
Qed.

Lemma overwrite_fold : forall V (l : list (period * V)) d,
  (forall p, In p (map fst l) -> In p (map fst d)) -> NoDup (map fst l) ->
  let d' := fold_left (fun d tv => match dict_get period_eqb (fst tv) d with
                   | Some _ => dict_set period_eqb (fst tv) (snd tv) d | None => d end) l d in
  map fst d' = map fst d /\
  forall p, dict_get period_eqb p d' = match dict_get period_eqb p l with Some v => Some v | None => dict_get period_eqb p d end.
Proof.
  intros V l; induction l as [|[p v] l IH]; intros d Hin Hnd; cbv zeta; [split; auto|].
  cbn [fold_left fst snd]. inversion Hnd as [|? ? N Hnd']; subst.
  destruct (dict_get period_eqb p d) as [w|] eqn:Eg.
  2:{ apply dict_get_None in Eg; [|apply period_eqb_spec]. elim Eg. apply Hin. now left. }
  assert (map fst (dict_set period_eqb p v d) = map fst d) as Ek
    by (apply dict_set_keys_in; [apply period_eqb_spec|apply Hin; now left]).
  destruct (IH (dict_set period_eqb p v d)) as [I1 I2]; auto.
  { intros q Hq. rewrite Ek. apply Hin. now right. }
  split; [now rewrite I1|]. intros q. rewrite I2. cbn [dict_get].
  rewrite dict_get_set by apply period_eqb_spec. destruct (period_eqb q p) eqn:E; auto.
  apply period_eqb_spec in E. subst q.
  destruct (dict_get period_eqb p l) eqn:El; auto. apply dict_get_In in El; [|apply period_eqb_spec].
  elim N. apply in_map_iff. now exists (p, v0).
Qed.

Theorem fill_proof : forall V (s : series V) new fillna,
  length (s_values s) = length (s_periods s) -> NoDup (s_periods s) -> NoDup new ->
  (forall p, In p (s_periods s) -> In p new) ->
  exists vs, fill_values_for_new_periods s new fillna = Ok (mkSeries new vs (s_unit s)) /\ length vs = length new /\
    forall k q, nth_error new k = Some q ->
      (forall i, nth_error (s_periods s) i = Some q -> nth_error vs k = nth_error (s_values s) i) /\
      (~ In q (s_periods s) -> nth_error vs k = Some fillna).
Proof.
  intros V s new fillna L Hnd Hnn Hin. unfold fill_values_for_new_periods.
  replace (existsb _ (s_periods s)) with false.
  2:{ symmetry. apply not_true_is_false. intros E. apply existsb_exists in E as (p & Hp & E).
      apply negb_true_iff in E. apply not_true_iff_false in E. apply E. apply existsb_exists. exists p. split; auto.
      now apply period_eqb_spec. }
  rewrite fresh_fold by exact Hnn. cbn [app].
  assert (map fst (zip (s_periods s) (s_values s)) = s_periods s) as Ez.
  { unfold zip. revert L. generalize (s_values s) as vs. generalize (s_periods s) as ps.
    induction ps as [|p ps IH]; intros [|v vs] L; try discriminate; auto. cbn. f_equal. apply IH. now injection L. }
  destruct (overwrite_fold _ (zip (s_periods s) (s_values s)) (map (fun p => (p, fillna)) new)) as [K G].
  { rewrite Ez, map_map, map_id. exact Hin. }
  { now rewrite Ez. }
  set (filled := fold_left _ (zip _ _) _) in *. rewrite map_map in K. cbn [fst] in K. rewrite map_id in K.
  exists (map snd filled). assert (length (map snd filled) = length new) as Lf
    by (rewrite map_length, <- K, map_length; reflexivity).
  split; [unfold make_series; now rewrite Lf, Nat.eqb_refl|]. split; [exact Lf|].
  intros k q Hq.
  assert (exists v, nth_error filled k = Some (q, v)) as [v Hv].
  { rewrite <- K, nth_error_map in Hq. destruct (nth_error filled k) as [[q' v]|]; [|discriminate].
    injection Hq as <-. eauto. }
  assert (dict_get period_eqb q filled = Some v) as Gv.
  { apply dict_get_NoDup; [apply period_eqb_spec|now rewrite K|eapply nth_error_In; eauto]. }
  rewrite nth_error_map, Hv. cbn [option_map snd]. rewrite G in Gv. split.
  - intros i Hi. destruct (nth_error_lt _ (s_values s) i) as [w Hw].
    { rewrite L. apply nth_error_Some. congruence. }
    rewrite Hw. assert (In (q, w) (zip (s_periods s) (s_values s))) as Hqw.
    { apply (nth_error_In _ i). unfold zip. clear -Hi Hw. revert i Hi Hw. generalize (s_values s) as vs. generalize (s_periods s) as ps.
      induction ps as [|p ps IH]; intros [|u vs] [|i] Hi Hw; cbn in *; try discriminate; auto. congruence. }
    assert (dict_get period_eqb q (zip (s_periods s) (s_values s)) = Some w) as E.
    { apply dict_get_NoDup; [apply period_eqb_spec|now rewrite Ez|exact Hqw]. }
    rewrite E in Gv. congruence.
  - intros Hn. assert (dict_get period_eqb q (zip (s_periods s) (s_values s)) = None) as E.
    { apply dict_get_None; [apply period_eqb_spec|]. now rewrite Ez. }
    rewrite E in Gv. rewrite <- Gv. apply dict_get_NoDup; [apply period_eqb_spec| |].
    + rewrite map_map, map_id. exact Hnn.
    + apply in_map_iff. exists q. split; auto. eapply nth_error_In; eauto.
Qed.
Theorem fill_refuses_proof : forall V (s : series V) new fillna p,
  In p (s_periods s) -> ~ In p new -> fill_values_for_new_periods s new fillna = Err ValueError.
Proof.
  intros V s new fillna p Hp Hn. unfold fill_values_for_new_periods.
  replace (existsb _ (s_periods s)) with true; [reflexivity|]. symmetry. apply existsb_exists. exists p. split; auto.
  apply negb_true_iff. apply not_true_is_false. intros E. apply existsb_exists in E as (q & Hq & E).
  apply period_eqb_spec in E. subst q. contradiction.
Qed.

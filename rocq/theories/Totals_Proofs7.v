(** Emission intensity. *)
From Coq Require Import PeanoNat String Permutation.
From Verif Require Import QcTac BaseLemmas Num Time_Model Time_Spec Units_Model Units_Proofs Rates_Model Rates_Spec Rates_Proofs Rates_Proofs2 Rates_Proofs3
  Rates_Proofs4 Rates_Proofs5 Stream_Proofs System_Proofs2 Graph_Model Graph_Spec Totals_Model Totals_Spec Totals_Proofs Totals_Proofs2 Totals_Proofs3 Totals_Proofs4 Base.
Local Open Scope list_scope.
Local Open Scope Qc_scope.

Lemma produced_step : forall ps rates k, produced ps rates k - match k with O => 0 | S j => produced ps rates j end = produced_in ps rates k.
Proof.
  intros ps rates k. unfold produced_in. transitivity (number_at rates k * days_of ps k).
  - destruct k as [|j]; rewrite !produced_seq.
    + cbn [seq map]. assert (forall y m, qsum (y :: m) = y + qsum m) as Q by reflexivity. rewrite Q. cbn [qsum fold_right]. ring.
    + rewrite (seq_S (S j) 0), map_app, qsum_app. assert (forall y m, qsum (y :: m) = y + qsum m) as Q by reflexivity. cbn [map]. rewrite Q. cbn [qsum fold_right plus]. ring.
  - unfold days_of. destruct (nth_error ps k); [reflexivity|ring].
Qed.
(** a cumulative is a list of numbers *)
Definition cumulates (ps : list period) (f : nat -> Qc) (s : series num) : Prop :=
  s_periods s = ps /\ length (s_values s) = length ps /\ forall k, (k < length ps)%nat -> nth_error (s_values s) k = Some (Some (f k)).
Lemma runs_cumulates : forall ps c rates s, runs_up ps c rates s -> cumulates ps (fun k => c * produced ps rates k) s.
Proof. intros ps c rates s H. exact H. Qed.
Lemma divide_value : forall x y : Qc, (if nonzero (Some y) then ndiv (Some x) (Some y) else None) = per x y.
Proof.
  intros x y. unfold per, nonzero, ndiv. destruct (Qc_eq_dec y 0) as [->|N]; [reflexivity|]. replace (Qceqb y 0) with false by (symmetry; now apply Qceqb_neq). reflexivity.
Qed.
Lemma divide_ok : forall ps f h a b u, cumulates ps f a -> cumulates ps h b -> intensity_unit (s_unit a) (s_unit b) = Ok u ->
  exists q, divide_series a b = Ok q /\ s_unit q = u /\ intensity_is ps q (fun k => per (f k) (h k)).
Proof.
  intros ps f h a b u (Pa & La & Va) (Pb & Lb & Vb) U. unfold divide_series. rewrite U. cbn [bind]. rewrite La, Lb, Nat.eqb_refl. cbn [negb].
  unfold make_series. rewrite map2_length_eq by congruence. rewrite Pa, La, Nat.eqb_refl. eexists. split; [reflexivity|]. split; [reflexivity|].
  unfold intensity_is. cbn [s_periods s_values]. split; [reflexivity|]. split; [rewrite map2_length_eq; congruence|]. intros k K. rewrite nth_error_map2, (Va k K), (Vb k K). cbn match.
  now rewrite divide_value.
Qed.
Lemma diff_nth : forall l k x y, nth_error l k = Some (Some x) -> nth_error l (S k) = Some (Some y) -> nth_error (np_diff l) k = Some (Some (y - x)).
Proof.
  induction l as [|a l IH]; intros k x y A B; [destruct k; discriminate|]. destruct l as [|b l]; [destruct k; discriminate|].
  destruct k as [|k].
  - cbn in A, B. injection A as ->. injection B as ->. reflexivity.
  - cbn [np_diff nth_error]. apply IH; auto.
Qed.
Lemma diff_length : forall l, length (np_diff l) = pred (length l).
Proof. induction l as [|a [|b l] IH]; cbn; auto. Qed.
Lemma to_volumes_ok : forall ps f s, cumulates ps f s -> exists v, cumulative_to_volumes s = Ok v /\ s_unit v = s_unit s /\
  cumulates ps (fun k => f k - match k with O => 0 | S j => f j end) v.
Proof.
  intros ps f s (P & L & V). unfold cumulative_to_volumes, make_series. rewrite diff_length. cbn [length pred]. rewrite P, L, Nat.eqb_refl. eexists. split; [reflexivity|]. split; [reflexivity|].
  unfold cumulates. cbn [s_periods s_values]. split; [reflexivity|]. split; [rewrite diff_length; exact L|]. intros k K. apply diff_nth.
  - destruct k as [|j]; [reflexivity|]. cbn [nth_error]. apply V. lia.
  - cbn [nth_error]. now apply V.
Qed.
Lemma make_ok : forall ps f h a b u, cumulates ps f a -> cumulates ps h b -> intensity_unit (s_unit a) (s_unit b) = Ok u -> make_intensity a b = Ok u.
Proof. intros ps f h a b u (_ & La & _) (_ & Lb & _) U. unfold make_intensity. rewrite U. cbn [bind]. now rewrite La, Lb, Nat.eqb_refl. Qed.
Lemma cumulative_ok : forall ps f h a b u, cumulates ps f a -> cumulates ps h b -> intensity_unit (s_unit a) (s_unit b) = Ok u ->
  exists q, intensity_cumulative a b = Ok q /\ s_unit q = u /\ intensity_is ps q (fun k => per (f k) (h k)).
Proof.
  intros ps f h a b u A B U. unfold intensity_cumulative. rewrite (make_ok ps f h a b u A B U). cbn [bind]. destruct (divide_ok ps f h a b u A B U) as (q & E & _ & I1 & I2 & I3). rewrite E. cbn [bind].
  eexists. split; [reflexivity|]. split; [reflexivity|]. split; [apply A|]. auto.
Qed.
Lemma periods_ok : forall ps f h a b u, cumulates ps f a -> cumulates ps h b -> intensity_unit (s_unit a) (s_unit b) = Ok u ->
  exists q, intensity_for_periods a b = Ok q /\ s_unit q = u /\
    intensity_is ps q (fun k => per (f k - match k with O => 0 | S j => f j end) (h k - match k with O => 0 | S j => h j end)).
Proof.
  intros ps f h a b u A B U. unfold intensity_for_periods. rewrite (make_ok ps f h a b u A B U). cbn [bind].
  destruct (to_volumes_ok ps f a A) as (va & Ea & Ua & Va). destruct (to_volumes_ok ps h b B) as (vb & Eb & Ub & Vb). rewrite Ea, Eb. cbn [bind].
  destruct (divide_ok ps _ _ va vb u Va Vb) as (q & E & _ & I1 & I2 & I3); [congruence|]. rewrite E. cbn [bind]. eexists. split; [reflexivity|]. split; [reflexivity|]. split; [apply A|]. auto.
Qed.
Lemma unit_change : forall ps f s u c conv, cumulates ps f s -> unit_eqb u (s_unit s) = false -> unit_to (s_unit s) u = Ok conv -> (forall x, conv x = c * x) ->
  exists t, series_to_unit s u = Ok t /\ s_unit t = u /\ cumulates ps (fun k => c * f k) t.
Proof.
  intros ps f s u c conv (P & L & V) N E C. unfold series_to_unit. rewrite N, E. cbn [bind]. eexists. split; [reflexivity|]. split; [reflexivity|]. unfold cumulates. cbn [s_periods s_values].
  split; [exact P|]. split; [now rewrite map_length|]. intros k K. rewrite nth_error_map, (V k K). cbn. now rewrite C.
Qed.
Lemma intensity_ext : forall ps s f h, (forall k, f k = h k) -> intensity_is ps s f -> intensity_is ps s h.
Proof. intros ps s f h E (P & L & V). split; auto. split; auto. intros k K. now rewrite <- E, V. Qed.

Lemma co2_found : forall lower emissions co2, first_co2 lower emissions co2 -> co2_emission lower emissions = Ok co2.
Proof.
  intros lower emissions co2 (before & name & after & -> & L & B). unfold co2_emission. induction before as [|e l IH]; cbn [app List.find fst].
  - rewrite L. cbn. reflexivity.
  - destruct (String.eqb_spec (lower (fst e)) "co2") as [Q|Q]; [exfalso; apply (B e); auto; now left|]. apply IH. intros; apply B; now right.
Qed.
Theorem intensity_proof : forall lower ps export emissions co2 yearly, export_ok ps export -> first_co2 lower emissions co2 -> emission_ok ps ("co2"%string, co2) ->
  exists r, intensity_results_of lower export emissions yearly = Ok r /\
    let kg := fun k => qz 1000 * produced ps (calendar_rates co2) k in let kg_in := fun k => qz 1000 * produced_in ps (calendar_rates co2) k in
    let sm3 := produced ps (r_values export) in let sm3_in := produced_in ps (r_values export) in
    s_unit (i_sm3 r) = KG_SM3 /\ intensity_is ps (i_sm3 r) (fun k => per (kg k) (sm3 k)) /\
    s_unit (i_boe r) = KG_BOE /\ intensity_is ps (i_boe r) (fun k => per (kg k) (qc 629 100 * sm3 k)) /\
    match i_yearly_sm3 r, i_yearly_boe r with
    | Some y, Some z => yearly = true /\ s_unit y = KG_SM3 /\ intensity_is ps y (fun k => per (kg_in k) (sm3_in k)) /\
                        s_unit z = KG_BOE /\ intensity_is ps z (fun k => per (kg_in k) (qc 629 100 * sm3_in k))
    | None, None => yearly = false
    | _, _ => False
    end.
Proof.
  intros lower ps export emissions co2 yearly (Px & Ux & Tx) C2 [Pc Uc]. apply co2_found in C2. cbn [snd] in *. unfold intensity_results_of.
  destruct (cumulative_of_ok ps export STANDARD_CUBIC_METER Px) as (ex & Ex & Uex & Rex); [now rewrite Ux|]. rewrite Ex, C2. cbn [bind]. rewrite (calendar_of_calendar export Tx) in Rex.
  assert (exists kg, cumulative_in KILO co2 = Ok kg /\ s_unit kg = KILO /\ runs_up ps (qz 1000) (calendar_rates co2) kg) as (kg & Ek & Uk & Rk).
  { destruct (on_periods_len _ _ Pc) as (_ & _ & L). destruct Pc as [W <-]. destruct (volumes_either_proof co2 TONS W) as [E _]; [now rewrite Uc|]. unfold cumulative_in. rewrite E. cbn [bind].
    unfold series_to_unit. cbn [s_unit s_values s_periods]. change (unit_eqb KILO TONS) with false. cbn match. change (unit_to TONS KILO) with (Ok (fun x => x * qz 1000)). cbn [bind].
    apply cumulative_runs; auto. intros x. ring. }
  rewrite Ek. cbn [bind]. unfold series_to_unit at 1. rewrite Uex. change (unit_eqb STANDARD_CUBIC_METER STANDARD_CUBIC_METER) with true. cbn match. cbn [bind].
  pose proof (runs_cumulates _ _ _ _ Rex) as Cex. pose proof (runs_cumulates _ _ _ _ Rk) as Ck.
  destruct (unit_change ps _ ex BOE (qc 629 100) (fun x => x * qc 629 100) Cex) as (bo & Eb & Ub & Cb); [now rewrite Uex|now rewrite Uex|intros; ring|]. rewrite Eb. cbn [bind].
  assert (intensity_unit (s_unit kg) (s_unit ex) = Ok KG_SM3) as I1 by now rewrite Uk, Uex. assert (intensity_unit (s_unit kg) (s_unit bo) = Ok KG_BOE) as I2 by now rewrite Uk, Ub.
  rewrite (make_ok ps _ _ _ _ _ Ck Cex I1), (make_ok ps _ _ _ _ _ Ck Cb I2). cbn [bind].
  destruct (cumulative_ok ps _ _ _ _ _ Ck Cex I1) as (q1 & Q1 & U1 & V1). destruct (cumulative_ok ps _ _ _ _ _ Ck Cb I2) as (q2 & Q2 & U2 & V2).
  destruct (periods_ok ps _ _ _ _ _ Ck Cex I1) as (q3 & Q3 & U3 & V3). destruct (periods_ok ps _ _ _ _ _ Ck Cb I2) as (q4 & Q4 & U4 & V4). rewrite Q1, Q2, Q3, Q4. cbn [bind].
  assert (forall k, qz 1000 * produced ps (calendar_rates co2) k - match k with O => 0 | S j => qz 1000 * produced ps (calendar_rates co2) j end = qz 1000 * produced_in ps (calendar_rates co2) k) as D1.
  { intros k. rewrite <- produced_step. destruct k; ring. }
  assert (forall k, 1 * produced ps (r_values export) k - match k with O => 0 | S j => 1 * produced ps (r_values export) j end = produced_in ps (r_values export) k) as D2.
  { intros k. rewrite <- produced_step. destruct k; ring. }
  assert (forall k, qc 629 100 * (1 * produced ps (r_values export) k) - match k with O => 0 | S j => qc 629 100 * (1 * produced ps (r_values export) j) end = qc 629 100 * produced_in ps (r_values export) k) as D3.
  { intros k. rewrite <- produced_step. destruct k; ring. }
  assert (intensity_is ps q1 (fun k => per (qz 1000 * produced ps (calendar_rates co2) k) (produced ps (r_values export) k))) as W1.
  { apply (intensity_ext _ _ _ _ (fun k => f_equal (per _) (Qcmult_1_l _)) V1). }
  assert (intensity_is ps q2 (fun k => per (qz 1000 * produced ps (calendar_rates co2) k) (qc 629 100 * produced ps (r_values export) k))) as W2.
  { refine (intensity_ext _ _ _ _ _ V2). intros k. f_equal. ring. }
  assert (intensity_is ps q3 (fun k => per (qz 1000 * produced_in ps (calendar_rates co2) k) (produced_in ps (r_values export) k))) as W3.
  { refine (intensity_ext _ _ _ _ _ V3). intros k. now rewrite D1, D2. }
  assert (intensity_is ps q4 (fun k => per (qz 1000 * produced_in ps (calendar_rates co2) k) (qc 629 100 * produced_in ps (r_values export) k))) as W4.
  { refine (intensity_ext _ _ _ _ _ V4). intros k. now rewrite D1, D3. }
  destruct yearly; cbn [bind]; eexists; (split; [reflexivity|]); cbn [i_sm3 i_boe i_yearly_sm3 i_yearly_boe]; auto 10.
Qed.

(** the intensity so far is the average of the intensities of the periods, weighted by export *)
Theorem weighted_proof : forall ps emitted exported k, (k < length ps)%nat ->
  (forall j, (j <= k)%nat -> produced_in ps exported j = 0 -> produced_in ps emitted j = 0) ->
  produced ps emitted k =
  qsum (map (fun j => nan_zero (per (produced_in ps emitted j) (produced_in ps exported j)) * produced_in ps exported j) (seq 0 (S k))).
Proof.
  intros ps em ex k K H. rewrite produced_seq. f_equal. apply map_ext_in. intros j J. apply in_seq in J.
  replace (number_at em j * days_of ps j) with (produced_in ps em j) by (unfold produced_in, days_of; destruct (nth_error ps j); [reflexivity|ring]).
  unfold per. destruct (Qc_eq_dec (produced_in ps ex j) 0) as [Z|Z]; cbn [nan_zero].
  - rewrite H by (auto; lia). ring.
  - field. exact Z.
Qed.

(** Proofs about the maximum rate of a simplified train. *)
From Coq Require Import List Bool ZArith Lia Permutation Sorted.
From Verif Require Import QcTac Base Num Interp_Model Interp_Spec Interp_Proofs Search_Model Stream_Model Stream_Spec Flash_Model Process_Model Chart_Model Chart_Spec
  Chart_Proofs BaseLemmas Pump_Proofs3 Compressor_Spec Chart_Proofs2 Pump_Proofs Compressor_Proofs Compressor_Proofs2 Compressor_Proofs3 Compressor_Proofs4 Compressor_Proofs5 Compressor_Proofs6 Train_Model
  Simplified_Model Simplified_Spec Simplified_Proofs.
From Verif Require Compressor_Model.
Import ListNotations.
Local Open Scope list_scope.
Local Open Scope Qc_scope.

Lemma widest_ok : forall cs head, regular_chart cs -> right_ends_rise cs -> exists a, maximum_rate_no_choking_at cs head = Ok a /\ widest cs head a.
Proof.
  intros cs head (P & Fa & _) RR. pose proof P as (N & PC & _).
  destruct (slowest_ok cs N) as (c0 & E0 & S0 & I0). destruct (fastest_ok cs N) as (c1 & E1 & S1 & I1).
  destruct (PC c0 I0) as [P0 N0]. destruct (PC c1 I1) as [P1 N1]. destruct (right_end_last c0 P0) as (p0 & F0 & L0).
  unfold maximum_rate_no_choking_at. rewrite E0. cbn [Base.bind]. unfold curve_max_rate.
  replace (last_opt (cv_rate c0)) with (Some (p_rate p0)) by (unfold cv_rate; now rewrite last_opt_map, F0).
  replace (last_opt (cv_head c0)) with (Some (p_head p0)) by (unfold cv_head; now rewrite last_opt_map, F0).
  cbn [of_option Base.bind]. rewrite E1. cbn [Base.bind].
  assert (rising (by_head c1)) as R.
  { unfold by_head. apply sort_rising. rewrite swap_combine, map_map.
    replace (map (fun x => fst (swap x)) (quantity p_head c1)) with (cv_head c1).
    - apply sorted_NoDup. now apply Fa.
    - unfold quantity, cv_head, swap. rewrite map_map. reflexivity. }
  set (data := (p_head p0, p_rate p0) :: by_head c1).
  assert (Q0 : forall p, In p (by_head c1) <-> In p (map (fun p => (p_head p, p_rate p)) (cv_points c1))).
  { intros p. replace (map (fun p => (p_head p, p_rate p)) (cv_points c1)) with (combine (cv_head c1) (cv_rate c1)).
    - unfold by_head. split; intros H; eapply Permutation_in; try exact H; [apply Permutation_sym|]; apply sort_perm.
    - rewrite swap_combine. unfold quantity, swap. rewrite map_map. reflexivity. }
  assert (RD : rising data).
  { split; [|exact R]. intros q H. apply Q0 in H. apply in_map_iff in H. destruct H as (p & <- & H). cbn [fst]. exact (RR c0 c1 p0 p S0 S1 L0 H). }
  destruct (bounded_list (map snd data)) as (lo & hi & B).
  destruct (interp1d_ends_bounds (map fst data) (map snd data) head lo hi) as (m & Em & _); auto.
  { now rewrite !map_length. }
  { discriminate. }
  exists m. split; [exact Em|]. exists c0, c1, p0. split; [exact S0|]. split; [exact S1|]. split; [exact L0|].
  apply (value_at_perm data).
  - intros p. unfold data. cbn [In]. rewrite (Q0 p). reflexivity.
  - rewrite <- (combine_fst_snd _ _ data). apply interp1d_ends_value; auto; [now rewrite !map_length|now rewrite combine_fst_snd].
Qed.
Lemma widest_is : forall cs head a, regular_chart cs -> right_ends_rise cs -> maximum_rate_no_choking_at cs head = Ok a -> widest cs head a.
Proof. intros cs head a R RR E. destruct (widest_ok cs head R RR) as (b & Eb & W). congruence. Qed.

Lemma plausible_iff : forall out h, validate_ph out h = Return tt <-> plausible out h.
Proof.
  intros out h. unfold validate_ph, plausible, vapor_tolerance, ph_tolerance.
  repeat match goal with
  | |- context[Qcleb ?a 0] => let E := fresh in destruct (Qcleb a 0) eqn:E; [split; [discriminate|intros X; apply Qcleb_le in E; exfalso; decompose [and] X; qc_lra]|apply Qcleb_gt in E]
  end.
  destruct (Qcleb (- qc 1 100000) (p_vapor_fraction out)) eqn:A; [apply Qcleb_le in A|apply Qcleb_gt in A].
  2:{ cbn [andb negb]. split; [discriminate|intros X; exfalso; decompose [and] X; qc_lra]. }
  destruct (Qcleb (p_vapor_fraction out) (1 + qc 1 100000)) eqn:B; [apply Qcleb_le in B|apply Qcleb_gt in B].
  2:{ cbn [andb negb]. split; [discriminate|intros X; exfalso; decompose [and] X; qc_lra]. }
  cbn [andb negb]. destruct (Qcltb _ _) eqn:C; [apply Qcltb_lt in C|apply Qcltb_ge in C].
  - split; [discriminate|intros X; exfalso; decompose [and] X; qc_lra].
  - split; [intros _; auto 12|reflexivity].
Qed.

Lemma flash_cases : forall w inlet pressure added,
  match compressor_flash (w_physics w) inlet pressure (s_enthalpy inlet + added) with
  | Return out => leaves_with w inlet pressure added out /\ plausible out (s_enthalpy inlet + added)
  | Raise ThermodynamicError => no_outlet w inlet pressure added
  | Raise _ => True
  end.
Proof.
  intros w inlet pressure added. unfold compressor_flash, no_outlet, leaves_with. cbv zeta.
  destruct (flash_ph (ph_service (w_physics w)) (s_model inlet) pressure (s_enthalpy inlet + added) (Some (s_temperature inlet))) as [out|e] eqn:F.
  - destruct (validate_ph out (s_enthalpy inlet + added)) as [[]|e] eqn:V.
    + split; [reflexivity|]. now apply plausible_iff.
    + right. right. exists out. split; [reflexivity|]. intros X. apply plausible_iff in X. congruence.
  - destruct e; auto.
Qed.

Lemma loop_inv : forall w cs inlet ratio highest, regular_chart cs -> right_ends_rise cs -> top_head cs highest ->
  forall n i z kappa head before a, rate_guess w cs inlet ratio i head z kappa before -> (i + n = 20)%nat -> (0 < n)%nat ->
  max_rate_loop w cs inlet (s_pressure inlet * ratio) ratio highest n z kappa head before = Return a -> rate_found w cs inlet ratio a.
Proof.
  intros w cs inlet ratio highest R RR TH n. induction n as [|n IH]; intros i z kappa head before a G L P E; [lia|].
  cbn [max_rate_loop] in E.
  destruct (obind_inv _ _ _ _ _ E) as (rate & E1 & E2); clear E.
  destruct (obind_inv _ _ _ _ _ E2) as (eff & E3 & E4); clear E2.
  destruct (obind_inv _ _ _ _ _ E4) as (next & E5 & E6); clear E4.
  apply chart_call_inv in E1. apply chart_call_inv in E3. apply campbell_inv in E5.
  assert (W : widens w cs inlet ratio head z kappa rate eff next) by (split; [apply widest_is; assumption|split; assumption]).
  pose proof (flash_cases w inlet (s_pressure inlet * ratio) (work next eff)) as FC. unfold work in FC at 1.
  destruct (compressor_flash (w_physics w) inlet (s_pressure inlet * ratio) (s_enthalpy inlet + next / eff)) as [out|e].
  - destruct FC as [LW PL]. destruct (obind_inv _ _ _ _ _ E6) as (outlet & E7 & E8); clear E6.
    apply new_stream_inv in E7. destruct E7 as [-> _].
    set (c := if Qceqb before 0 then false else Qcltb (Qcabs (rate - before) / Qcabs before) (qc 1 1000)) in *.
    destruct c eqn:C.
    + injection E8 as <-. exists i, head, z, kappa, before, rate, eff, next. split; [lia|]. split; [exact G|]. split; [exact W|]. left.
      split; [exists out; exact LW|]. split; [reflexivity|]. left. apply close_iff. exact C.
    + assert (NC : ~ nearly rate before) by (intros X; apply close_iff in X; fold c in X; congruence).
      destruct n as [|n].
      * cbn [max_rate_loop] in E8. injection E8 as <-. exists i, head, z, kappa, before, rate, eff, next. split; [lia|]. split; [exact G|]. split; [exact W|].
        left. split; [exists out; exact LW|]. split; [reflexivity|]. right. lia.
      * exact (IH (S i) _ _ next rate a (rate_next w cs inlet ratio i head z kappa before rate eff next out G W LW PL NC) ltac:(lia) ltac:(lia) E8).
  - destruct e; try discriminate E6. destruct (Qcltb highest next) eqn:H; [|discriminate E6]. apply Qcltb_lt in H. apply chart_call_inv in E6.
    exists i, head, z, kappa, before, rate, eff, next. split; [lia|]. split; [exact G|]. split; [exact W|]. right.
    split; [exact FC|]. split; [apply widest_is; assumption|]. exists highest. split; assumption.
Qed.

Lemma qz_positive : forall n, (0 < n)%Z -> 0 < qz n.
Proof. intros n H. apply Qclt_this. unfold qz. rewrite !this_Q2Qc. change (QArith_base.inject_Z 0 < QArith_base.inject_Z n)%Q. rewrite <- QArith_base.Zlt_Qlt. exact H. Qed.
Lemma qc_max_is : forall l x, qc_max_of l = Ok x -> In x l /\ forall y, In y l -> y <= x.
Proof.
  intros [|a l] x E; [discriminate E|]. cbn [qc_max_of] in E. injection E as <-.
  enough (K : forall l a, In (fold_left Qcmax l a) (a :: l) /\ forall y, In y (a :: l) -> y <= fold_left Qcmax l a) by apply K.
  clear. induction l as [|b l IH]; intros a.
  - cbn. split; [now left|]. intros y [<-|[]]. apply Qcle_refl.
  - cbn [fold_left]. destruct (IH (Qcmax a b)) as [I B]. split.
    + destruct I as [I|I]; [|right; now right]. rewrite <- I. destruct (Qclt_le_dec a b) as [L|L].
      * right. left. qc_cases; try qc_lra; reflexivity.
      * left. qc_cases; try qc_lra; reflexivity.
    + assert (M : Qcmax a b <= fold_left Qcmax l (Qcmax a b)) by (apply B; now left).
      assert (a <= Qcmax a b /\ b <= Qcmax a b) as [X Y] by (split; qc_cases; qc_lra).
      intros y [<-|[<-|H]]; [qc_lra|qc_lra|]. apply B. now right.
Qed.
Lemma qc_min_is : forall l a, In (fold_left Qcmin l a) (a :: l) /\ forall y, In y (a :: l) -> fold_left Qcmin l a <= y.
Proof.
  induction l as [|b l IH]; intros a.
  - cbn. split; [now left|]. intros y [<-|[]]. apply Qcle_refl.
  - cbn [fold_left]. destruct (IH (Qcmin a b)) as [I B]. split.
    + destruct I as [I|I]; [|right; now right]. rewrite <- I. destruct (Qclt_le_dec a b) as [L|L].
      * left. qc_cases; try qc_lra; reflexivity.
      * right. left. qc_cases; try qc_lra; reflexivity.
    + assert (M : fold_left Qcmin l (Qcmin a b) <= Qcmin a b) by (apply B; now left).
      assert (Qcmin a b <= a /\ Qcmin a b <= b) as [X Y] by (split; qc_cases; qc_lra).
      intros y [<-|[<-|H]]; [qc_lra|qc_lra|]. apply B. now right.
Qed.

Lemma stage_rate_inv : forall w cs ratio inlet q, regular_chart cs -> right_ends_rise cs -> max_rate_of_stage w cs ratio inlet = Return q ->
  1 <= ratio /\ exists a, rate_found w cs inlet ratio a /\ q = a * s_density inlet / s_standard_density inlet * qz 24.
Proof.
  intros w cs ratio inlet q R RR E. unfold max_rate_of_stage in E. destruct (Qcltb ratio 1) eqn:L; [discriminate E|]. apply Qcltb_ge in L. split; [exact L|].
  destruct (obind_inv _ _ _ _ _ E) as (fast & E1 & E2); clear E.
  destruct (obind_inv _ _ _ _ _ E2) as (highest & E3 & E4); clear E2.
  destruct (obind_inv _ _ _ _ _ E4) as (a & E5 & E6); clear E4. injection E6 as <-.
  apply chart_call_inv in E1. apply chart_call_inv in E3.
  assert (FC : fastest cs fast) by (unfold fast_curve in E1; unfold fastest; destruct (last_opt cs); [injection E1 as ->; reflexivity|discriminate E1]).
  destruct (qc_max_is _ _ E3) as [M1 M2].
  assert (TH : top_head cs highest).
  { exists fast. split; [exact FC|]. split; [exact M1|]. intros p H. apply M2. unfold cv_head. now apply in_map. }
  assert (MH : mean_head cs (np_mean (cv_head fast))).
  { exists fast. split; [exact FC|]. unfold np_mean, cv_head. rewrite map_length.
    assert (NZ : qz (Z.of_nat (length (cv_points fast))) <> 0).
    { destruct (cv_points fast) as [|p l] eqn:PP; [unfold cv_head in M1; rewrite PP in M1; destruct M1|]. cbn [length].
      intros X. pose proof (qz_positive (Z.of_nat (S (length l))) ltac:(lia)) as Y. rewrite X in Y. exact (Qclt_not_eq _ _ Y eq_refl). }
    field. exact NZ. }
  exists a. split; [|reflexivity].
  exact (loop_inv w cs inlet ratio highest R RR TH 20 0 _ _ _ _ a (rate_first w cs inlet ratio _ MH) eq_refl ltac:(lia) E5).
Qed.

Lemma stages_rates_inv : forall w m ratio, forall stages p l,
  (forall st, In st stages -> regular_chart (si_chart st) /\ right_ends_rise (si_chart st)) ->
  max_rates_of_stages w m ratio stages p = Return l ->
  length l = length stages /\ (stages <> [] -> 1 <= ratio) /\
  forall i st q, nth_error stages i = Some st -> nth_error l i = Some q -> stage_takes w m st ratio (p * raised ratio i) q.
Proof.
  intros w m ratio stages. induction stages as [|st stages IH]; intros p l RG E.
  - injection E as <-. split; [reflexivity|]. split; [congruence|]. intros [|i] st q X; discriminate X.
  - cbn [max_rates_of_stages] in E.
    destruct (obind_inv _ _ _ _ _ E) as (inlet & E1 & E2); clear E.
    destruct (obind_inv _ _ _ _ _ E2) as (q0 & E3 & E4); clear E2.
    destruct (obind_inv _ _ _ _ _ E4) as (l' & E5 & E6); clear E4. injection E6 as <-.
    destruct (RG st (or_introl eq_refl)) as [R RR]. destruct (stage_rate_inv _ _ _ _ _ R RR E3) as (L & a & RF & Q).
    destruct (IH _ _ (fun s H => RG s (or_intror H)) E5) as (L1 & _ & N). split; [cbn [length]; now rewrite L1|]. split; [intros _; exact L|].
    unfold create_stream_from_mass_rate, create_fluid in E1. destruct (obind_inv _ _ _ _ _ E1) as (f & E7 & E8); clear E1.
    destruct (obind_inv _ _ _ _ _ E7) as (props & E9 & E10); clear E7. injection E10 as <-. apply new_stream_inv in E8. destruct E8 as [-> _].
    intros [|i] st' q H1 H2; cbn [nth_error] in H1, H2.
    + injection H1 as <-. injection H2 as <-. exists (mk_stream (mk_fluid m props) 1), a. split; [reflexivity|]. split; [reflexivity|].
      split; [cbn [raised s_fluid f_properties]; rewrite Qcmult_1_r; exact E9|]. split; [exact RF|exact Q].
    + pose proof (N i st' q H1 H2) as T. cbn [raised]. replace (p * (ratio * raised ratio i)) with (p * ratio * raised ratio i) by ring. exact T.
Qed.

Theorem maximum_proof : forall w t suction discharge q,
  (forall st, In st (sn_stages t) -> regular_chart (si_chart st) /\ right_ends_rise (si_chart st)) ->
  sim_max_rate w t suction discharge = Return q ->
  let n := length (sn_stages t) in
  let ratio := w_root w (discharge / suction) n in
  (0 < n)%nat /\ 1 <= ratio /\ exists rates,
    length rates = n /\
    (forall i st x, nth_error (sn_stages t) i = Some st -> nth_error rates i = Some x ->
       stage_takes w (sn_model t) st ratio (suction * raised ratio i) x) /\
    In q rates /\ forall x, In x rates -> q <= x.
Proof.
  intros w t suction discharge q RG E n ratio. subst n ratio. unfold sim_max_rate in E.
  destruct (obind_inv _ _ _ _ _ E) as (ratio & E1 & E2); clear E. destruct (obind_inv _ _ _ _ _ E2) as (l & E3 & E4); clear E2.
  destruct l as [|x l]; [discriminate E4|]. injection E4 as <-.
  destruct (stages_rates_inv _ _ _ _ _ _ RG E3) as (L & G & N).
  destruct (length (sn_stages t)) as [|n] eqn:LS; [discriminate E1|]. cbn [ratio_per_stage] in E1.
  destruct (Qceqb suction 0); [discriminate E1|]. injection E1 as <-.
  split; [lia|]. split; [apply G; intros X; rewrite X in LS; discriminate LS|]. exists (x :: l). split; [exact L|]. split; [exact N|].
  apply qc_min_is.
Qed.

(** the rate that is found lies on the chart *)
Lemma widest_bounds : forall cs head a, widest cs head a ->
  (exists c p, In c cs /\ In p (cv_points c) /\ a <= p_rate p) /\ (exists c p, In c cs /\ In p (cv_points c) /\ p_rate p <= a).
Proof.
  intros cs head a (c0 & c1 & p0 & S0 & S1 & [L0 _] & V).
  assert (I0 : In c0 cs) by (unfold slowest in S0; destruct cs; [discriminate S0|injection S0 as ->; now left]).
  assert (I1 : In c1 cs) by (apply (last_opt_in _ cs c1); exact S1).
  assert (K : forall x y, In (x, y) ((p_head p0, p_rate p0) :: map (fun p => (p_head p, p_rate p)) (cv_points c1)) ->
    exists c p, In c cs /\ In p (cv_points c) /\ y = p_rate p).
  { intros x y [H|H]; [injection H as <- <-; exists c0, p0; auto|]. apply in_map_iff in H. destruct H as (p & E & H). injection E as <- <-. exists c1, p. auto. }
  destruct V as [[_ [H|(u & yu & v & yv & Hu & Hv & L1 & L2 & _ & Y)]]|(u & H & _)].
  - destruct (K _ _ H) as (c & p & C & P & ->). split; exists c, p; repeat split; try assumption; apply Qcle_refl.
  - destruct (K _ _ Hu) as (c & p & C & P & EU). destruct (K _ _ Hv) as (c' & p' & C' & P' & EV).
    assert (T : 0 < (head - u) / (v - u) /\ (head - u) / (v - u) < 1).
    { assert (D : (head - u) / (v - u) * (v - u) = head - u) by (field; qc_lra). set (t := (head - u) / (v - u)) in *. split; qc_nra. }
    set (t := (head - u) / (v - u)) in *. clearbody t.
    destruct (Qclt_le_dec yu yv) as [O|O]; split.
    + exists c', p'. repeat split; try assumption. rewrite <- EV, Y. qc_nra.
    + exists c, p. repeat split; try assumption. rewrite <- EU, Y. qc_nra.
    + exists c, p. repeat split; try assumption. rewrite <- EU, Y. qc_nra.
    + exists c', p'. repeat split; try assumption. rewrite <- EV, Y. qc_nra.
  - destruct (K _ _ H) as (c & p & C & P & ->). split; exists c, p; repeat split; try assumption; apply Qcle_refl.
Qed.
Theorem on_the_chart_proof : forall w cs inlet ratio a, rate_found w cs inlet ratio a ->
  (exists c p, In c cs /\ In p (cv_points c) /\ a <= p_rate p) /\ (exists c p, In c cs /\ In p (cv_points c) /\ p_rate p <= a).
Proof.
  intros w cs inlet ratio a (i & head & z & kappa & before & a' & eff & next & _ & _ & (W & _) & [(_ & -> & _)|(_ & W' & _)]).
  - exact (widest_bounds _ _ _ W).
  - exact (widest_bounds _ _ _ W').
Qed.

Theorem reported_proof : forall w t suction discharge,
  ((suction <= 0 \/ discharge <= 0) -> sim_max_rate_reported w t suction discharge = Return (Some 0)) /\
  (0 < suction -> 0 < discharge ->
     (forall q, sim_max_rate_reported w t suction discharge = Return (Some q) <-> sim_max_rate w t suction discharge = Return q) /\
     (sn_stages t = [] -> sim_max_rate_reported w t suction discharge = Raise ValueErr) /\
     (forall st rest props, sn_stages t = st :: rest -> w_root w (discharge / suction) (length (sn_stages t)) < 1 ->
        flash_pt (ph_service (w_physics w)) (sn_model t) suction (si_temperature st) = Return props ->
        sim_max_rate_reported w t suction discharge = Return None)).
Proof.
  intros w t suction discharge. unfold sim_max_rate_reported. split.
  - intros H. assert (X : Qcleb suction 0 || Qcleb discharge 0 = true).
    { apply orb_true_iff. destruct H as [H|H]; [left|right]; now apply Qcleb_le. }
    now rewrite X.
  - intros S D. assert (X : Qcleb suction 0 || Qcleb discharge 0 = false).
    { apply orb_false_iff. split; now apply Qcleb_gt. }
    rewrite X. split; [|split].
    + intros q. destruct (sim_max_rate w t suction discharge) as [x|e]; [split; congruence|].
      destruct (is_ecalc_error e); split; discriminate.
    + intros E. unfold sim_max_rate. rewrite E. reflexivity.
    + intros st rest props E L F. unfold sim_max_rate. destruct (length (sn_stages t)) as [|n] eqn:LN; [rewrite E in LN; discriminate LN|].
      cbn [ratio_per_stage]. assert (Z : Qceqb suction 0 = false) by (apply Qceqb_neq; qc_lra). rewrite Z. cbn [obind]. rewrite E.
      cbn [max_rates_of_stages]. unfold create_stream_from_mass_rate, create_fluid, w_service. rewrite F. cbn [obind].
      unfold new_stream. change (Qcltb 1 0) with false. cbn [obind]. unfold max_rate_of_stage. apply Qcltb_lt in L. rewrite L. reflexivity.
Qed.

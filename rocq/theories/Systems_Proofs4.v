(** Proofs about pump and compressor systems: a setting mapped to its series. *)
From Coq Require Import PeanoNat String.
From Verif Require Import Attributes_Proofs Attributes_Proofs2 QcTac Num Time_Model Time_Spec Time_Proofs Time_Proofs2 Units_Model Rates_Model Rates_Spec Rates_Proofs Rates_Proofs3 Rates_Proofs4
  Base BaseLemmas Expr_Model Expr_Spec Expr_Proofs Vars_Model Vars_Proofs Input_Model Interp_Model Energy_Model Energy_Proofs Energy_Proofs2 Energy_Proofs3 Export_Proofs2 Emitters_Proofs5 Emitters_Spec
  Consumer_Model Consumer_Spec Consumer_Proofs Consumer_Proofs2 Consumer_Proofs3 Consumer_Proofs4 Consumer_Proofs5 Consumer_Proofs6 Consumer_Proofs7 Consumer_Proofs8 Consumer_Proofs9
  Equipment_Model Equipment_Spec Equipment_Proofs Equipment_Proofs2 Equipment_Proofs3 System_Model System_Spec Systems_Model Systems_Spec Systems_Proofs Systems_Proofs2 Systems_Proofs3.
Local Open Scope list_scope.
Local Open Scope nat_scope.

Section Setting.
  Variable pow : Qc -> Qc -> Qc.
  Variables (first : period) (rest : list period) (vars : variables_dict) (vm : variables_map).
  Let ps := first :: rest.
  Let n := List.length ps.
  Hypothesis Evm : make_variables_map ps vars = Ok vm.
  Hypothesis C : contiguous ps.
  Hypothesis Un : forall r l, dict_get String.eqb r vars = Some l -> List.length l = n.
  Variable g : list Qc.
  Hypothesis Lg : List.length g = n.

  Lemma factor_evaluable : forall e, factor_ok vars e -> evaluable pow vars n e.
  Proof.
    intros [q|ts] [W _]; cbn [evaluable well_written_input] in *; [exact I|]. destruct W as (k & x & Wx & Rx). destruct (evaluate_writes_proof pow _ _ _ vars n Wx) as (vec & E & _); [|eauto].
    intros r I. destruct (Rx r I) as (l & El). exists l. split; [exact El|now apply (Un r)].
  Qed.
  Lemma input_unique : forall e k x y, evaluable pow vars n e -> k < n -> input_at pow vars n e k x -> input_at pow vars n e k y -> x = y.
  Proof.
    intros e k x y He L Hx Hy. destruct (series_exists pow first rest vars vm Evm C Un e He) as (l & _ & V & _). fold ps in V. fold n in V. apply (V k x L) in Hx. apply (V k y L) in Hy. congruence.
  Qed.
  Lemma input_exists : forall e k, evaluable pow vars n e -> k < n -> exists x, input_at pow vars n e k x.
  Proof.
    intros e k He L. destruct (series_exists pow first rest vars vm Evm C Un e He) as (l & Ll & V & _). fold ps in Ll, V. fold n in Ll, V. exists (nth k l 0%Qc). apply (V k _ L). apply nth_error_nth'. lia.
  Qed.
  (** the rates asked for *)
  Lemma asked_facts : forall m s, setting_ok pow vars n m s -> right_count (List.length (sy_consumers m)) (ss_rates s) -> right_count (List.length (sy_consumers m)) (ss_fractions s) -> common_ok pow vars n (sy_common m) ->
    exists inputs rs, rate_inputs m s = Ok inputs /\ grid (List.length (sy_consumers m)) n rs /\ (forall k xs, k < n -> asked pow vars n g m s k xs <-> xs = col k rs) /\
      forall i j sub, i < j -> j <= n -> get_subset vm i j = Ok sub ->
        mapM (equipment_rate pow sub (sy_common m) (slice i j g)) inputs = if existsb (existsb (fun w => Qcltb w 0)) (map (slice i j) rs) then Err ValidationError else Ok (map (slice i j) rs).
  Proof.
    intros m s (H & _) R1 R2 Hc. unfold rate_inputs, asked. destruct (ss_fractions s) as [fractions|].
    - destruct H as ((total & -> & Ft) & Ff). cbn [of_option bind].
      assert (forall e, In e (map (fraction_text total) fractions) -> evaluable pow vars n e) as Ev. { intros e I. apply in_map_iff in I as (f & <- & I). now apply (fraction_value pow first rest vars Un total f Ft (Ff f I)). }
      destruct (rates_facts pow first rest vars vm Evm C Un g Lg (sy_common m) _ Hc Ev) as (rs & Lr & Lrs & V & S). fold ps in Lr, V, S. fold n in Lr, V, S.
      exists (map (fraction_text total) fractions), rs. split; [reflexivity|]. rewrite map_length in Lrs. split; [split; [rewrite Lrs; now apply R2|exact Lr]|]. split; [|exact S].
      intros k xs L. unfold col. rewrite <- (V k L xs), forall2_map. destruct (input_exists total k (factor_evaluable total Ft) L) as (t & Ht). split.
      + intros (total' & t' & E & Ht' & F). injection E as <-. assert (t' = t) as -> by now apply (input_unique total k t' t (factor_evaluable total Ft) L).
        revert F. apply forall2_iff. intros f x I. destruct (fraction_value pow first rest vars Un total f Ft (Ff f I)) as [_ Vf]. unfold rate_at, producing_rate. split.
        * intros (z & b & gk & Hz & A & B & D). apply (Vf k z L) in Hz as (t1 & y & H1 & Hy & ->). assert (t1 = t) as -> by now apply (input_unique total k t1 t (factor_evaluable total Ft) L). exists y. split; [exact Hy|]. eauto.
        * intros (y & Hy & b & gk & A & B & D). exists (t * y)%Qc, b, gk. split; [|auto]. apply (Vf k _ L). eauto.
      + intros F. exists total, t. split; [reflexivity|]. split; [exact Ht|]. revert F. apply forall2_iff. intros f x I. destruct (fraction_value pow first rest vars Un total f Ft (Ff f I)) as [_ Vf]. unfold rate_at, producing_rate. split.
        * intros (y & Hy & b & gk & A & B & D). exists (t * y)%Qc, b, gk. split; [|auto]. apply (Vf k _ L). eauto.
        * intros (z & b & gk & Hz & A & B & D). apply (Vf k z L) in Hz as (t1 & y & H1 & Hy & ->). assert (t1 = t) as -> by now apply (input_unique total k t1 t (factor_evaluable total Ft) L). exists y. split; [exact Hy|]. eauto.
    - destruct H as [Nn H]. destruct (ss_rates s) as [rates|] eqn:Er; [|congruence]. cbn [of_option].
      destruct (rates_facts pow first rest vars vm Evm C Un g Lg (sy_common m) rates Hc) as (rs & Lr & Lrs & V & S). { intros e I. now apply (H rates). } fold ps in Lr, V, S. fold n in Lr, V, S.
      exists rates, rs. split; [reflexivity|]. split; [split; [rewrite Lrs; now apply R1|exact Lr]|]. split; [|exact S].
      intros k xs L. unfold col. rewrite <- (V k L xs). split.
      + intros (rates' & E & F). injection E as <-. revert F. apply forall2_iff. intros f x I. unfold rate_at, producing_rate. split; [intros (y & b & gk & A & B)|intros (y & A & b & gk & B)]; eauto.
      + intros F. exists rates. split; [reflexivity|]. revert F. apply forall2_iff. intros f x I. unfold rate_at, producing_rate. split; [intros (y & A & b & gk & B)|intros (y & b & gk & A & B)]; eauto.
  Qed.

  Definition part_setting (pumps : bool) (cross : option (list Z)) (rs sv dv rv : list (list Qc)) (i j : nat) : operational_setting :=
    let part v := map (map (@Some Qc)) (map (slice i j) v) in
    mkSetting (part rs) (part sv) (part dv) cross (if pumps then Some (part rv) else None).

  (** the densities *)
  Definition density_series (m : system_model) (s : system_setting) (rv : list (list Qc)) : Prop :=
    grid (List.length (sy_consumers m)) n rv /\
    (forall k rhos, k < n -> (if sy_pumps m then each pow vars n (List.length (sy_consumers m)) (sy_density m) (ss_densities s) k rhos else rhos = repeat 1%Qc (List.length (sy_consumers m))) <-> rhos = col k rv) /\
    (sy_pumps m = true -> forall i j sub, i < j -> j <= n -> get_subset vm i j = Ok sub -> pump_densities pow sub m s = Ok (map (slice i j) rv)).
  Lemma density_facts : forall m s, 0 < List.length (sy_consumers m) -> setting_ok pow vars n m s -> (sy_pumps m = true -> right_count (List.length (sy_consumers m)) (ss_densities s)) -> exists rv, density_series m s rv.
  Proof.
    intros m s Lc (_ & _ & _ & _ & _ & H & _) R. unfold density_series. destruct (sy_pumps m).
    - destruct (H eq_refl) as [H1 H2]. specialize (R eq_refl). unfold pump_densities, each. destruct (ss_densities s) as [es|] eqn:Ed.
      + destruct (series_list pow first rest vars vm Evm C Un es) as (rv & F). { intros e I. now apply (H1 es). } exists rv.
        pose proof (series_grid pow first rest vars vm es rv F) as G. fold ps in G. fold n in G. rewrite (R es eq_refl) in G. split; [exact G|]. split.
        * intros k rhos L. exact (series_values pow first rest vars vm es rv k rhos F L).
        * intros _ i j sub L1 L2 Es. destruct es as [|e es]; [cbn in R; specialize (R [] eq_refl); cbn in R; lia|]. exact (series_evaluated pow first rest vars vm (e :: es) rv i j sub F L1 L2 Es).
      + destruct (H2 eq_refl) as [H3 H4]. destruct (sy_density m) as [e|]; [|congruence]. destruct (series_exists pow first rest vars vm Evm C Un e H4) as (l & Ll & V & S). fold ps in Ll, V, S. fold n in Ll, V, S.
        exists (repeat l (List.length (sy_consumers m))). split; [now apply grid_repeat|]. split.
        * intros k rhos L. rewrite col_repeat. split.
          -- intros (e' & v & E & Hv & ->). injection E as <-. apply (V k v L) in Hv. now rewrite (nth_error_nth _ _ _ Hv).
          -- intros ->. exists e, (nth k l 0%Qc). split; [reflexivity|]. split; [|reflexivity]. apply (V k _ L). apply nth_error_nth'. lia.
        * intros _ i j sub L1 L2 Es. cbn [of_option bind]. rewrite (S i j sub L1 L2 Es). cbn [bind]. f_equal. clear. induction (List.length (sy_consumers m)) as [|c IH]; cbn [repeat map]; [reflexivity|now rewrite <- IH].
    - exists (repeat (repeat 1%Qc n) (List.length (sy_consumers m))). split; [apply grid_repeat; apply repeat_length|]. split; [|discriminate]. intros k rhos L. rewrite col_repeat. now rewrite (nth_error_nth _ _ _ (nth_error_repeat 1%Qc L)).
  Qed.

  (** ** A setting as series *)
  Definition setting_series (m : system_model) (s : system_setting) (rs sv dv rv : list (list Qc)) : Prop :=
    let count := List.length (sy_consumers m) in
    grid count n rs /\ grid count n sv /\ grid count n dv /\ grid count n rv /\
    (forall k xs ss ds rhos, k < n -> setting_at pow vars n g m s k xs ss ds rhos <-> xs = col k rs /\ ss = col k sv /\ ds = col k dv /\ rhos = col k rv) /\
    forall i j sub, i < j -> j <= n -> get_subset vm i j = Ok sub ->
      (map_setting pow m (slice i j g) sub s = Ok (part_setting (sy_pumps m) (ss_cross s) rs sv dv rv i j) /\ part_ok (sy_pumps m) g count rs sv dv i j) \/
      (map_setting pow m (slice i j g) sub s = Err ValidationError /\ ~ part_ok (sy_pumps m) g count rs sv dv i j).
  Lemma setting_series_exists : forall m s, system_ok pow vars n m -> In s (sy_settings m) -> exists rs sv dv rv, setting_series m s rs sv dv rv.
  Proof.
    intros m s (Nc & _ & (_ & W) & Hc & Hs) I. specialize (Hs s I). destruct (W s I) as (O1 & O2 & R1 & R2 & R3 & R4 & R5).
    assert (0 < List.length (sy_consumers m)) as Lc by (destruct (sy_consumers m); [congruence|cbn; lia]).
    destruct (asked_facts m s Hs R1 R2 Hc) as (inputs & rs & Ei & Gr & Vr & Sr).
    destruct (density_facts m s Lc Hs R5) as (rv & Gv & Vv & Sv).
    destruct Hs as (_ & E1 & E2 & E3 & E4 & _ & Hx).
    destruct (common_exists pow first rest vars vm Evm C Un _ _ _ O1 R3 E1 E2) as (sv & Hsv). destruct (common_exists pow first rest vars vm Evm C Un _ _ _ O2 R4 E3 E4) as (dv & Hdv).
    pose proof (common_grid pow first rest vars vm _ _ _ _ Hsv) as Gs. pose proof (common_grid pow first rest vars vm _ _ _ _ Hdv) as Gd. fold ps in Gs, Gd. fold n in Gs, Gd.
    exists rs, sv, dv, rv. set (count := List.length (sy_consumers m)) in *. unfold setting_series. fold count. split; [exact Gr|]. split; [exact Gs|]. split; [exact Gd|]. split; [exact Gv|]. split.
    - intros k xs ss ds rhos L. unfold setting_at. fold count. rewrite (Vr k xs L), (Vv k rhos L). pose proof (common_values pow first rest vars vm _ _ _ _ k ss O1 Hsv L) as Q1. pose proof (common_values pow first rest vars vm _ _ _ _ k ds O2 Hdv L) as Q2. fold ps in Q1, Q2. fold n in Q1, Q2. rewrite Q1, Q2. reflexivity.
    - intros i j sub L1 L2 Es. rewrite (part_ok_iff (sy_pumps m) g count n rs sv dv Gr Gs Gd Lg i j L1 L2).
      unfold map_setting. rewrite Ei. cbn [bind]. rewrite (Sr i j sub L1 L2 Es). unfold rates_ok. destruct (existsb (existsb (fun w => Qcltb w 0)) (map (slice i j) rs)); cbn [bind]; [right; split; [reflexivity|intros [H _]; discriminate]|].
      destruct (part_facts pow first rest vars vm Evm C Un i j sub L1 L2 Es) as (Pp & _ & _). assert (List.length (vm_periods sub) = j - i) as Lp by (rewrite Pp; apply slice_length; exact L2).
      pose proof (masks_grid (sy_pumps m) g count n rs Gr Lg i j L1 L2) as Gm. pose proof (fine_nonneg (sy_pumps m) g count n rs sv dv Gr Gs Gd Lg i j L1 L2) as Fn.
      assert (forall r, os_rates r = map (map Some) (map (slice i j) rs) -> os_suction r = map (map Some) (map (slice i j) sv) -> os_discharge r = map (map Some) (map (slice i j) dv) -> os_cross r = ss_cross s -> check_list_length r = Ok tt) as Ck.
      { intros r K1 K2 K3 K4. unfold check_list_length. rewrite K1, K2, K3, K4, !map_length. destruct Gr as [Gr _], Gs as [Gs _], Gd as [Gd _]. rewrite Gr, Gs, Gd, Nat.eqb_refl. cbn [negb]. destruct (ss_cross s) as [[|z zs]|] eqn:Ex; try reflexivity.
        destruct (Hx (z :: zs) eq_refl) as [Lz _]; [discriminate|]. rewrite Lz. fold count. now rewrite Nat.eqb_refl. }
      assert (List.length (map (slice i j) sv) = List.length (part_masks (sy_pumps m) g count rs i j)) as La. { destruct Gm as [Gm _]. rewrite map_length, Gm. apply Gs. }
      assert (List.length (map (slice i j) dv) = List.length (part_masks (sy_pumps m) g count rs i j)) as Lb. { destruct Gm as [Gm _]. rewrite map_length, Gm. apply Gd. }
      pose proof (validate_all_cases (j - i) (part_masks (sy_pumps m) g count rs i j) (map (slice i j) sv) (map (slice i j) dv) La Lb (proj2 Gm) (proj2 (grid_slice _ _ _ i j Gs L1 L2)) (proj2 (grid_slice _ _ _ i j Gd L1 L2))) as Va. cbv zeta in Va.
      change (forall c mask s d, nth_error (part_masks (sy_pumps m) g count rs i j) c = Some mask -> nth_error (map (slice i j) sv) c = Some s -> nth_error (map (slice i j) dv) c = Some d -> fine_where mask s d) with (pressures_ok (sy_pumps m) g count rs sv dv i j) in Va.
      unfold part_masks in Va, Fn. fold count. destruct (sy_pumps m) eqn:Ep.
      + pose proof (pump_pressures_cases pow first rest vars vm i j sub L1 L2 Es count _ _ sv Hsv Lc) as P1. pose proof (pump_pressures_cases pow first rest vars vm i j sub L1 L2 Es count _ _ dv Hdv Lc) as P2. cbv zeta in P1, P2. rewrite Lp in P1, P2.
        destruct P1 as [[-> F1]|[-> F1]]; cbn [bind]; [|right; split; [reflexivity|intros [_ H]; apply F1; now apply Fn]].
        destruct P2 as [[-> F2]|[-> F2]]; cbn [bind]; [|right; split; [reflexivity|intros [_ H]; apply F2; now apply Fn]].
        rewrite (Sv eq_refl i j sub L1 L2 Es). cbn [bind]. rewrite Lp. assert (List.length (map (slice i j) sv) = count) as -> by (rewrite map_length; apply Gs).
        destruct Va as [[-> H]|[-> H]]; cbn [bind]; [left|right; split; [reflexivity|tauto]]. rewrite Ck by reflexivity. cbn [bind]. split; [reflexivity|]. auto.
      + assert (List.length (map (fun r => validation_mask r (slice i j g)) (map (slice i j) rs)) = count) as Lm. { rewrite !map_length. apply Gr. }
        pose proof (compressor_pressures_cases pow first rest vars vm i j sub L1 L2 Es count _ _ _ sv Hsv Lm) as P1. pose proof (compressor_pressures_cases pow first rest vars vm i j sub L1 L2 Es count _ _ _ dv Hdv Lm) as P2. cbv zeta in P1, P2.
        destruct P1 as [[-> F1]|[-> F1]]; cbn [bind]; [|right; split; [reflexivity|intros [_ H]; apply F1; now apply Fn]].
        destruct P2 as [[-> F2]|[-> F2]]; cbn [bind]; [|right; split; [reflexivity|intros [_ H]; apply F2; now apply Fn]].
        destruct Va as [[-> H]|[-> H]]; cbn [bind]; [left|right; split; [reflexivity|tauto]]. rewrite Ck by reflexivity. cbn [bind]. split; [reflexivity|]. auto.
  Qed.
End Setting.

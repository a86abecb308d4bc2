From Coq Require Import PeanoNat String.
From Verif Require Import QcTac Base BaseLemmas Time_Model Time_Spec Time_Proofs Time_Proofs2 Num Expr_Model Expr_Proofs Vars_Model
  Vars_Proofs Units_Model Rates_Model Input_Model Interp_Model Interp_Spec Interp_Proofs Energy_Model.
Local Open Scope list_scope.
Local Open Scope Z_scope.

Notation length := List.length.

(** no date cuts a period of the grid *)
Definition no_cut (ps : list period) (t : datetime) : Prop := forall p, In p ps -> ~ (p_start p < t < p_end p).

Lemma no_cut_on_grid : forall first rest q, contiguous (first :: rest) -> nonempty q ->
  intersects q (whole_of first rest) = true -> no_cut (first :: rest) (p_start q) -> no_cut (first :: rest) (p_end q) ->
  on_grid (first :: rest) first (last rest first) q.
Proof.
  intros first rest q Hc Hq Hi N1 N2. pose proof (whole_nonempty _ _ Hc) as Hw.
  rewrite intersects_bounds in Hi by assumption. cbn [whole_of p_start p_end] in Hi.
  unfold nonempty, whole_of in Hw. cbn [p_start p_end] in Hw. unfold nonempty in Hq.
  split; apply no_cut_boundary; auto; try lia.
  - intros p Hp [L1 L2]. assert (p_start first <= p_start p) as L3.
    { apply In_nth_error in Hp as [k Hk]. pose proof (contiguous_nonempty _ _ Hc (nth_error_In _ _ Hk)) as Hn. unfold nonempty in Hn.
      pose proof (contiguous_bounds _ _ _ (p_start p) _ Hc Hk ltac:(unfold In_period; lia)). lia. }
    apply (N1 p Hp). lia.
  - intros p Hp [L1 L2]. assert (p_end p <= p_end (last rest first)) as L3.
    { apply In_nth_error in Hp as [k Hk]. pose proof (contiguous_nonempty _ _ Hc (nth_error_In _ _ Hk)) as Hn. unfold nonempty in Hn.
      pose proof (contiguous_bounds _ _ _ (p_end p - 1) _ Hc Hk ltac:(unfold In_period; lia)) as B. rewrite last_shift in B. lia. }
    apply (N2 p Hp). lia.
Qed.

(** the window of an entry of a temporal model on the time grid *)
Lemma entry_window : forall first rest q, contiguous (first :: rest) -> nonempty q ->
  no_cut (first :: rest) (p_start q) -> no_cut (first :: rest) (p_end q) ->
  (intersects q (whole_of first rest) = true /\
   exists i j, get_period_indices q (first :: rest) = Ok (i, j) /\ (i < j)%nat /\ (j <= length (first :: rest))%nat /\
     forall k p, nth_error (first :: rest) k = Some p ->
       ((i <= k < j)%nat -> forall d, In_period d p -> In_period d q) /\
       (forall d, In_period d p -> In_period d q -> (i <= k < j)%nat)) \/
  (intersects q (whole_of first rest) = false /\
   forall k p d, nth_error (first :: rest) k = Some p -> In_period d p -> ~ In_period d q).
Proof.
  intros first rest q Hc Hq N1 N2. destruct (intersects q (whole_of first rest)) eqn:Ei; [left|right]; (split; [reflexivity|]).
  - destruct (period_indices_spec first rest q Hc Hq Ei (no_cut_on_grid _ _ _ Hc Hq Ei N1 N2)) as (i & j & E & L1 & L2 & D1 & D2).
    exists i, j. split; [exact E|]. split; [exact L1|]. split; [exact L2|]. now apply period_indices_inside.
  - intros k p d Hk Hd Hdq. assert (intersects q (whole_of first rest) = true); [|congruence].
    apply intersects_iff; auto using whole_nonempty. exists d. split; auto.
    pose proof (contiguous_bounds _ _ _ _ _ Hc Hk Hd) as B. rewrite last_shift in B. exact B.
Qed.

(** ** Emissions *)
Lemma add_rates_spec : forall rates start values, (start + length rates <= length values)%nat ->
  (forall k, (start <= k < start + length rates)%nat -> nth_error values k = Some (Some 0%Qc)) ->
  exists values', add_rates start rates values = Ok values' /\ length values' = length values /\
    forall k, nth_error values' k =
      if ((start <=? k) && (k <? start + length rates))%nat%bool then nth_error rates (k - start) else nth_error values k.
Proof.
  induction rates as [|r rates IH]; intros start values L Hz.
  - exists values. split; [reflexivity|]. split; [reflexivity|]. intros k. cbn [length].
    destruct (Nat.leb_spec start k), (Nat.ltb_spec k (start + 0)); cbn [andb]; auto; lia.
  - cbn [add_rates]. cbn [length] in L, Hz. rewrite Hz by lia.
    replace (num_eqb (Some 0%Qc) (Some 0%Qc)) with true by reflexivity. cbn [negb].
    assert (nadd (Some 0%Qc) r = r) as ->. { destruct r as [r|]; [|reflexivity]. cbn. f_equal. ring. }
    destruct (IH (S start) (splice start (S start) [r] values)) as (v' & E & Lv & H).
    + rewrite splice_length; cbn [length]; lia.
    + intros k Hk. rewrite nth_error_splice; cbn [length]; try lia.
      destruct (Nat.ltb_spec k start); [lia|]. destruct (Nat.ltb_spec k (S start)); [lia|]. apply Hz. lia.
    + exists v'. split; [exact E|]. split; [rewrite Lv, splice_length; cbn [length]; lia|].
      intros k. rewrite H. rewrite nth_error_splice; cbn [length]; try lia.
      destruct (Nat.leb_spec (S start) k), (Nat.ltb_spec k (S start + length rates)), (Nat.leb_spec start k),
        (Nat.ltb_spec k (start + S (length rates))); cbn [andb]; try lia.
      * replace (k - start)%nat with (S (k - S start)) by lia. reflexivity.
      * destruct (Nat.ltb_spec k start); [lia|]. destruct (Nat.ltb_spec k (S start)); [lia|]. reflexivity.
      * assert (k = start) by lia. subst k. rewrite Nat.sub_diag. destruct (Nat.ltb_spec start start); [lia|].
        destruct (Nat.ltb_spec start (S start)); [|lia]. reflexivity.
      * destruct (Nat.ltb_spec k start); [|lia]. reflexivity.
Qed.

(** the value of an emission where it is in force *)
Definition emission_value (fuel : num) (factor : Qc) : num := nmul fuel (Some (factor / qz 1000)%Qc).

Lemma evaluate_length : forall pow ts vars n v, evaluate pow ts vars n = Ok v ->
  (forall r l, dict_get String.eqb r vars = Some l -> length l = n) -> length v = n.
Proof. intros pow ts vars n v E Hu. apply evaluate_Ok in E as (t & _ & E). eapply eval_node_length; eauto. Qed.

Section Window.
  Variable pow : Qc -> Qc -> Qc.
  Variables (first : period) (rest : list period) (vars : variables_dict) (vm sub : variables_map) (i j : nat) (fuel : list num).
  Let ps := first :: rest.
  Let n := length ps.
  Hypothesis Hij : (i < j)%nat.
  Hypothesis Hj : (j <= n)%nat.
  Hypothesis Hu : forall r l, dict_get String.eqb r vars = Some l -> length l = n.
  Hypothesis Esp : vm_periods sub = slice i j ps.
  Hypothesis Esv : vm_variables sub = map (fun kv => (fst kv, slice i j (snd kv))) vars.
  Hypothesis Lf : length fuel = n.

  Lemma add_emission_spec : forall d name ts v vals, dict_get String.eqb name d = Some vals -> length vals = n ->
    evaluate pow ts vars n = Ok v -> (forall k, (i <= k < j)%nat -> nth_error vals k = Some (Some 0%Qc)) ->
    exists vals', add_emission pow sub i (slice i j fuel) (Ok d) (name, ts) = Ok (dict_set String.eqb name vals' d) /\
      length vals' = n /\
      forall k, nth_error vals' k =
        if ((i <=? k) && (k <? j))%nat%bool
        then match nth_error fuel k, nth_error v k with Some f, Some x => Some (emission_value f x) | _, _ => None end
        else nth_error vals k.
  Proof.
    intros d name ts v vals Ed Lv Ev Hz. unfold add_emission. cbn [bind snd fst].
    assert (length v = n) as Lvv by (eapply evaluate_length; eauto).
    unfold vm_evaluate. rewrite Esp, Esv. rewrite slice_length by assumption.
    rewrite (evaluate_slice pow ts vars n i j v Hu (Nat.lt_le_incl _ _ Hij) Hj Ev). cbn [bind].
    unfold np_broadcast. rewrite map_length, !slice_length by lia. rewrite Nat.eqb_refl. cbn [bind].
    change (unit_to KILO_PER_DAY TONS_PER_DAY) with (Ok (fun x : Qc => (x / qz 1000)%Qc)). cbn [bind]. rewrite Ed. cbn [of_option bind].
    set (tons := map _ _).
    assert (length tons = (j - i)%nat) as Lt.
    { unfold tons. rewrite map_length, map2_length, map_length, !slice_length by lia. lia. }
    destruct (add_rates_spec tons i vals) as (vals' & E & L & H).
    { rewrite Lt. lia. } { intros k Hk. apply Hz. lia. }
    rewrite E. cbn [bind]. exists vals'. split; [reflexivity|]. split; [lia|].
    intros k. rewrite H, Lt. replace (i + (j - i))%nat with j by lia.
    destruct (Nat.leb_spec i k), (Nat.ltb_spec k j); cbn [andb]; auto.
    unfold tons. rewrite nth_error_map, nth_error_map2, nth_error_map, !nth_error_slice.
    destruct (Nat.ltb_spec (k - i) (j - i)); [|lia]. replace (i + (k - i))%nat with k by lia.
    destruct (nth_error fuel k) as [f|], (nth_error v k) as [x|]; cbn [option_map]; auto. f_equal.
    unfold emission_value. destruct f as [f|]; [|reflexivity]. cbn. f_equal. unfold Qcdiv. ring.
  Qed.

  Lemma add_fuel_window : forall m d, NoDup (map fst m) ->
    (forall name ts, In (name, ts) m -> exists vals, dict_get String.eqb name d = Some vals /\ length vals = n /\
       (forall k, (i <= k < j)%nat -> nth_error vals k = Some (Some 0%Qc))) ->
    (forall name ts, In (name, ts) m -> exists v, evaluate pow ts vars n = Ok v) ->
    exists d', fold_left (add_emission pow sub i (slice i j fuel)) m (Ok d) = Ok d' /\ map fst d' = map fst d /\
      (forall name, ~ In name (map fst m) -> dict_get String.eqb name d' = dict_get String.eqb name d) /\
      (forall name ts v vals, In (name, ts) m -> evaluate pow ts vars n = Ok v -> dict_get String.eqb name d = Some vals ->
         exists vals', dict_get String.eqb name d' = Some vals' /\ length vals' = n /\
           forall k, nth_error vals' k =
             if ((i <=? k) && (k <? j))%nat%bool
             then match nth_error fuel k, nth_error v k with Some f, Some x => Some (emission_value f x) | _, _ => None end
             else nth_error vals k).
  Proof.
    induction m as [|[name ts] m IH]; intros d Hnd Hd Hev.
    - exists d. split; [reflexivity|]. split; [reflexivity|]. split; [auto|]. intros name ts v vals [].
    - inversion Hnd as [|? ? Hnin Hnd']; subst. cbn [fold_left].
      destruct (Hd name ts (or_introl eq_refl)) as (vals & Ed & Lv & Hz).
      destruct (Hev name ts (or_introl eq_refl)) as (v & Ev).
      destruct (add_emission_spec d name ts v vals Ed Lv Ev Hz) as (vals1 & E1 & L1 & H1). rewrite E1.
      assert (In name (map fst d)) as Hin. { apply dict_get_In in Ed; [now apply (in_map fst) in Ed|apply String.eqb_eq]. }
      assert (forall nm, In nm (map fst m) -> String.eqb nm name = false) as Hother.
      { intros nm Hnm. apply String.eqb_neq. intros ->. contradiction. }
      destruct (IH (dict_set String.eqb name vals1 d)) as (d' & E & Hk & Hsame & Hnew); auto.
      + intros nm ts' Hm. destruct (Hd nm ts' (or_intror Hm)) as (w & Ew & Lw & Hw). exists w. split; auto.
        rewrite dict_get_set by apply String.eqb_eq. rewrite Hother; auto. now apply (in_map fst) in Hm.
      + intros nm ts' Hm. apply (Hev nm ts'). now right.
      + exists d'. split; [exact E|]. split; [rewrite Hk; apply dict_set_keys_in; auto; apply String.eqb_eq|]. split.
        * intros nm Hn. cbn [map fst In] in Hn. rewrite Hsame by tauto. rewrite dict_get_set by apply String.eqb_eq.
          destruct (String.eqb nm name) eqn:En; auto. apply String.eqb_eq in En. subst. tauto.
        * intros nm ts' v' w [Em|Hm] Ev' Ew.
          -- injection Em as <- <-. assert (v' = v) as -> by congruence. assert (w = vals) as -> by congruence.
             exists vals1. split; [|split; assumption]. rewrite Hsame by assumption.
             rewrite dict_get_set by apply String.eqb_eq. now rewrite String.eqb_refl.
          -- apply (Hnew nm ts' v' w Hm Ev'). rewrite dict_get_set by apply String.eqb_eq.
             rewrite Hother; auto. now apply (in_map fst) in Hm.
  Qed.
End Window.

Theorem emissions_proof : forall pow first rest vars vm (tm : list (period * fuel_type)) fuel,
  let ps := first :: rest in
  let n := length ps in
  make_variables_map ps vars = Ok vm -> contiguous ps ->
  (forall r l, dict_get String.eqb r vars = Some l -> length l = n) ->
  disjoint_entries tm -> (forall e, In e tm -> nonempty (fst e)) ->
  (forall q m, In (q, m) tm -> no_cut ps (p_start q) /\ no_cut ps (p_end q)) ->
  (* a fuel does not list an emission twice *)
  (forall q m, In (q, m) tm -> NoDup (map fst m)) ->
  (forall q m name ts, In (q, m) tm -> In (name, ts) m -> exists v, evaluate pow ts vars n = Ok v) ->
  length fuel = n ->
  exists d, evaluate_emissions pow vm tm fuel = Ok d /\
    NoDup (map fst d) /\
    (forall name, In name (map fst d) <-> exists q m, In (q, m) tm /\ In name (map fst m)) /\
    forall name values, In (name, values) d -> length values = n /\
      forall k p, nth_error ps k = Some p ->
        (forall t m ts, In_period t p -> in_force tm t m -> In (name, ts) m ->
           exists v f x, evaluate pow ts vars n = Ok v /\ nth_error fuel k = Some f /\ nth_error v k = Some x /\
             nth_error values k = Some (nmul f (Some (x / qz 1000)%Qc))) /\
        ((forall t m, In_period t p -> in_force tm t m -> ~ In name (map fst m)) -> nth_error values k = Some (Some 0%Qc)).
Proof.
  intros pow first rest vars vm tm fuel. cbv zeta. intros Evm Hc Hu Hdis Hne Hcut Hnd Hev Lf.
  set (ps := first :: rest) in *. set (n := length ps) in *.
  assert (vm_periods vm = ps) as Eps.
  { unfold make_variables_map in Evm. destruct (all_dates ps); cbn in Evm; [|discriminate]. now injection Evm as <-. }
  pose proof (vm_period_spec _ _ _ _ Evm) as Ew.
  unfold evaluate_emissions. cbv zeta. rewrite Eps. fold n.
  set (names := nodup string_dec (flat_map (fun e : period * fuel_type => map fst (snd e)) tm)).
  set (zeros := map (fun nm => (nm, repeat (Some 0%Qc) n)) names).
  assert (map fst zeros = names) as Kz. { unfold zeros. rewrite map_map. apply map_id. }
  assert (forall (tm' : list (period * fuel_type)) d0, pdisj tm' -> incl tm' tm -> map fst d0 = names ->
    (forall nm vals, dict_get String.eqb nm d0 = Some vals -> length vals = n /\
       forall k p t q m, nth_error ps k = Some p -> In_period t p -> In (q, m) tm' -> In_period t q -> nth_error vals k = Some (Some 0%Qc)) ->
    exists d, fold_left (add_fuel pow vm fuel) tm' (Ok d0) = Ok d /\ map fst d = names /\
      forall nm vals0, dict_get String.eqb nm d0 = Some vals0 ->
        exists vals, dict_get String.eqb nm d = Some vals /\ length vals = n /\
        forall k p, nth_error ps k = Some p ->
        (forall t m ts, In_period t p -> in_force tm' t m -> In (nm, ts) m ->
           exists v f x, evaluate pow ts vars n = Ok v /\ nth_error fuel k = Some f /\ nth_error v k = Some x /\
             nth_error vals k = Some (emission_value f x)) /\
        ((forall t m, In_period t p -> in_force tm' t m -> ~ In nm (map fst m)) -> nth_error vals k = nth_error vals0 k)) as Main.
  { induction tm' as [|[q m] tm' IH]; intros d0 Hdj Hincl Kd Hz.
    - exists d0. split; [reflexivity|]. split; [assumption|]. intros nm vals0 E0. exists vals0. split; [assumption|].
      split; [now apply (Hz nm)|]. intros k p Hk. split; [|auto]. intros t m ts _ (q & [] & _).
    - cbn [fold_left]. unfold add_fuel at 2. cbn [bind fst snd]. rewrite Ew. cbn [bind].
      inversion Hdj as [|? ? Hdj' Hd]; subst.
      assert (In (q, m) tm) as Hq by (apply Hincl; now left). assert (incl tm' tm) as Hincl' by (intros e He; apply Hincl; now right).
      pose proof (Hne _ Hq) as Hnq. cbn [fst] in Hnq. destruct (Hcut _ _ Hq) as [C1 C2].
      assert (forall nm, In nm (map fst m) -> In nm names) as Hnames.
      { intros nm Hnm. apply nodup_In, in_flat_map. exists (q, m). auto. }
      destruct (entry_window first rest q Hc Hnq C1 C2) as [[Ei (i & j & Eij & Lij & Lj & Hin)]|[Ei Hout]]; rewrite Ei.
      + rewrite Eps. fold ps in Eij. rewrite Eij. cbn [bind fst snd].
        destruct (get_subset_spec _ _ _ _ i j Hc Evm Lij Lj) as (sub & Es & Esp & Esv). rewrite Es. cbn [bind].
        assert (forall k, (i <= k < j)%nat -> exists p, nth_error ps k = Some p) as Hps.
        { intros k Hk. destruct (nth_error ps k) as [p|] eqn:Ek; [now exists p|]. apply nth_error_None in Ek. fold ps in Lj. lia. }
        destruct (add_fuel_window pow first rest vars sub i j fuel Lij Lj Hu Esp Esv Lf m d0 (Hnd _ _ Hq)) as (d1 & E1 & K1 & Hsame & Hnew).
        { intros nm ts Hm. destruct (dict_get String.eqb nm d0) as [vals|] eqn:Ed.
          2:{ exfalso. apply dict_get_None in Ed; [|apply String.eqb_eq]. apply Ed. rewrite Kd. apply Hnames. now apply (in_map fst) in Hm. }
          exists vals. split; [reflexivity|]. destruct (Hz nm vals Ed) as [Lv Hzv]. split; [assumption|].
          intros k Hk. destruct (Hps k Hk) as (p & Hp). destruct (Hin k p Hp) as [I1 _].
          pose proof (contiguous_nonempty _ _ Hc (nth_error_In _ _ Hp)) as Hpn. unfold nonempty in Hpn.
          assert (In_period (p_start p) p) as Hd1 by (unfold In_period; lia).
          apply (Hzv k p (p_start p) q m Hp Hd1 (or_introl eq_refl)). now apply I1. }
        { intros nm ts Hm. apply (Hev q m nm ts Hq Hm). }
        fold ps in E1. rewrite E1.
        assert (forall nm vals0, dict_get String.eqb nm d0 = Some vals0 -> exists vals1, dict_get String.eqb nm d1 = Some vals1 /\ length vals1 = n /\
          (forall k, ~ (i <= k < j)%nat -> nth_error vals1 k = nth_error vals0 k) /\ (~ In nm (map fst m) -> vals1 = vals0)) as Hd1.
        { intros nm vals0 E0. destruct (in_dec string_dec nm (map fst m)) as [Hnm|Hnm].
          - apply in_map_iff in Hnm as ([nm' ts] & En & Hm). cbn in En. subst nm'.
            destruct (Hev q m nm ts Hq Hm) as (v & Ev). destruct (Hnew nm ts v vals0 Hm Ev E0) as (w & Ew' & Lw & Hw).
            exists w. split; [assumption|]. split; [exact Lw|]. split.
            + intros k Hk. rewrite Hw. destruct (Nat.leb_spec i k), (Nat.ltb_spec k j); cbn [andb]; auto; lia.
            + intros Hno. elim Hno. now apply (in_map fst) in Hm.
          - exists vals0. rewrite Hsame by assumption. split; [assumption|]. split; [now apply (Hz nm)|]. auto. }
        destruct (IH d1 Hdj' Hincl') as (d & E & K & H).
        { congruence. }
        { intros nm vals1 Evals1. assert (exists vals0, dict_get String.eqb nm d0 = Some vals0) as (vals0 & E0).
          { destruct (dict_get String.eqb nm d0) as [w|] eqn:Ed; [now exists w|]. exfalso.
            apply dict_get_None in Ed; [|apply String.eqb_eq]. apply Ed. rewrite Kd, <- Kd, <- K1.
            apply dict_get_In in Evals1; [now apply (in_map fst) in Evals1|apply String.eqb_eq]. }
          destruct (Hd1 nm vals0 E0) as (w & Ew' & Lw & Hw & _). assert (w = vals1) as -> by congruence.
          split; [assumption|]. intros k p t q' m' Hk Ht Hq' Htq'. rewrite Hw.
          - destruct (Hz nm vals0 E0) as [_ Hzz]. apply (Hzz k p t q' m'); auto. now right.
          - intros Hk'. destruct (Hin k p Hk) as [I1 _]. apply (Hd (q', m') t Hq'); cbn [fst]; auto. }
        exists d. split; [exact E|]. split; [exact K|]. intros nm vals0 E0.
        destruct (Hd1 nm vals0 E0) as (vals1 & Ev1 & Lv1 & Hout1 & Hno1).
        destruct (H nm vals1 Ev1) as (vals & Ev2 & Lv2 & H2). exists vals. split; [assumption|]. split; [assumption|].
        intros k p Hk. destruct (H2 k p Hk) as [H3 H4]. destruct (Hin k p Hk) as [I1 I2]. split.
        * intros t m' ts Ht (q' & [Eq|Hq'] & Htq) Hm.
          -- injection Eq as <- <-. destruct (Hev q m nm ts Hq Hm) as (v & Ev).
             destruct (Hnew nm ts v vals0 Hm Ev E0) as (w & Ew' & Lw & Hw). assert (w = vals1) as -> by congruence.
             pose proof (I2 t Ht Htq) as Hkk.
             assert (length v = n) as Lv by (eapply evaluate_length; eauto).
             destruct (nth_error fuel k) as [f|] eqn:Ef; [|apply nth_error_None in Ef; fold ps in Lj; fold n in Lj; lia].
             destruct (nth_error v k) as [x|] eqn:Ex; [|apply nth_error_None in Ex; fold ps in Lj; fold n in Lj; lia].
             exists v, f, x. split; [assumption|]. split; [reflexivity|]. split; [assumption|]. rewrite H4.
             ++ rewrite Hw. destruct (Nat.leb_spec i k), (Nat.ltb_spec k j); cbn [andb]; try lia. now rewrite Ef, Ex.
             ++ intros t2 m2 Ht2 (q2 & Hq2 & Htq2) _. apply (Hd (q2, m2) t2 Hq2); cbn [fst]; auto.
          -- apply (H3 t m' ts Ht); auto. exists q'. auto.
        * intros Hno. rewrite H4.
          -- destruct (Nat.le_gt_cases i k) as [L1|L1]; [destruct (Nat.le_gt_cases j k) as [L2|L2]|]; try (apply Hout1; lia).
             rewrite Hno1; auto. pose proof (contiguous_nonempty _ _ Hc (nth_error_In _ _ Hk)) as Hpn. unfold nonempty in Hpn.
             apply (Hno (p_start p) m); [unfold In_period; lia|]. exists q. split; [now left|]. apply I1; [lia|unfold In_period; lia].
          -- intros t2 m2 Ht2 (q2 & Hq2 & Htq2). apply (Hno t2 m2 Ht2). exists q2. split; auto. now right.
      + destruct (IH d0 Hdj' Hincl' Kd) as (d & E & K & H).
        { intros nm vals Ev. destruct (Hz nm vals Ev) as [Lv Hzv]. split; [assumption|].
          intros k p t q' m' Hk Ht Hq' Htq'. apply (Hzv k p t q' m'); auto. now right. }
        exists d. split; [exact E|]. split; [exact K|]. intros nm vals0 E0.
        destruct (H nm vals0 E0) as (vals & Ev2 & Lv2 & H2). exists vals. split; [assumption|]. split; [assumption|].
        intros k p Hk. destruct (H2 k p Hk) as [H3 H4]. split.
        * intros t m' ts Ht (q' & [Eq|Hq'] & Htq) Hm.
          -- injection Eq as <- <-. elim (Hout k p t Hk Ht Htq).
          -- apply (H3 t m' ts Ht); auto. exists q'. auto.
        * intros Hno. apply H4. intros t2 m2 Ht2 (q2 & Hq2 & Htq2). apply (Hno t2 m2 Ht2). exists q2. split; auto. now right. }
  assert (forall nm, In nm names -> dict_get String.eqb nm zeros = Some (repeat (Some 0%Qc) n)) as Hzeros.
  { intros nm Hnm. apply dict_get_NoDup; [apply String.eqb_eq|rewrite Kz; apply NoDup_nodup|]. unfold zeros.
    apply in_map_iff. now exists nm. }
  destruct (Main tm zeros (disjoint_pdisj _ _ Hdis) (incl_refl _) Kz) as (d & E & K & H).
  { intros nm vals Ev. assert (In nm names) as Hnm. { apply dict_get_In in Ev; [|apply String.eqb_eq]. rewrite <- Kz. now apply (in_map fst) in Ev. }
    rewrite (Hzeros nm Hnm) in Ev. assert (vals = repeat (Some 0%Qc) n) as -> by congruence. split; [apply repeat_length|].
    intros k p t q m Hk _ _ _. rewrite (nth_error_nth' _ (Some 0%Qc)); [f_equal; apply nth_repeat|].
    rewrite repeat_length. unfold n. apply nth_error_Some. congruence. }
  match goal with |- context [fold_left _ tm (Ok ?z)] => change z with zeros end. rewrite E. cbn [bind]. eexists. split; [reflexivity|].
  pose proof (sort_perm _ (fun a b : string * list num => String.leb (fst a) (fst b)) d) as Hp.
  assert (Permutation (map fst d) (map fst (sort (fun a b : string * list num => String.leb (fst a) (fst b)) d))) as Hpk by now apply Permutation_map.
  assert (NoDup (map fst d)) as Nd by (rewrite K; apply NoDup_nodup).
  split; [exact (Permutation_NoDup Hpk Nd)|]. split.
  - intros nm. transitivity (In nm (map fst d)).
    { split; apply Permutation_in; [now apply Permutation_sym|exact Hpk]. }
    rewrite K. unfold names. rewrite nodup_In, in_flat_map. split.
    + intros ([q m] & Hq & Hm). now exists q, m.
    + intros (q & m & Hq & Hm). exists (q, m). auto.
  - intros nm values Hin. apply (Permutation_in _ (Permutation_sym Hp)) in Hin.
    assert (In nm names) as Hnm by (rewrite <- K; now apply (in_map fst) in Hin).
    apply dict_get_NoDup with (eqb := String.eqb) in Hin; [|apply String.eqb_eq|assumption].
    destruct (H nm _ (Hzeros nm Hnm)) as (vals & Ev & Lv & Hv). assert (vals = values) as -> by congruence.
    split; [assumption|]. intros k p Hk. destruct (Hv k p Hk) as [H1 H2]. split; [exact H1|].
    intros Hno. rewrite H2 by assumption. rewrite (nth_error_nth' _ (Some 0%Qc)); [f_equal; apply nth_repeat|].
    rewrite repeat_length. unfold n. apply nth_error_Some. congruence.
Qed.

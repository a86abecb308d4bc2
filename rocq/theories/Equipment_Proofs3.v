(** Proofs about pump and compressor consumers: a model on a part of the run. *)
From Coq Require Import PeanoNat String.
From Verif Require Import Attributes_Proofs Attributes_Proofs2 QcTac Num Time_Model Time_Spec Time_Proofs Time_Proofs2 Units_Model Rates_Model Rates_Spec Rates_Proofs Rates_Proofs3 Rates_Proofs4
  Base BaseLemmas Expr_Model Expr_Spec Expr_Proofs Vars_Model Vars_Proofs Input_Model Interp_Model Energy_Model Energy_Proofs Energy_Proofs2 Energy_Proofs3 Export_Proofs2 Emitters_Proofs5 Emitters_Spec
  Consumer_Model Consumer_Spec Consumer_Proofs Consumer_Proofs2 Consumer_Proofs3 Consumer_Proofs4 Consumer_Proofs5 Consumer_Proofs6 Consumer_Proofs7 Consumer_Proofs8 Consumer_Proofs9
  Equipment_Model Equipment_Spec Equipment_Proofs Equipment_Proofs2.
Local Open Scope list_scope.
Local Open Scope nat_scope.

(** the three mapping functions in one *)
Definition plan_evaluate (pow : Qc -> Qc -> Qc) (consumes : energy_usage_type) (pl : plan) (regularity : list Qc) (vm : variables_map) : result function_result :=
  if negb (usage_type_eqb consumes (mc_type (pl_machine pl))) then Err ValidationError
  else
    do rates <- mapM (equipment_rate pow vm (pl_common pl) regularity) (pl_rates pl);
    let mask := validation_mask (summed rates) regularity in
    do s <- optional_pressures pow vm mask (pl_suction pl);
    do d <- optional_pressures pow vm mask (pl_discharge pl);
    do i <- optional_pressures pow vm mask (pl_intermediate pl);
    do _ <- match s, d with Some s, Some d => validate_pressures mask s d i | _, _ => Ok tt end;
    do rho <- optional_values pow vm (pl_density pl);
    run_machine pow vm (pl_common pl) (pl_machine pl) rates s d i rho.

Lemma apply_loss_num : forall us ls, List.length us = List.length ls -> exists energy, apply_power_loss us ls = Ok energy /\
  List.length energy = List.length us /\ forall k u f e, nth_error us k = Some u -> nth_error ls k = Some f -> nth_error energy k = Some e -> supplied_num u f e.
Proof.
  intros us ls L. destruct (usage_result_num [] POWER true us ls L) as (energy & E & Le & V). exists energy. unfold usage_result in E. destruct (apply_power_loss us ls) as [en|]; [|discriminate]. cbn [bind] in E.
  assert (en = energy) as -> by congruence. split; [reflexivity|]. split; [exact Le|exact V].
Qed.
Lemma existsb_zip_slice : forall (l : list Qc) (mask : list bool) i j n, i < j -> j <= n -> List.length l = n ->
  existsb (fun x => snd x && Qcltb (fst x) 0)%bool (zip (slice i j l) mask) = true <-> exists k, k < j - i /\ nth_error mask k = Some true /\ (nth (i + k) l 0 < 0)%Qc.
Proof.
  intros l mask i j n L1 L2 Ll. rewrite existsb_exists. split.
  - intros ([x b] & I & H). cbn [fst snd] in H. apply andb_prop in H as [-> H]. apply Qcltb_lt in H. apply In_nth_error in I as (k & K).
    unfold zip in K. assert (nth_error (slice i j l) k = Some x /\ nth_error mask k = Some true) as [K1 K2].
    { clear -K. revert k mask K. induction (slice i j l) as [|y ys IH]; intros k [|b mask] K; destruct k; try discriminate; cbn [combine nth_error] in *; [injection K as -> ->; auto|now apply IH]. }
    rewrite nth_error_slice in K1. destruct (Nat.ltb_spec k (j - i)) as [Lk|Lk]; [|discriminate]. exists k. split; [exact Lk|]. split; [exact K2|]. rewrite (nth_error_nth _ _ _ K1). exact H.
  - intros (k & Lk & K & H). exists (nth (i + k) l 0%Qc, true). split; [|cbn [fst snd andb]; now apply Qcltb_lt].
    assert (nth_error (slice i j l) k = Some (nth (i + k) l 0%Qc)) as K1 by (rewrite nth_error_slice; destruct (Nat.ltb_spec k (j - i)); [apply nth_error_nth'; lia|lia]).
    apply (nth_error_In _ k). unfold zip. set (y := nth (i + k) l 0%Qc) in *. clearbody y. clear -K K1. revert k mask K K1. induction (slice i j l) as [|x xs IH]; intros k [|b mask] K K1; destruct k; try discriminate; cbn [combine nth_error] in *; [congruence|now apply IH].
Qed.

Section Part.
  Variable pow : Qc -> Qc -> Qc.
  Variables (first : period) (rest : list period) (vars : variables_dict) (vm : variables_map).
  Let ps := first :: rest.
  Let n := List.length ps.
  Hypothesis Evm : make_variables_map ps vars = Ok vm.
  Hypothesis C : contiguous ps.
  Hypothesis Un : forall r l, dict_get String.eqb r vars = Some l -> List.length l = n.
  Variable g : list Qc.
  Hypothesis Lg : List.length g = n.
  Variable consumes : energy_usage_type.

  Section Vectors.
  Variable pl : plan.
  Variables (rs : list (list Qc)) (so d_o io ro : option (list Qc)) (ls : list Qc).
  Hypothesis Nr : rs <> [].
  Hypothesis Lr : forall l, In l rs -> List.length l = n.
  Hypothesis Ls : forall l, so = Some l -> List.length l = n.
  Hypothesis Ld : forall l, d_o = Some l -> List.length l = n.
  Hypothesis Li : forall l, io = Some l -> List.length l = n.
  Hypothesis Lo : forall l, ro = Some l -> List.length l = n.
  Definition vec_point (k : nat) : operating_point :=
    mkPoint (map (fun l => nth k l 0%Qc) rs) (option_map (fun l => nth k l 0%Qc) so) (option_map (fun l => nth k l 0%Qc) d_o)
      (option_map (fun l => nth k l 0%Qc) io) (option_map (fun l => nth k l 0%Qc) ro).
  Hypothesis Pt : forall k pt, k < n -> point_at pow vars n g pl k pt <-> pt = vec_point k.

  Lemma mask_nth : forall i j k, i < j -> j <= n -> k < j - i ->
    nth_error (validation_mask (summed (map (slice i j) rs)) (slice i j g)) k = Some (Qcltb 0 (fold_right Qcplus 0%Qc (op_rates (vec_point (i + k))) * nth (i + k) g 0%Qc)).
  Proof.
    intros i j k L1 L2 Lk. unfold validation_mask. rewrite nth_error_map2.
    destruct (summed_nth (j - i) (map (slice i j) rs)) as [Lsum Vsum].
    { destruct rs; [congruence|discriminate]. } { intros l I. apply in_map_iff in I as (l0 & <- & I0). apply slice_length. rewrite (Lr l0 I0). exact L2. }
    rewrite (nth_error_nth' (summed (map (slice i j) rs)) 0%Qc) by lia. rewrite Vsum by exact Lk. rewrite nth_error_slice. destruct (Nat.ltb_spec k (j - i)) as [_|]; [|lia].
    rewrite (nth_error_nth' g 0%Qc) by lia. f_equal. f_equal. f_equal. f_equal. cbn [vec_point op_rates]. rewrite map_map. apply map_ext_in. intros l I.
    apply nth_error_nth. rewrite nth_error_slice. destruct (Nat.ltb_spec k (j - i)) as [_|]; [|lia]. apply nth_error_nth'. rewrite (Lr l I). lia.
  Qed.
  Lemma mask_length : forall i j, i < j -> j <= n -> List.length (validation_mask (summed (map (slice i j) rs)) (slice i j g)) = j - i.
  Proof.
    intros i j L1 L2. unfold validation_mask. rewrite map2_length. destruct (summed_nth (j - i) (map (slice i j) rs)) as [Lsum Vsum].
    { destruct rs; [congruence|discriminate]. } { intros l I. apply in_map_iff in I as (l0 & <- & I0). apply slice_length. rewrite (Lr l0 I0). exact L2. }
    rewrite Lsum, slice_length by lia. lia.
  Qed.
  Lemma mask_flowing : forall i j k, i < j -> j <= n -> nth_error (validation_mask (summed (map (slice i j) rs)) (slice i j g)) k = Some true <-> k < j - i /\ flowing g (i + k) (vec_point (i + k)).
  Proof.
    intros i j k L1 L2. split.
    - intros K. assert (k < j - i) as Lk. { rewrite <- (mask_length i j L1 L2). apply nth_error_Some. congruence. } split; [exact Lk|]. rewrite (mask_nth i j k L1 L2 Lk) in K. injection K as K. apply Qcltb_lt in K.
      exists (nth (i + k) g 0%Qc). split; [apply nth_error_nth'; lia|exact K].
    - intros (Lk & gk & K & H). rewrite (mask_nth i j k L1 L2 Lk). f_equal. apply Qcltb_lt. now rewrite (nth_error_nth _ _ _ K).
  Qed.
  Lemma slice_nth : forall (l : list Qc) i j k, i < j -> j <= n -> List.length l = n -> k < j - i -> nth_error (slice i j l) k = Some (nth (i + k) l 0%Qc).
  Proof. intros l i j k L1 L2 Ll Lk. rewrite nth_error_slice. destruct (Nat.ltb_spec k (j - i)); [|lia]. apply nth_error_nth'. lia. Qed.
  Lemma points_part : forall i j, i < j -> j <= n ->
    mapM (point_in (map (slice i j) rs) (option_map (slice i j) so) (option_map (slice i j) d_o) (option_map (slice i j) io) (option_map (slice i j) ro)) (seq 0 (j - i)) =
    Ok (map (fun k => vec_point (i + k)) (seq 0 (j - i))).
  Proof.
    intros i j L1 L2. apply mapM_eq. intros k I. apply in_seq in I. unfold point_in.
    assert (forall l, List.length l = n -> value_in k (slice i j l) = Ok (nth (i + k) l 0%Qc)) as V. { intros l Ll. unfold value_in. rewrite slice_nth; auto. lia. }
    assert (mapM (value_in k) (map (slice i j) rs) = Ok (map (fun l => nth (i + k) l 0%Qc) rs)) as ->.
    { clear -V Lr. induction rs as [|l l0 IH]; [reflexivity|]. cbn [map mapM]. rewrite V by (apply Lr; now left). cbn [bind]. rewrite IH; [reflexivity|]. intros x Ix. apply Lr. now right. }
    assert (forall o, (forall l, o = Some l -> List.length l = n) -> optional_in k (option_map (slice i j) o) = Ok (option_map (fun l => nth (i + k) l 0%Qc) o)) as O.
    { intros [l|] H; cbn [optional_in option_map]; [|reflexivity]. rewrite V by now apply H. reflexivity. }
    cbn [bind]. rewrite !O by assumption. reflexivity.
  Qed.
  (** the machine in every period of the part *)
  Lemma run_part : forall i j sub, i < j -> j <= n -> vm_periods sub = slice i j ps -> loss_values pow sub (pl_common pl) = Ok (slice i j ls) -> List.length ls = n ->
    (forall k f, k < n -> lost pow vars n (pl_common pl) k f <-> nth_error ls k = Some f) -> mc_type (pl_machine pl) = consumes ->
    (forall k, i <= k < j -> plan_works pow vars n g pl k) ->
    exists r, run_machine pow sub (pl_common pl) (pl_machine pl) (map (slice i j) rs) (option_map (slice i j) so) (option_map (slice i j) d_o) (option_map (slice i j) io) (option_map (slice i j) ro) = Ok r /\
      fr_periods r = slice i j ps /\ fr_unit r = usage_unit consumes /\ List.length (fr_energy r) = (j - i)%nat /\ List.length (fr_valid r) = (j - i)%nat /\
      (forall k e v, nth_error (fr_energy r) k = Some e -> nth_error (fr_valid r) k = Some v -> plan_energy pow vars n g pl (i + k) e v) /\
      (if mc_has_power (pl_machine pl) then exists pw, fr_power r = Some pw /\ List.length pw = (j - i)%nat /\ forall k w, nth_error pw k = Some w -> plan_power pow vars n g pl (i + k) w
       else fr_power r = None).
  Proof.
    intros i j sub L1 L2 Ps El Ll Vl Ty Wk. unfold run_machine. assert (List.length (vm_periods sub) = j - i) as Lp by (rewrite Ps; now apply slice_length). rewrite Lp, (points_part i j L1 L2). cbn [bind]. unfold machine_result.
    assert (exists outs, mapM (mc_run (pl_machine pl)) (map (fun k => vec_point (i + k)) (seq 0 (j - i))) = Ok outs /\ List.length outs = j - i /\
      forall k o, nth_error outs k = Some o -> k < j - i /\ mc_run (pl_machine pl) (vec_point (i + k)) = Ok o) as (outs & -> & Lo' & Vo).
    { destruct (forall2_exists _ _ (fun x y => mc_run (pl_machine pl) x = Ok y) (map (fun k => vec_point (i + k)) (seq 0 (j - i)))) as (outs & F).
      { intros x I. apply in_map_iff in I as (k & <- & I). apply in_seq in I. apply (Wk (i + k)); [lia|]. apply Pt; [lia|reflexivity]. }
      exists outs. split; [now apply mapM_Ok|]. pose proof (forall2_length_eq _ _ _ _ _ F) as Lf. rewrite map_length, seq_length in Lf. split; [congruence|].
      intros k o K. assert (k < j - i) as Lk by (rewrite Lf; apply nth_error_Some; congruence). split; [exact Lk|].
      clear -F K Lk. assert (nth_error (map (fun k => vec_point (i + k)) (seq 0 (j - i))) k = Some (vec_point (i + k))) as K'.
      { rewrite nth_error_map. rewrite (nth_error_nth' _ 0) by now rewrite seq_length. rewrite seq_nth by exact Lk. reflexivity. }
      set (q := vec_point (i + k)) in *. clearbody q. clear Lk. revert k K K'. generalize dependent (map (fun k => vec_point (i + k)) (seq 0 (j - i))). intros l F. induction F as [|a b l m H F IH]; intros k K K'; destruct k; try discriminate; cbn [nth_error] in *; [congruence|]. apply (IH k K K'). }
    cbn [bind]. rewrite El. cbn [bind].
    assert (List.length (slice i j ls) = j - i) as Lsl by (apply slice_length; lia).
    destruct (apply_loss_num (map mo_energy outs) (slice i j ls)) as (energy & -> & Le & Ve). { rewrite map_length. congruence. } cbn [bind].
    destruct (apply_loss_num (map mo_power outs) (slice i j ls)) as (power & Ep & Lpw & Vp). { rewrite map_length. congruence. }
    assert (exists pw, (if mc_has_power (pl_machine pl) then do p <- apply_power_loss (map mo_power outs) (slice i j ls); Ok (Some p) else Ok None) = Ok pw /\ pw = if mc_has_power (pl_machine pl) then Some power else None) as (pw & -> & Epw).
    { destruct (mc_has_power _); [rewrite Ep; cbn [bind]|]; eauto. }
    cbn [bind]. eexists. split; [reflexivity|]. cbn [fr_periods fr_unit fr_energy fr_valid fr_power]. rewrite Ty, map_length in *. split; [exact Ps|]. split; [reflexivity|]. split; [congruence|]. split; [exact Lo'|].
    assert (forall k o, nth_error outs k = Some o -> exists f, nth_error (slice i j ls) k = Some f /\ lost pow vars n (pl_common pl) (i + k) f /\ mc_run (pl_machine pl) (vec_point (i + k)) = Ok o /\ point_at pow vars n g pl (i + k) (vec_point (i + k))) as G.
    { intros k o K. destruct (Vo k o K) as [Lk Eo]. exists (nth (i + k) ls 0%Qc). split; [apply slice_nth; auto|]. split; [apply Vl; [lia|apply nth_error_nth'; lia]|]. split; [exact Eo|]. apply Pt; [lia|reflexivity]. }
    split.
    - intros k e v Ke Kv. rewrite nth_error_map in Kv. destruct (nth_error outs k) as [o|] eqn:Ko; [|discriminate]. injection Kv as <-. destruct (G k o Ko) as (f & Kf & Hl & Er & Hp).
      exists (vec_point (i + k)), o, f. split; [exact Hp|]. split; [exact Er|]. split; [exact Hl|]. split; [|reflexivity]. apply (Ve k _ f); [now rewrite nth_error_map, Ko|exact Kf|exact Ke].
    - rewrite Epw. destruct (mc_has_power (pl_machine pl)); [|reflexivity]. exists power. split; [reflexivity|]. split; [congruence|]. intros k w Kw.
      destruct (nth_error outs k) as [o|] eqn:Ko; [|apply nth_error_None in Ko; assert (k < List.length power) by (apply nth_error_Some; congruence); lia]. destruct (G k o Ko) as (f & Kf & Hl & Er & Hp).
      exists (vec_point (i + k)), o, f. split; [exact Hp|]. split; [exact Er|]. split; [exact Hl|]. apply (Vp k _ f); [now rewrite nth_error_map, Ko|exact Kf|exact Kw].
  Qed.
  End Vectors.
End Part.

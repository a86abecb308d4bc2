(** Proofs about consumers: direct energy usage models. *)
From Coq Require Import PeanoNat String.
From Verif Require Import Attributes_Proofs Attributes_Proofs2 QcTac Num Time_Model Time_Spec Time_Proofs Time_Proofs2 Units_Model Rates_Model Rates_Spec Rates_Proofs Rates_Proofs3 Rates_Proofs4
  Base BaseLemmas Expr_Model Expr_Spec Expr_Proofs Vars_Model Vars_Proofs Input_Model Interp_Model Energy_Model Energy_Proofs Energy_Proofs3 Export_Proofs2 Emitters_Proofs5 Emitters_Spec
  Consumer_Model Consumer_Spec Consumer_Proofs Consumer_Proofs2 Consumer_Proofs3 Consumer_Proofs4 Consumer_Proofs5.
Local Open Scope list_scope.
Local Open Scope Z_scope.

Lemma mapM_fails : forall A B (f : A -> result B) err l x, (forall y, In y l -> (exists z, f y = Ok z) \/ f y = Err err) -> In x l -> f x = Err err -> mapM f l = Err err.
Proof.
  intros A B f err l x. induction l as [|a l IH]; intros H I E; [destruct I|]. cbn [mapM].
  destruct (H a (or_introl eq_refl)) as [(z & Ea)|Ea]; rewrite Ea; cbn [bind]; [|reflexivity].
  destruct I as [->|I]; [congruence|]. rewrite IH; auto. intros y Iy. apply H. now right.
Qed.

(** ** Rates per producing day *)
Lemma stream_values : forall mask values ty regularity, List.length regularity = List.length values -> (forall m, mask = Some m -> List.length m = List.length values) ->
  exists us, bind (apply_mask mask (map Some values)) (fun masked => match ty with CALENDAR_DAY => rates_to_stream_day masked (map Some regularity) | STREAM_DAY => Ok masked end) = Ok (map Some us) /\
    List.length us = List.length values /\
    forall k v c gk, nth_error values k = Some v -> mask_value mask k = Some c -> nth_error regularity k = Some gk ->
      exists u, nth_error us k = Some u /\ forall b, (b = false <-> c = 0%Qc) -> stream_rate_means ty v b gk u.
Proof.
  intros mask values ty regularity Lr Lm.
  assert (exists masked, apply_mask mask (map Some values) = Ok (map Some masked) /\ List.length masked = List.length values /\
    forall k v c, nth_error values k = Some v -> mask_value mask k = Some c -> nth_error masked k = Some (if Qceqb c 0 then 0%Qc else v)) as (masked & Em & L & Hm).
  { destruct mask as [m|]; cbn [apply_mask mask_value].
    - exists (map2 (fun c v : Qc => if Qceqb c 0 then 0%Qc else v) m values). rewrite np_broadcast_same by now rewrite map_length, (Lm m eq_refl). split.
      + f_equal. clear. revert values. induction m as [|c m IH]; intros [|v values]; cbn [map2 map]; try reflexivity. rewrite IH. f_equal. now destruct (Qceqb c 0).
      + split; [rewrite map2_length, (Lm m eq_refl); lia|]. intros k v c Hv Hc. rewrite nth_error_map2, Hv, Hc. reflexivity.
    - exists values. split; [reflexivity|]. split; [reflexivity|]. intros k v c Hv Hc. injection Hc as <-. exact Hv. }
  rewrite Em. cbn [bind]. destruct ty.
  - exists masked. split; [reflexivity|]. split; [exact L|]. intros k v c gk Hv Hc Hg. rewrite (Hm k v c Hv Hc). eexists. split; [reflexivity|]. intros b B. unfold stream_rate_means.
    destruct (Qceqb c 0) eqn:Q; [apply Qceqb_eq in Q; rewrite (proj2 B Q); reflexivity|]. apply Qceqb_neq in Q. destruct b; [reflexivity|]. destruct Q. now apply B.
  - exists (map2 (fun v gk : Qc => if Qceqb gk 0 then 0%Qc else (v / gk)%Qc) masked regularity). unfold rates_to_stream_day. rewrite np_broadcast_same by now rewrite !map_length, L, Lr. split.
    + f_equal. clear. revert regularity. induction masked as [|c m IH]; intros [|v values]; cbn [map2 map]; try reflexivity. rewrite IH. f_equal. unfold to_stream_day_value. cbn [nonzero].
      destruct (Qceqb v 0) eqn:Q; cbn [negb ndiv]; [reflexivity|]. now rewrite Q.
    + split; [rewrite map2_length, L, Lr; lia|]. intros k v c gk Hv Hc Hg. rewrite nth_error_map2, (Hm k v c Hv Hc), Hg. eexists. split; [reflexivity|]. intros b B. unfold stream_rate_means.
      destruct (Qceqb gk 0) eqn:G.
      * apply Qceqb_eq in G. destruct b; [right; auto|reflexivity].
      * apply Qceqb_neq in G. destruct (Qceqb c 0) eqn:Q.
        -- apply Qceqb_eq in Q. rewrite (proj2 B Q). unfold Qcdiv. ring.
        -- apply Qceqb_neq in Q. destruct b; [left; split; [exact G|field; exact G]|]. destruct Q. now apply B.
Qed.
Lemma existsb_negative : forall us, existsb (fun r : num => match r with Some q => Qcltb q 0 | None => false end) (map Some us) = true <-> exists k u, nth_error us k = Some u /\ (u < 0)%Qc.
Proof.
  intros us. rewrite existsb_exists. split.
  - intros (x & I & H). apply in_map_iff in I as (u & <- & I). apply In_nth_error in I as (k & K). exists k, u. split; [exact K|now apply Qcltb_lt].
  - intros (k & u & K & H). exists (Some u). split; [apply in_map; now apply nth_error_In in K|now apply Qcltb_lt].
Qed.

Section Direct.
  Variable pow : Qc -> Qc -> Qc.
  Variables (first : period) (rest : list period) (vars : variables_dict) (vm : variables_map).
  Let ps := first :: rest.
  Let n := List.length ps.
  Hypothesis Evm : make_variables_map ps vars = Ok vm.
  Hypothesis C : contiguous ps.
  Hypothesis Un : forall r l, dict_get String.eqb r vars = Some l -> List.length l = n.
  Variable g : list Qc.
  Hypothesis Lg : List.length g = n.
  Variable consumes : energy_usage_type.

  (** the loads of a model over the whole run, and the evaluation on a part of it *)
  Lemma direct_facts : forall m, direct_ok pow vars n m -> exists us ls, List.length us = n /\ List.length ls = n /\
    (forall k u, (k < n)%nat -> direct_load pow vars n g m k u <-> nth_error us k = Some u) /\
    (forall k f, (k < n)%nat -> lost pow vars n (dm_common m) k f <-> nth_error ls k = Some f) /\
    forall i j sub, (i < j)%nat -> (j <= n)%nat -> get_subset vm i j = Ok sub -> direct_evaluate pow consumes m (slice i j g) sub =
      if usage_type_eqb consumes (dm_type m) then
        if usage_type_eqb (dm_type m) FUEL && existsb (fun r : num => match r with Some q => Qcltb q 0 | None => false end) (map Some (slice i j us)) then Err ValidationError
        else usage_result (slice i j ps) (dm_type m) (usage_type_eqb (dm_type m) POWER) (slice i j ls) (map Some (slice i j us))
      else Err ValidationError.
  Proof.
    intros m [Hv Hc]. destruct (vector_of pow first rest vars vm Evm C Un (dm_value m) Hv) as (v & Lv & Vv & Sv). destruct (mask_of pow first rest vars vm Evm C Un (dm_common m) Hc) as (mask & Lm & Vm & Sm).
    destruct (loss_of pow first rest vars vm Evm C Un (dm_common m) Hc) as (ls & Ll & Vl & Sl). fold ps in Lv, Vv, Sv, Lm, Vm, Sm, Ll, Vl, Sl. fold n in Lv, Vv, Sv, Lm, Vm, Sm, Ll, Vl, Sl.
    set (ty := match dm_rate_type m with Some ty => ty | None => STREAM_DAY end).
    destruct (stream_values mask v ty g) as (us & Eu & Lu & Vu). { congruence. } { intros m' E. rewrite Lv. now apply Lm. }
    assert (forall k u, (k < n)%nat -> direct_load pow vars n g m k u <-> nth_error us k = Some u) as Du.
    { intros k u L. destruct (nth_error v k) as [x|] eqn:Kx; [|apply nth_error_None in Kx; lia]. destruct (nth_error g k) as [gk|] eqn:Kg; [|apply nth_error_None in Kg; lia].
      assert (exists c, mask_value mask k = Some c) as (c & Kc). { destruct mask as [m'|]; cbn [mask_value]; [|eauto]. destruct (nth_error m' k) as [c|] eqn:K; [eauto|]. apply nth_error_None in K. rewrite (Lm m' eq_refl) in K. lia. }
      destruct (Vu k x c gk Kx Kc Kg) as (u0 & Ku0 & S0). rewrite Ku0. split.
      - intros (x' & b & gk' & A1 & A2 & A3 & A4). apply (Vv k x' L) in A1. apply (Vm k b L) in A2 as (c' & Kc' & B). rewrite Kc in Kc'. injection Kc' as <-.
        assert (x' = x) as -> by congruence. assert (gk' = gk) as -> by congruence. specialize (S0 b B). fold ty in A4. f_equal.
        unfold stream_rate_means in *. destruct b; [|congruence]. destruct ty; [congruence|]. destruct S0 as [[G0 S0]|[G0 S0]], A4 as [[G1 S1]|[G1 S1]]; try contradiction; [|congruence].
        rewrite <- S1 in S0. transitivity (u0 * gk / gk)%Qc; [|rewrite S0]; field; exact G0.
      - intros E. injection E as <-. exists x. destruct (Qc_eq_dec c 0) as [Q|Q]; [exists false|exists true]; exists gk.
        + split; [now apply Vv|]. split; [apply Vm; [exact L|exists c; split; [exact Kc|tauto]]|]. split; [exact Kg|]. apply S0. tauto.
        + split; [now apply Vv|]. split; [apply Vm; [exact L|exists c; split; [exact Kc|split; [discriminate|contradiction]]]|]. split; [exact Kg|]. apply S0. split; [discriminate|contradiction]. }
    exists us, ls. split; [congruence|]. split; [exact Ll|]. split; [exact Du|]. split; [exact Vl|].
    intros i j sub L1 L2 Es. unfold direct_evaluate. destruct (usage_type_eqb consumes (dm_type m)) eqn:Ut; cbn [negb]; [|reflexivity]. fold ty.
    rewrite (Sv i j sub L1 L2 Es). cbn [bind]. rewrite (Sm i j sub L1 L2 Es). cbn [bind].
    assert (exists us', bind (apply_mask (option_map (slice i j) mask) (map Some (slice i j v))) (fun masked => match ty with CALENDAR_DAY => rates_to_stream_day masked (map Some (slice i j g)) | STREAM_DAY => Ok masked end) = Ok (map Some us') /\ us' = slice i j us) as (us' & Eu' & ->).
    { destruct (stream_values (option_map (slice i j) mask) (slice i j v) ty (slice i j g)) as (us' & Eu' & Lu' & Vu').
      { rewrite !slice_length; lia. } { intros m' E. destruct mask as [m0|]; [|discriminate]. injection E as <-. rewrite !slice_length; auto; [lia|]. rewrite (Lm m0 eq_refl). exact L2. }
      exists us'. split; [exact Eu'|]. rewrite slice_length in Lu' by lia. apply list_ext_nth. intros k. rewrite nth_error_slice. destruct (Nat.ltb_spec k (j - i)) as [K|K]; [|apply nth_error_None; lia].
      destruct (nth_error v (i + k)) as [x|] eqn:Kx; [|apply nth_error_None in Kx; lia]. destruct (nth_error g (i + k)) as [gk|] eqn:Kg; [|apply nth_error_None in Kg; lia].
      assert (exists c, mask_value mask (i + k) = Some c /\ mask_value (option_map (slice i j) mask) k = Some c) as (c & Kc & Kc').
      { destruct mask as [m'|]; cbn [mask_value option_map]; [|eauto]. destruct (nth_error m' (i + k)) as [c|] eqn:Km; [|apply nth_error_None in Km; rewrite (Lm m' eq_refl) in Km; lia].
        exists c. split; [reflexivity|]. rewrite nth_error_slice. destruct (Nat.ltb_spec k (j - i)); [exact Km|lia]. }
      destruct (Vu' k x c gk) as (u' & Ku' & S'). { rewrite nth_error_slice. destruct (Nat.ltb_spec k (j - i)); [exact Kx|lia]. } { exact Kc'. } { rewrite nth_error_slice. destruct (Nat.ltb_spec k (j - i)); [exact Kg|lia]. }
      rewrite Ku'. symmetry. apply (Du (i + k)%nat u'); [lia|]. exists x. destruct (Qc_eq_dec c 0) as [Q|Q]; [exists false|exists true]; exists gk.
      - split; [apply Vv; [lia|exact Kx]|]. split; [apply Vm; [lia|exists c; split; [exact Kc|tauto]]|]. split; [exact Kg|]. apply S'. tauto.
      - split; [apply Vv; [lia|exact Kx]|]. split; [apply Vm; [lia|exists c; split; [exact Kc|split; [discriminate|contradiction]]]|]. split; [exact Kg|]. apply S'. split; [discriminate|contradiction]. }
    destruct (part_facts pow first rest vars vm Evm C Un i j sub L1 L2 Es) as (Ps & _). fold ps in Ps.
    destruct (dm_type m) eqn:Ty; cbn [usage_type_eqb andb].
    - unfold power_values. rewrite Eu'. cbn [bind]. rewrite (Sl i j sub L1 L2 Es). cbn [bind]. now rewrite Ps.
    - unfold flow_rates. destruct (apply_mask (option_map (slice i j) mask) (map Some (slice i j v))) as [mk|]; cbn [bind] in *; [|discriminate]. rewrite Eu'. cbn [bind].
      destruct (existsb _ _); cbn [bind]; [reflexivity|]. rewrite (Sl i j sub L1 L2 Es). cbn [bind]. now rewrite Ps.
  Qed.
End Direct.

From Coq Require Import PeanoNat String.
From Verif Require Import QcTac Base BaseLemmas Time_Model Time_Spec Time_Proofs Time_Proofs2 Num Expr_Model Expr_Proofs Vars_Model
  Vars_Proofs Units_Model Rates_Model Rates_Proofs Input_Model Interp_Model Interp_Spec Interp_Proofs Energy_Model Energy_Proofs Energy_Proofs2.
Local Open Scope list_scope.
Local Open Scope Z_scope.

(** ** Regularity *)
Lemma td_map_well_formed : forall A B (f : A -> B) d, data_well_formed d -> data_well_formed (td_map f d).
Proof.
  intros A B f [m|e es|e es] H; cbn [td_map data_well_formed] in *; auto.
  - cbn [map fst] in *. rewrite map_map. cbn [fst]. exact H.
  - destruct H as [H1 H2]. change ((fst e, f (snd e)) :: map (fun e => (fst e, f (snd e))) es) with (map (fun e => (fst e, f (snd e))) (e :: es)). split.
    + intros i j a b d Ha Hb Hda Hdb. rewrite nth_error_map in Ha, Hb.
      destruct (nth_error (e :: es) i) as [a'|] eqn:Ea; [|discriminate]. destruct (nth_error (e :: es) j) as [b'|] eqn:Eb; [|discriminate].
      injection Ha as <-. injection Hb as <-. eapply H1; eauto.
    + intros a Ha. apply in_map_iff in Ha as (a' & <- & Ha). now apply H2.
Qed.
Lemma td_map_ordered : forall A B (f : A -> B) d, data_ordered d -> data_ordered (td_map f d).
Proof.
  intros A B f [m|e es|e es] H; cbn [td_map data_ordered] in *; auto. cbn [map fst] in *. rewrite map_map. cbn [fst]. exact H.
Qed.
Lemma td_map_dates : forall A B (f : A -> B) d, data_dates (td_map f d) = data_dates d.
Proof.
  intros A B f [m|e es|e es]; cbn [td_map data_dates map fst]; auto.
  - now rewrite map_map.
  - cbn [flat_map fst]. do 3 f_equal. rewrite flat_map_concat_map, map_map, <- flat_map_concat_map. reflexivity.
Qed.
Lemma td_map_models : forall A B (f : A -> B) d, data_models (td_map f d) = map f (data_models d).
Proof. intros A B f [m|e es|e es]; cbn [td_map data_models map snd]; auto; f_equal; now rewrite !map_map. Qed.
Lemma latest_model_map : forall A B (f : A -> B) l d m', latest_model (map (fun e => (fst e, f (snd e))) l) d m' ->
  exists m, m' = f m /\ latest_model l d m.
Proof.
  intros A B f l d m' H. unfold latest_model in *. destruct H as (k & H1 & H2 & H3).
  apply in_map_iff in H1 as ([k' m] & E & Hm). cbn in E. injection E as -> <-. exists m. split; [reflexivity|].
  exists k. split; [exact Hm|]. split; [exact H2|]. intros k' m'' Hk'. apply (H3 k' (f m'')). apply in_map_iff. now exists (k', m'').
Qed.
Lemma td_map_in_force : forall A B (f : A -> B) data d m', data_in_force (td_map f data) d m' ->
  exists m, m' = f m /\ data_in_force data d m.
Proof.
  intros A B f [m|e es|e es] d m' H; cbn [td_map data_in_force] in *.
  - now exists m.
  - destruct H as [Hd H]. change ((fst e, f (snd e)) :: map (fun e => (fst e, f (snd e))) es) with (map (fun e => (fst e, f (snd e))) (e :: es)) in H.
    apply latest_model_map in H as (m & -> & H). exists m. auto.
  - change ((fst e, f (snd e)) :: map (fun e => (fst e, f (snd e))) es) with (map (fun e => (fst e, f (snd e))) (e :: es)) in H.
    destruct H as (q & Hq & Hd). apply in_map_iff in Hq as ([q' m] & E & Hm). injection E as -> <-. exists m. split; [reflexivity|]. exists q. auto.
Qed.
Lemma td_map_in_force_back : forall A B (f : A -> B) data d m, data_in_force data d m -> data_in_force (td_map f data) d (f m).
Proof.
  intros A B f [m0|e es|e es] d m H; cbn [td_map data_in_force] in *.
  - now subst.
  - destruct H as [Hd H]. split; [exact Hd|].
    change ((fst e, f (snd e)) :: map (fun e => (fst e, f (snd e))) es) with (map (fun e => (fst e, f (snd e))) (e :: es)).
    destruct H as (k & H1 & H2 & H3). exists k. split; [apply in_map_iff; now exists (k, m)|]. split; [exact H2|].
    intros k' m' Hk'. apply in_map_iff in Hk' as ([k2 m2] & E & Hm2). injection E as -> <-. now apply (H3 k' m2).
  - change ((fst e, f (snd e)) :: map (fun e => (fst e, f (snd e))) es) with (map (fun e => (fst e, f (snd e))) (e :: es)).
    destruct H as (q & Hq & Hd). exists q. split; [apply in_map_iff; now exists (q, m)|exact Hd].
Qed.

Theorem regularity_proof : forall pow first rest vars vm (data : temporal_data expression_input) target,
  let ps := first :: rest in
  let n := length ps in
  make_variables_map ps vars = Ok vm -> contiguous ps ->
  (forall r l, dict_get String.eqb r vars = Some l -> length l = n) ->
  data_well_formed data -> data_ordered data -> nonempty target -> p_end target <= DT_MAX ->
  (forall t p, t = p_start target \/ t = p_end target \/ In t (data_dates data) -> In p ps -> ~ (p_start p < t < p_end p)) ->
  (forall e, In e (data_models data) -> exists v, evaluate pow (input_tokens e) vars n = Ok v) ->
  data <> TDPlain (INumber 0%Qc) -> data <> TDPlain (IText []) ->
  (* x is the value written for period k *)
  let written k x := exists p d e v, nth_error ps k = Some p /\ In_period d p /\ In_period d target /\
    data_in_force data d e /\ evaluate pow (input_tokens e) vars n = Ok v /\ nth_error v k = Some x in
  ((forall k x, written k x -> (0 <= x)%Qc /\ (x <= 1)%Qc) ->
     exists values, regularity_values pow (Some data) target vm = Ok values /\ length values = n /\
       forall k x, written k x -> nth_error values k = Some x) /\
  ((exists k x, written k x /\ ~ ((0 <= x)%Qc /\ (x <= 1)%Qc)) -> regularity_values pow (Some data) target vm = Err ValidationError).
Proof.
  intros pow first rest vars vm data target. cbv zeta. intros Evm Hc Hu Hwf Hord Ht Hmax Hcut Hev Hn0 Hne.
  destruct (temporal_expression_proof pow first rest vars vm (td_map input_tokens data) target Evm Hc Hu) as (vec & E & L & H);
    auto using td_map_well_formed, td_map_ordered.
  { intros t p. rewrite td_map_dates. apply Hcut. }
  { intros ts. rewrite td_map_models, in_map_iff. intros (e & <- & He). now apply Hev. }
  set (ps := first :: rest) in *.
  assert (or_default 1%Qc (Some data) = data) as Ed.
  { unfold or_default. destruct data as [[q|[|t ts]]|e es|e es]; cbn [truthy]; auto; [|congruence].
    destruct (Qceqb q 0) eqn:Eq; cbn [negb]; auto. apply Qceqb_eq in Eq. subst. congruence. }
  assert (forall k x, (exists p d e v, nth_error ps k = Some p /\ In_period d p /\ In_period d target /\
    data_in_force data d e /\ evaluate pow (input_tokens e) vars (length ps) = Ok v /\ nth_error v k = Some x) -> nth_error vec k = Some x) as Hw.
  { intros k x (p & d & e & v & Hk & Hd & Hdt & Hf & Ev & Hx). destruct (H k p Hk) as [H1 _].
    destruct (H1 d (input_tokens e) Hd Hdt) as (v' & Ev' & Hv'); [now apply td_map_in_force_back|].
    assert (v' = v) as -> by congruence. congruence. }
  unfold regularity_values. rewrite Ed, E. cbn [bind]. split.
  - intros Hall. exists vec. split; [|split; [exact L|exact Hw]].
    replace (forallb (fun v => (Qcleb 0 v && Qcleb v 1)%bool) vec) with true; auto. symmetry. apply forallb_forall. intros x Hx.
    apply In_nth_error in Hx as [k Hx].
    assert ((0 <= x)%Qc /\ (x <= 1)%Qc) as [B1 B2].
    { destruct (Qcleb 0 x && Qcleb x 1)%bool eqn:B.
      - apply andb_prop in B as [B1 B2]. split; now apply Qcleb_le.
      - exfalso. destruct (nth_error ps k) as [p|] eqn:Hk.
        2:{ apply nth_error_None in Hk. assert (nth_error vec k <> None) as Hnn by congruence. apply nth_error_Some in Hnn. lia. }
        destruct (H k p Hk) as [H1 H2]. rewrite H2 in Hx.
        + injection Hx as <-. discriminate.
        + intros d ts Hd (Hdt & Hf). destruct (td_map_in_force _ _ _ _ _ _ Hf) as (e & -> & Hfe).
          destruct (H1 d (input_tokens e) Hd Hdt Hf) as (v & Ev & Hv).
          destruct (Hall k x) as [B1 B2].
          { exists p, d, e, v. repeat (split; auto). congruence. }
          apply Qcleb_le in B1, B2. rewrite B1, B2 in B. discriminate. }
    apply Qcleb_le in B1, B2. now rewrite B1, B2.
  - intros (k & x & Hwr & Hbad). apply Hw in Hwr.
    destruct (forallb (fun v => (Qcleb 0 v && Qcleb v 1)%bool) vec) eqn:F; auto. exfalso. apply Hbad.
    rewrite forallb_forall in F. apply nth_error_In in Hwr. apply F in Hwr. apply andb_prop in Hwr as [B1 B2].
    split; now apply Qcleb_le.
Qed.

Lemma evaluate_number : forall pow q vars n, evaluate pow [TNum q] vars n = Ok (repeat q n).
Proof. reflexivity. Qed.

(** the number 0 (and the empty text, and no input) means regularity 1 *)
Theorem regularity_zero_proof : forall pow first rest vars vm target,
  let ps := first :: rest in
  make_variables_map ps vars = Ok vm -> contiguous ps ->
  (forall r l, dict_get String.eqb r vars = Some l -> length l = length ps) ->
  p_start target <= p_start first -> p_end (last rest first) <= p_end target -> p_end target <= DT_MAX ->
  regularity_values pow (Some (TDPlain (INumber 0%Qc))) target vm = Ok (repeat 1%Qc (length ps)) /\
  regularity_values pow None target vm = Ok (repeat 1%Qc (length ps)).
Proof.
  intros pow first rest vars vm target ps Evm Hc Hu T1 T2 T3.
  assert (regularity_values pow (Some (TDPlain (INumber 1%Qc))) target vm = Ok (repeat 1%Qc (length ps))) as H.
  { pose proof (whole_nonempty _ _ Hc) as Hw. unfold nonempty, whole_of in Hw. cbn [p_start p_end] in Hw.
    assert (nonempty target) as Ht by (unfold nonempty; lia).
    destruct (regularity_proof pow first rest vars vm (TDPlain (INumber 1%Qc)) target Evm Hc Hu I I Ht T3) as [H _].
    - intros t p [->|[->|[]]] Hp [L1 L2]; apply In_nth_error in Hp as [k Hk];
        pose proof (contiguous_nonempty _ _ Hc (nth_error_In _ _ Hk)) as Hn; unfold nonempty in Hn.
      + pose proof (contiguous_bounds _ _ _ (p_start p) _ Hc Hk ltac:(unfold In_period; lia)). lia.
      + pose proof (contiguous_bounds _ _ _ (p_end p - 1) _ Hc Hk ltac:(unfold In_period; lia)) as B. rewrite last_shift in B. lia.
    - intros e [<-|[]]. eexists. apply evaluate_number.
    - discriminate.
    - discriminate.
    - destruct H as (values & E & L & Hv).
      { intros k x (p & d & e & v & Hk & Hd & Hdt & -> & Ev & Hx). cbn [input_tokens] in Ev. rewrite evaluate_number in Ev.
        assert (v = repeat 1%Qc (length (first :: rest))) as -> by congruence. apply nth_error_In in Hx. apply (repeat_spec (length (first :: rest)) 1%Qc) in Hx. subst. split; discriminate. }
      rewrite E. f_equal. apply list_ext_nth. intros k.
      destruct (nth_error (first :: rest) k) as [p|] eqn:Hk.
      + pose proof (contiguous_nonempty _ _ Hc (nth_error_In _ _ Hk)) as Hn. unfold nonempty in Hn.
        assert (k < length ps)%nat as Lk by (apply nth_error_Some; unfold ps; congruence).
        assert (nth_error (repeat 1%Qc (length ps)) k = Some 1%Qc) as Er.
        { rewrite (nth_error_nth' _ 1%Qc); [f_equal; apply nth_repeat|now rewrite repeat_length]. }
        rewrite Er. apply Hv.
        pose proof (contiguous_bounds _ _ _ (p_start p) _ Hc Hk ltac:(unfold In_period; lia)) as B. rewrite last_shift in B.
        exists p, (p_start p), (INumber 1%Qc), (repeat 1%Qc (length ps)).
        split; [exact Hk|]. split; [unfold In_period; lia|]. split; [unfold In_period; lia|]. split; [reflexivity|]. split; [apply evaluate_number|exact Er].
      + apply nth_error_None in Hk. rewrite (proj2 (nth_error_None values k)) by (rewrite L; exact Hk).
        symmetry. apply nth_error_None. rewrite repeat_length. exact Hk. }
  split; exact H.
Qed.

(** ** Flow rates *)
Definition mask_value (mask : option (list Qc)) (k : nat) : option Qc :=
  match mask with None => Some 1%Qc | Some m => nth_error m k end.
Theorem flow_rate_proof : forall mask values ty regularity, length regularity = length values ->
  (forall m, mask = Some m -> length m = length values) ->
  (* the rate the input means in period k *)
  let meant k r := exists v c g, nth_error values k = Some v /\ mask_value mask k = Some c /\ nth_error regularity k = Some g /\
    match ty with
    | STREAM_DAY => r = (if Qceqb c 0 then 0%Qc else v)
    | CALENDAR_DAY => if Qceqb c 0 then r = 0%Qc else if Qceqb g 0 then r = 0%Qc else (r * g)%Qc = v
    end in
  ((forall k r, meant k r -> (0 <= r)%Qc) ->
    exists rates, flow_rates mask (map Some values) ty (map Some regularity) = Ok rates /\ length rates = length values /\
      forall k r, meant k r -> nth_error rates k = Some (Some r)) /\
  ((exists k r, meant k r /\ (r < 0)%Qc) -> flow_rates mask (map Some values) ty (map Some regularity) = Err ValidationError).
Proof.
  intros mask values ty regularity Lr Lm. cbv zeta.
  assert (exists masked, apply_mask mask (map Some values) = Ok masked /\ length masked = length values /\
    forall k v c, nth_error values k = Some v -> mask_value mask k = Some c -> nth_error masked k = Some (Some (if Qceqb c 0 then 0%Qc else v))) as (masked & Em & Lmk & Hm).
  { destruct mask as [m|]; cbn [apply_mask mask_value].
    - unfold np_broadcast. rewrite map_length, (Lm m eq_refl), Nat.eqb_refl. eexists. split; [reflexivity|].
      split; [rewrite map2_length, map_length, (Lm m eq_refl); lia|]. intros k v c Hv Hc.
      rewrite nth_error_map2, nth_error_map, Hv, Hc. cbn. now destruct (Qceqb c 0).
    - eexists. split; [reflexivity|]. split; [apply map_length|]. intros k v c Hv Hc. injection Hc as <-.
      rewrite nth_error_map, Hv. reflexivity. }
  assert (exists rates, match ty with CALENDAR_DAY => rates_to_stream_day masked (map Some regularity) | STREAM_DAY => Ok masked end = Ok rates /\
    length rates = length values /\ forall k v c g, nth_error values k = Some v -> mask_value mask k = Some c -> nth_error regularity k = Some g ->
      nth_error rates k = Some (Some (match ty with
        | STREAM_DAY => (if Qceqb c 0 then 0%Qc else v)
        | CALENDAR_DAY => if Qceqb c 0 then 0%Qc else if Qceqb g 0 then 0%Qc else (v / g)%Qc end))) as (rates & Er & Lrt & Hr).
  { destruct ty.
    - exists masked. split; [reflexivity|]. split; [exact Lmk|]. intros k v c g Hv Hc Hg. now apply Hm.
    - unfold rates_to_stream_day, np_broadcast. rewrite map_length, Lmk, Lr, Nat.eqb_refl. eexists. split; [reflexivity|].
      split; [rewrite map2_length, map_length, Lmk; lia|]. intros k v c g Hv Hc Hg.
      rewrite nth_error_map2, nth_error_map, (Hm k v c Hv Hc), Hg. cbn [option_map]. unfold to_stream_day_value. cbn [nonzero].
      destruct (Qceqb g 0) eqn:G; cbn [negb ndiv]; rewrite ?G; [now destruct (Qceqb c 0)|].
      destruct (Qceqb c 0); do 2 f_equal. unfold Qcdiv. ring. }
  unfold flow_rates. rewrite Em. cbn [bind]. rewrite Er. cbn [bind].
  assert (forall k r, (exists v c g, nth_error values k = Some v /\ mask_value mask k = Some c /\ nth_error regularity k = Some g /\
    match ty with
    | STREAM_DAY => r = (if Qceqb c 0 then 0%Qc else v)
    | CALENDAR_DAY => if Qceqb c 0 then r = 0%Qc else if Qceqb g 0 then r = 0%Qc else (r * g)%Qc = v
    end) -> nth_error rates k = Some (Some r)) as Hmeant.
  { intros k r (v & c & g & Hv & Hc & Hg & Hx). rewrite (Hr k v c g Hv Hc Hg). do 2 f_equal. destruct ty; auto.
    destruct (Qceqb c 0); auto. destruct (Qceqb g 0) eqn:G; auto. apply Qceqb_neq in G. subst v. field. exact G. }
  split.
  - intros Hall. exists rates. split; [|split; [exact Lrt|exact Hmeant]].
    replace (existsb _ rates) with false; auto. symmetry. apply Bool.not_true_is_false. intros B.
    apply existsb_exists in B as (x & Hx & Bx). apply In_nth_error in Hx as [k Hk].
    assert (k < length values)%nat as Lk by (rewrite <- Lrt; apply nth_error_Some; congruence).
    destruct (nth_error values k) as [v|] eqn:Hv; [|apply nth_error_None in Hv; lia].
    destruct (nth_error regularity k) as [g|] eqn:Hg; [|apply nth_error_None in Hg; lia].
    assert (exists c, mask_value mask k = Some c) as (c & Hc).
    { destruct mask as [m|]; cbn; [|eexists; reflexivity]. destruct (nth_error m k) as [c|] eqn:Ek; [now exists c|].
      apply nth_error_None in Ek. rewrite (Lm m eq_refl) in Ek. lia. }
    rewrite (Hr k v c g Hv Hc Hg) in Hk. injection Hk as <-. apply Qcltb_lt in Bx.
    assert (forall r, (0 <= r)%Qc -> (r < 0)%Qc -> False) as Hcontra by (intros; qc_lra).
    refine (Hcontra _ _ Bx). apply (Hall k). exists v, c, g. split; [exact Hv|]. split; [exact Hc|]. split; [exact Hg|].
    destruct ty; auto. destruct (Qceqb c 0); auto. destruct (Qceqb g 0) eqn:G; auto. apply Qceqb_neq in G. field. exact G.
  - intros (k & r & Hkr & Lneg). apply Hmeant in Hkr. replace (existsb _ rates) with true; auto. symmetry.
    apply existsb_exists. exists (Some r). split; [now apply nth_error_In in Hkr|]. now apply Qcltb_lt.
Qed.

(** ** Cable loss *)
Theorem cable_loss_proof : forall (category : list (period * bool)) ps power loss,
  length power = length ps -> length loss = length ps -> (forall p, In p ps -> nonempty p) ->
  exists effective total, cable_loss_values category ps loss = Ok effective /\ power_production (map Some power) (Some effective) = Ok total /\
    length total = length ps /\
    forall k p x l, nth_error ps k = Some p -> nth_error power k = Some x -> nth_error loss k = Some l ->
      (* the whole period lies in an entry of the category model and the first such entry is power from shore *)
      (forall q c, find (fun e => contains_period (fst e) p) category = Some (q, c) ->
         nth_error total k = Some (Some (if c then x * (1 + l) else x)%Qc)) /\
      (find (fun e => contains_period (fst e) p) category = None -> nth_error total k = Some (Some x)).
Proof.
  intros category ps power loss Lp Ll Hne.
  set (eff := fun pl : period * Qc => match find (fun e => contains_period (fst e) (fst pl)) category with Some (q, true) => snd pl | _ => 0%Qc end).
  assert (cable_loss_values category ps loss = Ok (map eff (zip ps loss))) as Ec.
  { unfold cable_loss_values. induction (zip ps loss) as [|pl l IH]; [reflexivity|]. cbn [mapM map]. rewrite IH.
    unfold get_model_for_period, eff. destruct (find _ category) as [[q [|]]|]; reflexivity. }
  exists (map eff (zip ps loss)). 
  assert (zip ps loss = combine ps loss) as Ez.
  { clear. revert loss. induction ps as [|p ps IH]; intros [|l loss]; cbn; auto. }
  assert (length (map eff (zip ps loss)) = length ps) as Le. { rewrite map_length, Ez, combine_length. lia. }
  unfold power_production, np_broadcast. rewrite map_length, Lp, Le, Nat.eqb_refl. eexists. split; [exact Ec|]. split; [reflexivity|].
  split; [rewrite map2_length, map_length; lia|]. intros k p x l Hp Hx Hl.
  assert (nth_error (map eff (zip ps loss)) k = Some (eff (p, l))) as Hk.
  { rewrite nth_error_map, Ez. replace (nth_error (combine ps loss) k) with (Some (p, l)); [reflexivity|]. symmetry.
    clear - Hp Hl. revert k loss Hp Hl. induction ps as [|a ps IH]; intros [|k] [|b loss] Hp Hl; cbn in *; try discriminate; [congruence|]. now apply IH. }
  rewrite nth_error_map2, nth_error_map, Hx, Hk. cbn [option_map nmul num_lift2]. unfold eff. cbn [fst snd]. split.
  - intros q c Hf. rewrite Hf. destruct c; do 2 f_equal. ring.
  - intros Hf. rewrite Hf. do 2 f_equal. ring.
Qed.

(** ** Turbines *)
Theorem turbine_proof : forall loads efficiencies lhv a b t fuel_lhv, make_turbine loads efficiencies lhv a b = Ok t ->
  NoDup loads -> (0 < a)%Qc ->
  length loads = length efficiencies /\
  let heat := if Qcltb 0 fuel_lhv then fuel_lhv else lhv in
  (* positive power in the table *)
  (forall x, (0 < x)%Qc -> in_range (combine loads efficiencies) ((x + b) / a) -> (0 < heat)%Qc ->
     exists e, interpolates (combine loads efficiencies) ((x + b) / a)%Qc e /\ (0 <= e)%Qc /\ (e <= 1)%Qc /\
       let r := turbine_evaluate t fuel_lhv (Some x) in
       tr_load r = Some ((x + b) / a)%Qc /\ tr_efficiency r = Some e /\
       (e <> 0%Qc -> exists u, tr_usage r = Some u /\ (u * e * heat = (x + b) / a * qz 86400)%Qc)) /\
  (* no power, no fuel *)
  ((forall l, In l loads -> (0 <= l)%Qc) -> forall x, (x <= 0)%Qc -> tr_usage (turbine_evaluate t fuel_lhv (Some x)) = Some 0%Qc) /\
  (* the flag compares the power itself with the largest load *)
  (exists m, maximum_of loads m /\ turbine_max_power t = (m * a - b)%Qc /\
     (forall x, tr_exceeds (turbine_evaluate t fuel_lhv (Some x)) = true <-> (m < x)%Qc) /\
     (forall x, (m < (x + b) / a)%Qc <-> (turbine_max_power t < x)%Qc)).
Proof.
  intros loads efficiencies lhv a b t fuel_lhv H Hnd Ha. unfold make_turbine in H.
  destruct (list_max loads) as [m|] eqn:Em; [|discriminate]. cbn [bind] in H.
  destruct (Nat.eqb (length loads) (length efficiencies)) eqn:El; [|discriminate]. cbn [negb] in H. apply Nat.eqb_eq in El.
  destruct (forallb (fun x => (Qcleb 0 x && Qcleb x 1)%bool) efficiencies) eqn:Ee; [|discriminate]. cbn [negb] in H.
  destruct (last_opt efficiencies) as [le|] eqn:Ele; [|discriminate]. cbn [of_option bind] in H.
  destruct (make_interpolator loads efficiencies (Some 0%Qc) (Some le)) as [f|] eqn:Ef; [|discriminate]. cbn [bind] in H. injection H as <-.
  split; [exact El|]. cbv zeta. set (heat := if Qcltb 0 fuel_lhv then fuel_lhv else lhv).
  destruct (interpolation_proof loads efficiencies _ _ f Hnd Ef) as (HI & HR & HB & HA & HN).
  assert (forall c yc, In (c, yc) (combine loads efficiencies) -> (0 <= yc)%Qc /\ (yc <= 1)%Qc) as Hey.
  { intros c yc Hc. apply in_combine_r in Hc. rewrite forallb_forall in Ee. apply Ee in Hc. apply andb_prop in Hc as [B1 B2].
    split; now apply Qcleb_le. }
  assert (forall x e, interpolates (combine loads efficiencies) x e -> (0 <= e)%Qc /\ (e <= 1)%Qc) as Hbound.
  { intros x e [Hp|(c & yc & d & yd & I1 & I2 & L1 & L2 & _ & ->)]; [now apply (Hey x)|].
    destruct (between_proof x c yc d yd L1 L2) as [B1 B2]. destruct (Hey _ _ I1), (Hey _ _ I2).
    revert B1 B2. generalize (yc + (yd - yc) * ((x - c) / (d - c)))%Qc. intros z. qc_cases; intros; split; qc_lra. }
  assert (a <> 0%Qc) as Ha0 by (intros E; rewrite E in Ha; qc_lra).
  split; [|split].
  - intros x Hx Rx Hh. destruct (HR _ Rx) as (e & He & Ee'). destruct (Hbound _ _ He) as [E0 E1].
    exists e. split; [exact He|]. split; [exact E0|]. split; [exact E1|].
    unfold turbine_evaluate. cbn [tu_function tu_constant tu_factor tu_lhv tu_maximum_load]. fold heat.
    replace (Qcltb 0 x) with true by (symmetry; now apply Qcltb_lt). cbn [ndiv].
    replace (Qceqb a 0) with false by (symmetry; now apply Qceqb_neq). rewrite Ee'. cbn [tr_load tr_efficiency tr_usage].
    split; [reflexivity|]. split; [reflexivity|]. intros Ne. cbn [nonzero].
    assert (heat <> 0%Qc) as Nh by (intros Q; rewrite Q in Hh; qc_lra).
    assert (Qceqb heat 0 = false) as Bh by now apply Qceqb_neq. assert (Qceqb e 0 = false) as Be by now apply Qceqb_neq.
    rewrite Bh, Be. cbn [negb nmul num_lift2 ndiv]. rewrite Bh. cbn [ndiv]. rewrite Be.
    eexists. split; [reflexivity|]. field. auto.
  - intros Hpos x Hx. unfold turbine_evaluate. cbn [tu_function tu_constant tu_factor tu_lhv tu_maximum_load tr_usage]. fold heat.
    replace (Qcltb 0 x) with false by (symmetry; now apply Qcltb_ge).
    destruct (Qceqb heat 0) eqn:Hh; [reflexivity|].
    destruct (Qc_eq_dec x 0) as [->|Nx].
    + assert (nmul (Some 0%Qc) (Some (qz 86400)) = Some 0%Qc) as Em0 by (cbn; f_equal; ring).
      rewrite Em0. cbn [ndiv]. rewrite Hh.
      assert ((0 / heat)%Qc = 0%Qc) as -> by (field; now apply Qceqb_neq).
      destruct (interpolate_1d f (Some 0%Qc)) as [e|] eqn:Ei.
      * cbn [nonzero ndiv]. destruct (Qceqb e 0) eqn:E0; cbn [negb]; [reflexivity|]. f_equal. field. now apply Qceqb_neq.
      * exfalso. destruct (Forall_Exists_dec (fun p : Qc * Qc => (0 < fst p)%Qc)
          (fun p => match Qclt_le_dec 0 (fst p) with left H => left H | right H => right (Qcle_not_lt _ _ H) end) (combine loads efficiencies)) as [Hall|Hex].
        { rewrite Forall_forall in Hall. rewrite (HB 0%Qc) in Ei; [discriminate|]. intros c yc Hc. now apply (Hall (c, yc)). }
        apply Exists_exists in Hex as ([c yc] & Ic & Nc). cbn [fst] in Nc.
        assert (c = 0%Qc) as ->. { pose proof (Hpos c (in_combine_l _ _ _ _ Ic)). apply Qcle_antisym; auto. now apply Qcnot_lt_le. }
        rewrite (HI 0%Qc yc (or_introl Ic)) in Ei. discriminate.
    + rewrite (HB x); [reflexivity|]. intros c yc Hc. pose proof (Hpos c (in_combine_l _ _ _ _ Hc)).
      apply Qcle_lt_or_eq in Hx as [Hx|Hx]; [qc_lra|congruence].
  - exists m. split; [now apply list_max_spec|]. split; [reflexivity|]. split.
    + intros x. unfold turbine_evaluate. cbn [tr_exceeds tu_maximum_load]. apply Qcltb_lt.
    + intros x. unfold turbine_max_power. cbn [tu_maximum_load tu_factor tu_constant].
      remember ((x + b) / a)%Qc as z eqn:Ez. assert (x = z * a - b)%Qc as -> by (rewrite Ez; field; exact Ha0). clear Ez. split; intros L; [qc_nra|].
      destruct (Qclt_le_dec m z) as [L'|L']; auto. exfalso. assert (z * a <= m * a)%Qc by (clear L; qc_nra). qc_lra.
Qed.

(** ** Refutations *)
Definition grid3 := [mkPeriod 0 10; mkPeriod 10 20; mkPeriod 20 30].
Definition vm3 : variables_map := mkVM grid3 [0; 10; 20; 30] [("x"%string, [qz 1; qz 2; qz 3])].
Definition table2 := mkTable ["POWER"; "FUEL"]%string [[qz 1; qz 10; qz 20]; [qz 100; qz 300; qz 400]].
Definition genset2 := mkGenset (mkInterpolator [(qz 1, qz 100); (qz 10, qz 300); (qz 20, qz 400)] (Some (qz 100)) (Some (qz 400))) (qz 20).

(** a fuel with the emissions CO2 and co2 is an assertion failure *)
Theorem emissions_duplicate_refuted_proof : exists ps vars vm (tm : list (period * fuel_type)) fuel,
  make_variables_map ps vars = Ok vm /\ contiguous ps /\
  tm = [(mkPeriod 0 30, [make_emission "CO2" [TNum (qz 2)]; make_emission "co2" [TNum (qz 3)]])] /\
  length fuel = length ps /\ forall pow, evaluate_emissions pow vm tm fuel = Err AssertionError.
Proof.
  exists grid3, [("x"%string, [qz 1; qz 2; qz 3])], vm3, [(mkPeriod 0 30, [make_emission "CO2" [TNum (qz 2)]; make_emission "co2" [TNum (qz 3)]])],
    [Some (qz 1); Some (qz 1); Some (qz 1)].
  split; [reflexivity|]. split; [cbn; unfold nonempty; cbn; lia|]. split; [reflexivity|]. split; [reflexivity|].
  intros pow. vm_compute. reflexivity.
Qed.

(** a period before the first model of a generator set is invalid, but its margin is not negative *)
Theorem genset_margin_refuted_proof : exists ps vars vm (tm : list (period * generator_set)) power r,
  make_variables_map ps vars = Ok vm /\ contiguous ps /\ make_generator_set table2 = Ok genset2 /\ tm = [(mkPeriod 10 30, genset2)] /\
  evaluate_process_model vm tm (Some power) = Ok r /\ nth_error power 0 = Some (Some (qz 5)) /\
  nth_error (gr_valid r) 0 = Some false /\ nth_error (gr_margin r) 0 = Some (Some 0%Qc) /\ nth_error (gr_fuel r) 0 = Some (Some 0%Qc).
Proof.
  exists grid3, [("x"%string, [qz 1; qz 2; qz 3])], vm3, [(mkPeriod 10 30, genset2)], [Some (qz 5); Some (qz 5); Some (qz 5)].
  eexists. split; [reflexivity|]. split; [cbn; unfold nonempty; cbn; lia|]. split; [vm_compute; reflexivity|]. split; [reflexivity|].
  split; [vm_compute; reflexivity|]. split; [reflexivity|]. split; [reflexivity|]. split; reflexivity.
Qed.

(** the flag of a turbine ignores the adjustment *)
Theorem turbine_flag_refuted_proof : exists loads efficiencies lhv a b t x,
  make_turbine loads efficiencies lhv a b = Ok t /\ (0 < a)%Qc /\
  (x < turbine_max_power t)%Qc /\ tr_exceeds (turbine_evaluate t 0%Qc (Some x)) = true.
Proof.
  exists [qz 0; qz 10], [qc 1 10; qc 3 10], (qz 40), (qz 2), (qz 0). eexists. exists (qz 15).
  split; [vm_compute; reflexivity|]. split; [reflexivity|]. split; reflexivity.
Qed.
(** power below the table costs nothing *)
Theorem turbine_below_refuted_proof : exists loads efficiencies lhv t x,
  make_turbine loads efficiencies lhv 1%Qc 0%Qc = Ok t /\ (0 < lhv)%Qc /\ (0 < x)%Qc /\
  tr_usage (turbine_evaluate t 0%Qc (Some x)) = Some 0%Qc /\ tr_exceeds (turbine_evaluate t 0%Qc (Some x)) = false.
Proof.
  exists [qz 5; qz 10], [qc 1 10; qc 3 10], (qz 40). eexists. exists (qz 1).
  split; [vm_compute; reflexivity|]. split; [reflexivity|]. split; [reflexivity|]. split; reflexivity.
Qed.

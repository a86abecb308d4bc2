(** Proofs about consumers: tabulated energy usage models. *)
From Coq Require Import PeanoNat String.
From Verif Require Import Attributes_Proofs Attributes_Proofs2 QcTac Num Time_Model Time_Spec Time_Proofs Time_Proofs2 Units_Model Rates_Model Rates_Spec Rates_Proofs Rates_Proofs3 Rates_Proofs4
  Base BaseLemmas Expr_Model Expr_Spec Expr_Proofs Vars_Model Vars_Proofs Input_Model Input_Proofs Input_Proofs2 Interp_Model Interp_Spec Interp_Proofs Energy_Model Energy_Proofs Energy_Proofs2 Energy_Proofs3 Export_Proofs2 Emitters_Proofs5 Emitters_Spec
  Consumer_Model Consumer_Spec Consumer_Proofs Consumer_Proofs2 Consumer_Proofs3 Consumer_Proofs4 Consumer_Proofs5 Consumer_Proofs6 Consumer_Proofs7 Consumer_Proofs8.
Local Open Scope list_scope.
Local Open Scope nat_scope.

Section Stream.
  Variable pow : Qc -> Qc -> Qc.
  Variables (first : period) (rest : list period) (vars : variables_dict) (vm : variables_map).
  Let ps := first :: rest.
  Let n := List.length ps.
  Hypothesis Evm : make_variables_map ps vars = Ok vm.
  Hypothesis C : contiguous ps.
  Hypothesis Un : forall r l, dict_get String.eqb r vars = Some l -> List.length l = n.
  Variable g : list Qc.
  Hypothesis Lg : List.length g = n.
  Variables (c : conditions_and_loss) (mask : option (list Qc)).
  Hypothesis Lm : forall m, mask = Some m -> List.length m = n.
  Hypothesis Vm : forall k b, k < n -> in_use pow vars n c k b <-> exists x, mask_value mask k = Some x /\ (b = false <-> x = 0%Qc).

  Lemma mask_value_some : forall k, k < n -> exists x, mask_value mask k = Some x.
  Proof.
    intros k L. destruct mask as [m'|] eqn:E; cbn [mask_value]; [|eauto]. destruct (nth_error m' k) as [x|] eqn:K; [eauto|]. apply nth_error_None in K. rewrite (Lm m' eq_refl) in K. lia.
  Qed.
  Lemma variable_facts : forall name e, evaluable pow vars n e -> exists ws, List.length ws = n /\
    (forall k w, k < n -> variable_at pow vars n g c name e k w <-> nth_error ws k = Some w) /\
    forall i j sub, i < j -> j <= n -> get_subset vm i j = Ok sub ->
      variable_values pow sub (option_map (slice i j) mask) (slice i j g) (name, e) = Ok (name, map Some (slice i j ws)).
  Proof.
    intros name e He. destruct (vector_of pow first rest vars vm Evm C Un e He) as (v & Lv & Vv & Sv). fold ps in Lv, Vv, Sv. fold n in Lv, Vv, Sv.
    set (ty := if string_dec (lower name) "rate" then CALENDAR_DAY else STREAM_DAY).
    destruct (stream_values mask v ty g) as (us & Eu & Lu & Vu). { congruence. } { intros m' E. rewrite Lv. now apply Lm. }
    assert (forall k u, k < n -> variable_at pow vars n g c name e k u <-> nth_error us k = Some u) as Du.
    { intros k u L. destruct (nth_error v k) as [x|] eqn:Kx; [|apply nth_error_None in Kx; lia]. destruct (nth_error g k) as [gk|] eqn:Kg; [|apply nth_error_None in Kg; lia].
      destruct (mask_value_some k L) as (cv & Kc). destruct (Vu k x cv gk Kx Kc Kg) as (u0 & Ku0 & S0). rewrite Ku0. split.
      - intros (x' & b & gk' & A1 & A2 & A3 & A4). apply (Vv k x' L) in A1. apply (Vm k b L) in A2 as (c' & Kc' & B). rewrite Kc in Kc'. injection Kc' as <-.
        assert (x' = x) as -> by congruence. assert (gk' = gk) as -> by congruence. specialize (S0 b B). fold ty in A4. f_equal.
        unfold stream_rate_means in *. destruct b; [|congruence]. destruct ty; [congruence|]. destruct S0 as [[G0 S0]|[G0 S0]], A4 as [[G1 S1]|[G1 S1]]; try contradiction; [|congruence].
        rewrite <- S1 in S0. transitivity (u0 * gk / gk)%Qc; [|rewrite S0]; field; exact G0.
      - intros E. injection E as <-. exists x. destruct (Qc_eq_dec cv 0) as [Q|Q]; [exists false|exists true]; exists gk.
        + split; [now apply Vv|]. split; [apply Vm; [exact L|exists cv; split; [exact Kc|tauto]]|]. split; [exact Kg|]. apply S0. tauto.
        + split; [now apply Vv|]. split; [apply Vm; [exact L|exists cv; split; [exact Kc|split; [discriminate|contradiction]]]|]. split; [exact Kg|]. apply S0. split; [discriminate|contradiction]. }
    exists us. split; [congruence|]. split; [exact Du|].
    intros i j sub L1 L2 Es. unfold variable_values. cbn [fst snd]. rewrite (Sv i j sub L1 L2 Es). cbn [bind].
    assert (exists us', bind (apply_mask (option_map (slice i j) mask) (map Some (slice i j v))) (fun masked => match ty with CALENDAR_DAY => rates_to_stream_day masked (map Some (slice i j g)) | STREAM_DAY => Ok masked end) = Ok (map Some us') /\ us' = slice i j us) as (us' & Eu' & ->).
    { destruct (stream_values (option_map (slice i j) mask) (slice i j v) ty (slice i j g)) as (us' & Eu' & Lu' & Vu').
      { rewrite !slice_length; lia. } { intros m' E. destruct mask as [m0|]; [|discriminate]. injection E as <-. rewrite !slice_length; auto; [lia|]. rewrite (Lm m0 eq_refl). exact L2. }
      exists us'. split; [exact Eu'|]. rewrite slice_length in Lu' by lia. apply list_ext_nth. intros k. rewrite nth_error_slice. destruct (Nat.ltb_spec k (j - i)) as [K|K]; [|apply nth_error_None; lia].
      destruct (nth_error v (i + k)) as [x|] eqn:Kx; [|apply nth_error_None in Kx; lia]. destruct (nth_error g (i + k)) as [gk|] eqn:Kg; [|apply nth_error_None in Kg; lia].
      assert (exists c, mask_value mask (i + k) = Some c /\ mask_value (option_map (slice i j) mask) k = Some c) as (cv & Kc & Kc').
      { destruct mask as [m'|]; cbn [mask_value option_map]; [|eauto]. destruct (nth_error m' (i + k)) as [cv|] eqn:Km; [|apply nth_error_None in Km; rewrite (Lm m' eq_refl) in Km; lia].
        exists cv. split; [reflexivity|]. rewrite nth_error_slice. destruct (Nat.ltb_spec k (j - i)); [exact Km|lia]. }
      destruct (Vu' k x cv gk) as (u' & Ku' & S'). { rewrite nth_error_slice. destruct (Nat.ltb_spec k (j - i)); [exact Kx|lia]. } { exact Kc'. } { rewrite nth_error_slice. destruct (Nat.ltb_spec k (j - i)); [exact Kg|lia]. }
      rewrite Ku'. symmetry. apply (Du (i + k) u'); [lia|]. exists x. destruct (Qc_eq_dec cv 0) as [Q|Q]; [exists false|exists true]; exists gk.
      - split; [apply Vv; [lia|exact Kx]|]. split; [apply Vm; [lia|exists cv; split; [exact Kc|tauto]]|]. split; [exact Kg|]. apply S'. tauto.
      - split; [apply Vv; [lia|exact Kx]|]. split; [apply Vm; [lia|exists cv; split; [exact Kc|split; [discriminate|contradiction]]]|]. split; [exact Kg|]. apply S'. split; [discriminate|contradiction]. }
    destruct (apply_mask (option_map (slice i j) mask) (map Some (slice i j v))) as [mk|]; cbn [bind] in *; [|discriminate].
    unfold ty in Eu'. destruct (string_dec (lower name) "rate") as [R|R].
    - rewrite R, String.eqb_refl, Eu'. reflexivity.
    - destruct (String.eqb (lower name) "rate") eqn:E; [apply String.eqb_eq in E; contradiction|]. injection Eu' as ->. reflexivity.
  Qed.
End Stream.

Lemma forall2_length_eq : forall A B (P : A -> B -> Prop) l m, Forall2 P l m -> List.length l = List.length m.
Proof. intros A B P l m F. induction F; cbn; congruence. Qed.
Lemma mapM_eq : forall A B (f : A -> result B) (h : A -> B) l, (forall x, In x l -> f x = Ok (h x)) -> mapM f l = Ok (map h l).
Proof.
  intros A B f h l. induction l as [|a l IH]; intros H; [reflexivity|]. cbn [mapM map]. rewrite (H a (or_introl eq_refl)). cbn [bind]. rewrite IH; [reflexivity|]. intros x I. apply H. now right.
Qed.
Lemma usage_name_kind : forall t consumes, usage_type_eqb consumes (tabular_usage_type t) = true <-> usage_name t = (match consumes with POWER => "POWER" | FUEL => "FUEL" end)%string.
Proof.
  intros t consumes. rewrite <- usage_header_name. destruct consumes, (tabular_usage_type t); cbn; split; intros E; try reflexivity; try discriminate.
Qed.

Section Tabulated.
  Variable pow : Qc -> Qc -> Qc.
  Variable nd : tabular_data -> list num -> num.
  Variables (first : period) (rest : list period) (vars : variables_dict) (vm : variables_map).
  Let ps := first :: rest.
  Let n := List.length ps.
  Hypothesis Evm : make_variables_map ps vars = Ok vm.
  Hypothesis C : contiguous ps.
  Hypothesis Un : forall r l, dict_get String.eqb r vars = Some l -> List.length l = n.
  Variable g : list Qc.
  Hypothesis Lg : List.length g = n.
  Variable consumes : energy_usage_type.

  Lemma tabulated_facts : forall m i j sub, tabulated_ok pow vars n m -> i < j -> j <= n -> get_subset vm i j = Ok sub ->
    (of_kind consumes m /\ names_match m /\ exists r, tabulated_evaluate pow nd consumes m (slice i j g) sub = Ok r /\
       part_result first rest consumes (tabulated_energy pow nd vars n g) m i j r) \/
    (of_kind consumes m /\ ~ names_match m /\ tabulated_evaluate pow nd consumes m (slice i j g) sub = Err OtherError) \/
    (~ of_kind consumes m /\ tabulated_evaluate pow nd consumes m (slice i j g) sub = Err ValidationError).
  Proof.
    intros m i j sub (Tok & Nv & Ev & Hc) L1 L2 Es. destruct (mask_of pow first rest vars vm Evm C Un (tm_common m) Hc) as (mask & Lm & Vm & Sm).
    destruct (loss_of pow first rest vars vm Evm C Un (tm_common m) Hc) as (ls & Ll & Vl & Sl). fold ps in Lm, Vm, Sm, Ll, Vl, Sl. fold n in Lm, Vm, Sm, Ll, Vl, Sl.
    destruct (table_function nd (tm_table m) Tok) as (f & Ef & Hf). destruct Tok as (ND & _).
    destruct (part_facts pow first rest vars vm Evm C Un i j sub L1 L2 Es) as (Ps & Lp & _). fold ps in Ps.
    unfold tabulated_evaluate. rewrite Ef. cbn [bind]. rewrite (Sm i j sub L1 L2 Es). cbn [bind]. rewrite (variables_table _ ND).
    destruct (usage_type_eqb consumes (tabular_usage_type (tm_table m))) eqn:Ty; cbn [negb].
    2:{ right. right. split; [|reflexivity]. intros K. apply usage_name_kind in K. congruence. }
    assert (of_kind consumes m) as Kd by now apply usage_name_kind.
    (* a vector for each variable *)
    assert (exists R : list (string * (expression_input * list Qc)), map (fun r => (fst r, fst (snd r))) R = tm_variables m /\
      forall name e ws, In (name, (e, ws)) R -> List.length ws = n /\ (forall k w, k < n -> variable_at pow vars n g (tm_common m) name e k w <-> nth_error ws k = Some w) /\
        variable_values pow sub (option_map (slice i j) mask) (slice i j g) (name, e) = Ok (name, map Some (slice i j ws))) as (R & ER & HR).
    { clear Nv Kd. induction (tm_variables m) as [|[name e] l IH]; [exists []; split; [reflexivity|intros ? ? ? []]|].
      destruct IH as (R & E & H). { intros nm x I. apply (Ev nm x). now right. }
      destruct (variable_facts pow first rest vars vm Evm C Un g Lg (tm_common m) mask Lm Vm name e (Ev name e (or_introl eq_refl))) as (ws & Lw & Vw & Sw).
      exists ((name, (e, ws)) :: R). split; [cbn [map fst snd]; now rewrite E|]. intros nm x w [I|I]; [injection I as <- <- <-; split; [exact Lw|]; split; [exact Vw|]; now apply Sw|now apply (H nm x w)]. }
    assert (mapM (variable_values pow sub (option_map (slice i j) mask) (slice i j g)) (tm_variables m) = Ok (map (fun r => (fst r, map Some (slice i j (snd (snd r))))) R)) as Em.
    { rewrite <- ER. clear -HR. induction R as [|[name [e ws]] R IH]; [reflexivity|]. cbn [map mapM fst snd]. destruct (HR name e ws (or_introl eq_refl)) as (_ & _ & E). rewrite E. cbn [bind]. rewrite IH; [reflexivity|].
      intros nm x w I. apply HR. now right. }
    rewrite Em. cbn [bind]. set (values := map (fun r : string * (expression_input * list Qc) => (fst r, map Some (slice i j (snd (snd r))))) R).
    set (by_name := fold_left (fun d v => dict_set String.eqb (fst v) (snd v) d) values []).
    assert (forall name, In name (map fst by_name) <-> In name (map fst (tm_variables m))) as Keys.
    { intros name. destruct (dict_of_function (list num) (fun _ _ => True) values []) as [_ K]; auto. unfold by_name. rewrite (K name). cbn [map In]. rewrite <- ER. unfold values. rewrite !map_map. cbn [fst]. tauto. }
    assert (forall name x ws, last_named R name (x, ws) -> In (name, (x, ws)) R /\ last_named (tm_variables m) name x /\ dict_get String.eqb name by_name = Some (map Some (slice i j ws))) as Get.
    { intros name x ws H. split; [destruct H as (b & a & -> & _); apply in_or_app; right; now left|]. split.
      - rewrite <- ER. destruct H as (b & a & -> & N). exists (map (fun r => (fst r, fst (snd r))) b), (map (fun r => (fst r, fst (snd r))) a). split; [now rewrite map_app|]. rewrite map_map. exact N.
      - apply dict_last. destruct H as (b & a & -> & N). unfold values. rewrite map_app. eexists _, _. split; [cbn [map fst snd]; reflexivity|]. rewrite map_map. exact N. }
    destruct (same_names (map fst by_name) (table_variables (tm_table m))) eqn:Sn; cbn [negb].
    2:{ right. left. split; [exact Kd|]. split; [|reflexivity]. intros Nm. apply Bool.not_true_iff_false in Sn. apply Sn. apply same_names_iff. intros x. rewrite Keys. apply Nm. }
    left. split; [exact Kd|]. assert (names_match m) as Nm. { intros x. rewrite <- Keys. now apply same_names_iff. } split; [exact Nm|].
    destruct (mapM_exists _ _ (fun name => of_option KeyError (dict_get String.eqb name by_name)) (fun name col => exists x ws, last_named R name (x, ws) /\ col = map Some (slice i j ws)) (table_variables (tm_table m))) as (columns & Ec & Fc).
    { intros name I. apply Nm in I. assert (In name (map fst R)) as IR. { rewrite <- ER, map_map in I. exact I. }
      destruct (last_named_exists _ R name IR) as ([x ws] & H). destruct (Get name x ws H) as (_ & _ & G). exists (map Some (slice i j ws)). rewrite G. split; [reflexivity|]. exists x, ws. auto. }
    rewrite Ec. cbn [bind]. rewrite (Sl i j sub L1 L2 Es). cbn [bind]. destruct (tm_variables m) as [|v0 vl] eqn:Evars; [congruence|]. rewrite <- Evars in *. clear Evars.
    rewrite Lp, Ps.
    destruct (usage_result_num (slice i j ps) (tabular_usage_type (tm_table m)) false (map (fun k => f (point columns k)) (seq 0 (j - i))) (slice i j ls)) as (energy & -> & Le & Ve).
    { rewrite map_length, seq_length, slice_length; lia. }
    rewrite map_length, seq_length in Le. eexists. split; [reflexivity|]. unfold part_result. cbn [fr_periods fr_unit fr_energy fr_valid fr_power].
    apply usage_type_eqb_eq in Ty. rewrite <- Ty. split; [reflexivity|]. split; [reflexivity|]. split; [exact Le|]. split; [rewrite !map_length, seq_length; reflexivity|]. split; [reflexivity|].
    intros k e v Ke Kv. assert (k < j - i) as K. { rewrite <- Le. apply nth_error_Some. congruence. }
    assert (nth_error (map (fun k => f (point columns k)) (seq 0 (j - i))) k = Some (f (point columns k))) as Ku.
    { rewrite nth_error_map. rewrite (nth_error_nth' (seq 0 (j - i)) 0) by now rewrite seq_length. rewrite seq_nth by exact K. reflexivity. }
    assert (exists pt, point columns k = map Some pt /\ Forall2 (fun name w => exists x, last_named (tm_variables m) name x /\ variable_at pow vars n g (tm_common m) name x (i + k) w) (table_variables (tm_table m)) pt) as (pt & Ep & Fp).
    { clear -Fc Get HR K L1 L2. induction Fc as [|name col names cols (x & ws & H & ->) Fc IH]; [exists []; split; [reflexivity|constructor]|].
      destruct IH as (pt & E & F). destruct (Get name x ws H) as (I & Ln & _). destruct (HR name x ws I) as (Lw & Vw & _).
      destruct (nth_error ws (i + k)) as [w|] eqn:Kw; [|apply nth_error_None in Kw; lia]. exists (w :: pt). split.
      - unfold point in *. cbn [map]. rewrite E. f_equal. rewrite nth_error_map, nth_error_slice. destruct (Nat.ltb_spec k (j - i)); [|lia]. now rewrite Kw.
      - constructor; [|exact F]. exists x. split; [exact Ln|]. apply Vw; [lia|exact Kw]. }
    destruct (nth_error ls (i + k)) as [fl|] eqn:Kf; [|apply nth_error_None in Kf; lia].
    exists pt, (f (point columns k)), fl. split; [exact Fp|]. split; [rewrite Ep; apply Hf; symmetry; apply (forall2_length_eq _ _ _ _ _ Fp)|]. split; [apply Vl; [lia|exact Kf]|]. split.
    - apply (Ve k _ fl e Ku); [|exact Ke]. rewrite nth_error_slice. destruct (Nat.ltb_spec k (j - i)); [exact Kf|lia].
    - rewrite nth_error_map, Ku in Kv. cbn [option_map] in Kv. injection Kv as <-. unfold generic_is_valid. destruct (f (point columns k)) as [q|].
      + cbn [orb]. rewrite Qcleb_le. split; [intros L; exists q; auto|]. intros (q' & E & L). now injection E as <-.
      + split; [discriminate|]. intros (q' & E & _). discriminate.
  Qed.
End Tabulated.

Theorem tabulated_consumer_proof : forall pow nd consumes first rest vars vm input g (data : temporal_data tabulated_model) target,
  let ps := first :: rest in
  let n := List.length ps in
  consumer_setting pow first rest vars input data target ->
  make_variables_map ps vars = Ok vm -> regularity_values pow input (whole_of first rest) vm = Ok g ->
  (forall m, In m (data_models data) -> tabulated_ok pow vars n m) ->
  let run := evaluate_consumer pow (tabulated_evaluate pow nd consumes) input vm data target in
  (* some model in force, and every one in force is of the kind of the consumer and gives the variables of its table *)
  ((exists k m, in_force_at ps data target k m) ->
   (forall k m, in_force_at ps data target k m -> of_kind consumes m /\ names_match m) ->
   exists s, run = Ok (Some s) /\ consumer_result ps consumes data target (tabulated_energy pow nd vars n g) s) /\
  (* a model in force of the other kind *)
  ((forall k m, in_force_at ps data target k m -> names_match m) ->
   (exists k m, in_force_at ps data target k m /\ ~ of_kind consumes m) -> run = Err ValidationError) /\
  (* a model in force whose variables are not those of its table *)
  ((forall k m, in_force_at ps data target k m -> of_kind consumes m) ->
   (exists k m, in_force_at ps data target k m /\ ~ names_match m) -> run = Err OtherError) /\
  (* no model in force *)
  ((forall k m, ~ in_force_at ps data target k m) -> run = Ok None).
Proof.
  intros pow nd consumes first rest vars vm input g data target ps n S Evm Eg Hm. cbv zeta. pose proof S as (C & Mx & Un & Rok & NP & W & N & T1 & T2 & NC). fold ps in C, Un, Rok, NC. fold n in Un.
  assert (List.length g = n) as Lg by (destruct (regularity_slice pow first rest vars vm input g 0 1 Evm C Un Mx Rok Eg) as [L _]; [lia|cbn; lia|exact L]).
  assert (forall k m, in_force_at ps data target k m -> In m (data_models data)) as Im.
  { intros k m (p0 & d0 & K0 & D1 & D2 & D3). destruct (proj2 (define_time_model_proof tabulated_model data target W N d0 m) (conj D2 D3)) as (q & Iq & _). destruct (adjusted_facts _ data target NP W N) as [_ F]; [lia|]. now apply (F q m Iq). }
  split; [|split; [|split]].
  - intros Ex Acc. apply (consumer_general pow _ first rest vars vm input g data target Evm S Eg); [|exact Ex].
    intros m i j sub I L1 L2 Es Hf. destruct (Acc i m (Hf i ltac:(lia))) as [A1 A2].
    destruct (tabulated_facts pow nd first rest vars vm Evm C Un g Lg consumes m i j sub (Hm m I) L1 L2 Es) as [(_ & _ & H)|[(_ & H & _)|(H & _)]]; [exact H|contradiction|contradiction].
  - intros Acc (k0 & m0 & F0 & Bad). apply (consumer_refused pow _ first rest vars vm input g data target Evm S Eg ValidationError) with (k0 := k0) (m0 := m0); [|exact F0|].
    + intros m i j sub I L1 L2 Es Hf. destruct (tabulated_facts pow nd first rest vars vm Evm C Un g Lg consumes m i j sub (Hm m I) L1 L2 Es) as [(_ & _ & r & H & _)|[(_ & H & _)|(_ & H)]]; [left; eauto| |now right].
      destruct H. apply (Acc i m). apply Hf. lia.
    + intros i j sub Hk L2 Es. destruct (tabulated_facts pow nd first rest vars vm Evm C Un g Lg consumes m0 i j sub (Hm m0 (Im _ _ F0)) ltac:(lia) L2 Es) as [(H & _)|[(H & _)|(_ & H)]]; [contradiction|contradiction|exact H].
  - intros Acc (k0 & m0 & F0 & Bad). apply (consumer_refused pow _ first rest vars vm input g data target Evm S Eg OtherError) with (k0 := k0) (m0 := m0); [|exact F0|].
    + intros m i j sub I L1 L2 Es Hf. destruct (tabulated_facts pow nd first rest vars vm Evm C Un g Lg consumes m i j sub (Hm m I) L1 L2 Es) as [(_ & _ & r & H & _)|[(_ & _ & H)|(H & _)]]; [left; eauto|now right|].
      destruct H. apply (Acc i m). apply Hf. lia.
    + intros i j sub Hk L2 Es. destruct (tabulated_facts pow nd first rest vars vm Evm C Un g Lg consumes m0 i j sub (Hm m0 (Im _ _ F0)) ltac:(lia) L2 Es) as [(_ & H & _)|[(_ & _ & H)|(H & _)]]; [contradiction|exact H|].
      destruct H. now apply (Acc k0).
  - apply (consumer_none pow _ first rest vars vm input data target S).
Qed.

(** Proofs about pump and compressor consumers: what is accepted, and the result of the consumer. *)
From Coq Require Import PeanoNat String.
From Verif Require Import Attributes_Proofs Attributes_Proofs2 QcTac Num Time_Model Time_Spec Time_Proofs Time_Proofs2 Units_Model Rates_Model Rates_Spec Rates_Proofs Rates_Proofs3 Rates_Proofs4
  Base BaseLemmas Expr_Model Expr_Spec Expr_Proofs Vars_Model Vars_Proofs Input_Model Interp_Model Energy_Model Energy_Proofs Energy_Proofs2 Energy_Proofs3 Export_Proofs2 Emitters_Proofs5 Emitters_Spec
  Consumer_Model Consumer_Spec Consumer_Proofs Consumer_Proofs2 Consumer_Proofs3 Consumer_Proofs4 Consumer_Proofs5 Consumer_Proofs6 Consumer_Proofs7 Consumer_Proofs8 Consumer_Proofs9
  Chart_Model Pump_Model Equipment_Model Equipment_Spec Equipment_Proofs Equipment_Proofs2 Equipment_Proofs3.
Local Open Scope list_scope.
Local Open Scope nat_scope.

Section Accepted.
  Variable pow : Qc -> Qc -> Qc.
  Variables (first : period) (rest : list period) (vars : variables_dict) (vm : variables_map).
  Let ps := first :: rest.
  Let n := List.length ps.
  Hypothesis Evm : make_variables_map ps vars = Ok vm.
  Hypothesis C : contiguous ps.
  Hypothesis Un : forall r l, dict_get String.eqb r vars = Some l -> List.length l = n.
  Variable g : list Qc.
  Hypothesis Lg : List.length g = n.
  Variable consumes : energy_usage_type.

  Lemma plan_part : forall pl i j sub, plan_ok pow vars n pl -> i < j -> j <= n -> get_subset vm i j = Ok sub ->
    ((forall k, i <= k < j -> plan_acceptable pow vars n g consumes pl k) /\
     ((forall k, i <= k < j -> plan_works pow vars n g pl k) -> exists r, plan_evaluate pow consumes pl (slice i j g) sub = Ok r /\
        part_result2 first rest consumes (plan_energy pow vars n g) (plan_power pow vars n g) (fun p => mc_has_power (pl_machine p)) pl i j r)) \/
    ((exists k, i <= k < j /\ ~ plan_acceptable pow vars n g consumes pl k) /\ plan_evaluate pow consumes pl (slice i j g) sub = Err ValidationError).
  Proof.
    intros pl i j sub (Ne & Er & Es & Ed & Ei & Ero & Hc & Both) L1 L2 Esub.
    destruct (part_facts pow first rest vars vm Evm C Un i j sub L1 L2 Esub) as (Pp & _ & _).
    destruct (loss_of pow first rest vars vm Evm C Un (pl_common pl) Hc) as (ls & Ll & Vl & Sl). fold ps in Ll, Vl, Sl. fold n in Ll, Vl, Sl.
    destruct (rates_facts pow first rest vars vm Evm C Un g Lg (pl_common pl) (pl_rates pl) Hc Er) as (rs & Lr & Lrs & Vr & Sr). fold ps in Lr, Vr, Sr. fold n in Lr, Vr, Sr.
    destruct (optional_facts pow first rest vars vm Evm C Un g Lg (pl_suction pl) Es) as (so & Lso & Nso & Vso & Sso). fold ps in Lso, Vso, Sso. fold n in Lso, Vso, Sso.
    destruct (optional_facts pow first rest vars vm Evm C Un g Lg (pl_discharge pl) Ed) as (d_o & Ldo & Ndo & Vdo & Sdo). fold ps in Ldo, Vdo, Sdo. fold n in Ldo, Vdo, Sdo.
    destruct (optional_facts pow first rest vars vm Evm C Un g Lg (pl_intermediate pl) Ei) as (io & Lio & Nio & Vio & Sio). fold ps in Lio, Vio, Sio. fold n in Lio, Vio, Sio.
    destruct (optional_facts pow first rest vars vm Evm C Un g Lg (pl_density pl) Ero) as (ro & Lro & Nro & Vro & Sro). fold ps in Lro, Vro, Sro. fold n in Lro, Vro, Sro.
    assert (rs <> []) as Nrs. { intros ->. destruct (pl_rates pl); [congruence|discriminate]. }
    assert (forall k pt, k < n -> point_at pow vars n g pl k pt <-> pt = vec_point rs so d_o io ro k) as Pt.
    { intros k pt L. unfold point_at, vec_point. rewrite (Vr k L), (Vso k _ L), (Vdo k _ L), (Vio k _ L), (Vro k _ L). destruct pt as [a b c d e]. cbn [op_rates op_suction op_discharge op_intermediate op_density].
      split; [intros (-> & -> & -> & -> & ->); reflexivity|intros E; injection E as -> -> -> -> ->; auto]. }
    set (pt := vec_point rs so d_o io ro) in *.
    assert (forall k, k < n -> plan_acceptable pow vars n g consumes pl k <-> mc_type (pl_machine pl) = consumes /\ (forall w, In w (op_rates (pt k)) -> (0 <= w)%Qc) /\ (flowing g k (pt k) -> sensible_pressures (pt k))) as Acc.
    { intros k L. unfold plan_acceptable. split; intros [A B]; (split; [exact A|]).
      - apply B. now apply Pt.
      - intros q Q. apply (Pt k q L) in Q. subst q. exact B. }
    unfold plan_evaluate. destruct (usage_type_eqb consumes (mc_type (pl_machine pl))) eqn:Ty; cbn [negb].
    2:{ right. split; [|reflexivity]. exists i. split; [lia|]. rewrite Acc by lia. intros [E _]. rewrite (proj2 (usage_type_eqb_eq consumes (mc_type (pl_machine pl))) (eq_sym E)) in Ty. discriminate. }
    apply usage_type_eqb_eq in Ty. rewrite (Sr i j sub L1 L2 Esub).
    destruct (existsb (existsb (fun w => Qcltb w 0)) (map (slice i j) rs)) eqn:Neg.
    { right. split; [|reflexivity]. apply existsb_exists in Neg as (l & Il & Hl). apply in_map_iff in Il as (l0 & <- & I0). apply existsb_exists in Hl as (w & Iw & Hw). apply Qcltb_lt in Hw.
      apply In_nth_error in Iw as (k & K). rewrite nth_error_slice in K. destruct (Nat.ltb_spec k (j - i)) as [Lk|]; [|discriminate]. exists (i + k). split; [lia|]. rewrite Acc by lia. intros (_ & A & _).
      specialize (A w). apply (Qclt_not_le _ _ Hw). apply A. cbn [pt vec_point op_rates]. apply in_map_iff. exists l0. split; [now apply nth_error_nth|exact I0]. }
    assert (forall k, k < j - i -> forall w, In w (op_rates (pt (i + k))) -> (0 <= w)%Qc) as Pos.
    { intros k Lk w I. cbn [pt vec_point op_rates] in I. apply in_map_iff in I as (l & <- & I). destruct (Qclt_le_dec (nth (i + k) l 0%Qc) 0) as [H|H]; [exfalso|exact H].
      rewrite <- Bool.not_true_iff_false in Neg. apply Neg. apply existsb_exists. exists (slice i j l). split; [apply in_map_iff; eauto|]. apply existsb_exists. exists (nth (i + k) l 0%Qc). split; [|now apply Qcltb_lt].
      apply (nth_error_In _ k). rewrite nth_error_slice. destruct (Nat.ltb_spec k (j - i)); [|lia]. apply nth_error_nth'. rewrite (Lr l I). lia. }
    cbn [bind]. set (mask := validation_mask (summed (map (slice i j) rs)) (slice i j g)).
    assert (forall k, nth_error mask k = Some true <-> k < j - i /\ flowing g (i + k) (pt (i + k))) as Mk by (intros k; exact (mask_flowing first rest g Lg rs so d_o io ro Nrs Lr i j k L1 L2)).
    assert (List.length mask = j - i) as Lmask by exact (mask_length first rest g Lg rs Nrs Lr i j L1 L2).
    (* one pressure *)
    assert (forall e o (proj : operating_point -> option Qc), (forall l, o = Some l -> List.length l = n) -> (forall k, proj (pt k) = option_map (fun l => nth k l 0%Qc) o) ->
      (forall k x, proj (pt k) = Some x -> op_suction (pt k) = Some x \/ op_discharge (pt k) = Some x \/ op_intermediate (pt k) = Some x) ->
      (forall mask, optional_pressures pow sub mask e = match o with
        | Some l => if existsb (fun x => snd x && Qcltb (fst x) 0)%bool (zip (slice i j l) mask) then Err ValidationError else Ok (Some (slice i j l)) | None => Ok None end) ->
      (optional_pressures pow sub mask e = Ok (option_map (slice i j) o) /\ forall k x, k < j - i -> flowing g (i + k) (pt (i + k)) -> proj (pt (i + k)) = Some x -> (0 <= x)%Qc) \/
      (optional_pressures pow sub mask e = Err ValidationError /\ exists k, i <= k < j /\ ~ plan_acceptable pow vars n g consumes pl k)) as One.
    { intros e o proj Lo Hp Hin Eo. rewrite Eo. destruct o as [l|]; [|left; split; [reflexivity|intros k x _ _ E; rewrite Hp in E; discriminate]].
      assert (List.length l = n) as Lln by now apply Lo.
      destruct (existsb _ (zip (slice i j l) mask)) eqn:B.
      - right. split; [reflexivity|]. apply (existsb_zip_slice l mask i j n L1 L2 Lln) in B as (k & Lk & K & H). apply Mk in K as [_ Fl]. exists (i + k). split; [lia|]. rewrite Acc by lia. intros (_ & _ & A).
        destruct (A Fl) as [P _]. apply (Qclt_not_le _ _ H). apply P. apply Hin. rewrite Hp. reflexivity.
      - left. split; [reflexivity|]. intros k x Lk Fl E. rewrite Hp in E. cbn [option_map] in E. injection E as <-. destruct (Qclt_le_dec (nth (i + k) l 0%Qc) 0) as [H|H]; [exfalso|exact H].
        rewrite <- Bool.not_true_iff_false in B. apply B. apply (existsb_zip_slice l mask i j n L1 L2 Lln). exists k. split; [exact Lk|]. split; [apply Mk; auto|exact H]. }
    destruct (One (pl_suction pl) so op_suction Lso (fun k => eq_refl) (fun k x E => or_introl E) (proj2 (Sso i j sub L1 L2 Esub))) as [[-> Ps]|[-> Bad]]; [|right; auto]. cbn [bind].
    destruct (One (pl_discharge pl) d_o op_discharge Ldo (fun k => eq_refl) (fun k x E => or_intror (or_introl E)) (proj2 (Sdo i j sub L1 L2 Esub))) as [[-> Pd]|[-> Bad]]; [|right; auto]. cbn [bind].
    destruct (One (pl_intermediate pl) io op_intermediate Lio (fun k => eq_refl) (fun k x E => or_intror (or_intror E)) (proj2 (Sio i j sub L1 L2 Esub))) as [[-> Pi]|[-> Bad]]; [|right; auto]. cbn [bind]. clear One.
    assert ((match option_map (slice i j) so, option_map (slice i j) d_o with Some s, Some d => validate_pressures mask s d (option_map (slice i j) io) | _, _ => Ok tt end = Ok tt /\
        forall k s d, k < j - i -> flowing g (i + k) (pt (i + k)) -> op_suction (pt (i + k)) = Some s -> op_discharge (pt (i + k)) = Some d -> (0 < s)%Qc /\ (s <= d)%Qc /\ forall x, op_intermediate (pt (i + k)) = Some x -> (s <= x)%Qc /\ (x <= d)%Qc) \/
      (match option_map (slice i j) so, option_map (slice i j) d_o with Some s, Some d => validate_pressures mask s d (option_map (slice i j) io) | _, _ => Ok tt end = Err ValidationError /\ exists k, i <= k < j /\ ~ plan_acceptable pow vars n g consumes pl k)) as [[-> Pv]|[-> Bad]]; [| |right; auto].
    { cbn [pt vec_point op_suction op_discharge op_intermediate].
      destruct so as [sv|]; cbn [option_map]; [|left; split; [reflexivity|discriminate]]. destruct d_o as [dv|]; cbn [option_map]; [|left; split; [reflexivity|discriminate]].
      assert (List.length sv = n) as Lsv by now apply Lso. assert (List.length dv = n) as Ldv by now apply Ldo.
      assert (forall l, List.length l = n -> forall k, k < j - i -> nth_error (slice i j l) k = Some (nth (i + k) l 0%Qc)) as Sn.
      { intros l Lln k Lk. rewrite nth_error_slice. destruct (Nat.ltb_spec k (j - i)); [|lia]. apply nth_error_nth'. lia. }
      destruct (validate_cases mask (slice i j sv) (slice i j dv) (option_map (slice i j) io)) as [[E H]|[E (k & K & H)]].
      { rewrite slice_length by lia. exact Lmask. } { rewrite !slice_length by lia. reflexivity. } { intros l El. destruct io as [iv|]; [|discriminate]. injection El as <-. assert (List.length iv = n) by now apply Lio. rewrite !slice_length by lia. reflexivity. }
      - left. split; [exact E|]. intros k s d Lk Fl Hs Hd. injection Hs as <-. injection Hd as <-. destruct (H k (proj2 (Mk k) (conj Lk Fl)) _ _ (Sn sv Lsv k Lk) (Sn dv Ldv k Lk)) as (A & B & D). split; [exact A|]. split; [exact B|].
        intros x X. destruct io as [iv|]; [|discriminate]. injection X as <-. apply (D (slice i j iv)); [reflexivity|]. apply Sn; [now apply Lio|exact Lk].
      - right. split; [exact E|]. apply Mk in K as [Lk Fl]. exists (i + k). split; [lia|]. rewrite Acc by lia. intros (_ & _ & A). apply H. destruct (A Fl) as [_ O]. intros s d Ks Kd.
        rewrite (Sn sv Lsv k Lk) in Ks. rewrite (Sn dv Ldv k Lk) in Kd. injection Ks as <-. injection Kd as <-. destruct (O _ _ eq_refl eq_refl) as (X & Y & Z). split; [exact X|]. split; [exact Y|].
        intros l x El Kx. destruct io as [iv|]; [|discriminate]. injection El as <-. rewrite (Sn iv (Lio iv eq_refl) k Lk) in Kx. injection Kx as <-. now apply Z. }
    cbn [bind]. rewrite (proj1 (Sro i j sub L1 L2 Esub)). cbn [bind]. left. split.
    - intros k Hk. rewrite Acc by lia. replace k with (i + (k - i)) by lia. split; [now symmetry|]. split; [apply Pos; lia|]. intros Fl. split.
      + intros x [X|[X|X]]; [apply (Ps (k - i) x)|apply (Pd (k - i) x)|apply (Pi (k - i) x)]; auto; lia.
      + intros s d Hs Hd. apply (Pv (k - i)); auto. lia.
    - intros Wk. exact (run_part pow first rest vars g Lg consumes pl rs so d_o io ro ls Lr Lso Ldo Lio Lro Pt i j sub L1 L2 Pp (Sl i j sub L1 L2 Esub) Ll Vl (eq_sym Ty) Wk).
  Qed.
End Accepted.

(** ** Any kind of model that has a plan *)
Section PlanConsumer.
  Context {M : Type}.
  Variable pow : Qc -> Qc -> Qc.
  Variable evaluate : M -> list Qc -> variables_map -> result function_result.
  Variable plan_of : M -> plan.
  Variables (first : period) (rest : list period) (vars : variables_dict) (vm : variables_map).
  Let ps := first :: rest.
  Let n := List.length ps.
  Variables (input : option (temporal_data expression_input)) (g : list Qc) (data : temporal_data M) (target : period).
  Hypothesis Evm : make_variables_map ps vars = Ok vm.
  Hypothesis S : consumer_setting pow first rest vars input data target.
  Hypothesis Eg : regularity_values pow input (whole_of first rest) vm = Ok g.
  Variable consumes : energy_usage_type.
  Hypothesis Hok : forall m, In m (data_models data) -> plan_ok pow vars n (plan_of m).
  Hypothesis Same : forall m i j sub, In m (data_models data) -> i < j -> j <= n -> get_subset vm i j = Ok sub ->
    evaluate m (slice i j g) sub = plan_evaluate pow consumes (plan_of m) (slice i j g) sub.

  Lemma in_force_model : forall k m, in_force_at ps data target k m -> In m (data_models data).
  Proof.
    pose proof S as (C & Mx & Un & Rok & NP & W & N & T1 & T2 & NC). intros k m (p0 & d0 & K0 & D1 & D2 & D3).
    destruct (proj2 (define_time_model_proof M data target W N d0 m) (conj D2 D3)) as (q & Iq & _). destruct (adjusted_facts _ data target NP W N) as [_ F]; [lia|]. now apply (F q m Iq).
  Qed.
  Lemma plan_consumer :
    let run := evaluate_consumer pow evaluate input vm data target in
    (forall k m, in_force_at ps data target k m -> plan_works pow vars n g (plan_of m) k) ->
    ((exists k m, in_force_at ps data target k m) ->
     (forall k m, in_force_at ps data target k m -> plan_acceptable pow vars n g consumes (plan_of m) k) ->
     exists s, run = Ok (Some s) /\ equipment_result ps consumes data target (fun m => plan_energy pow vars n g (plan_of m)) (fun m => plan_power pow vars n g (plan_of m)) (fun m => mc_has_power (pl_machine (plan_of m))) s) /\
    ((exists k m, in_force_at ps data target k m /\ ~ plan_acceptable pow vars n g consumes (plan_of m) k) -> run = Err ValidationError) /\
    ((forall k m, ~ in_force_at ps data target k m) -> run = Ok None).
  Proof.
    cbv zeta. intros Wk. pose proof S as (C & Mx & Un & Rok & NP & W & N & T1 & T2 & NC). fold ps in C, Un, Rok, NC. fold n in Un.
    assert (List.length g = n) as Lg by (destruct (regularity_slice pow first rest vars vm input g 0 1 Evm C Un Mx Rok Eg) as [L _]; [lia|cbn; lia|exact L]).
    split; [|split].
    - intros Ex Acc. refine (equipment_general pow evaluate first rest vars vm input g data target Evm S Eg consumes _ _ _ _ Ex).
      intros m i j sub Im L1 L2 Es Hf. fold ps in Hf. rewrite (Same m i j sub Im L1 L2 Es).
      destruct (plan_part pow first rest vars vm Evm C Un g Lg consumes (plan_of m) i j sub (Hok m Im) L1 L2 Es) as [[_ H]|[(k & Hk & B) _]].
      + destruct (H (fun k Hk => Wk k m (Hf k Hk))) as (r & Er & Pr). exists r. split; [exact Er|exact Pr].
      + exfalso. apply B. apply (Acc k m (Hf k Hk)).
    - intros (k0 & m0 & F0 & Bad). apply (consumer_refused pow _ first rest vars vm input g data target Evm S Eg ValidationError) with (k0 := k0) (m0 := m0); [|exact F0|].
      + intros m i j sub Im L1 L2 Es Hf. fold ps in Hf. rewrite (Same m i j sub Im L1 L2 Es).
        destruct (plan_part pow first rest vars vm Evm C Un g Lg consumes (plan_of m) i j sub (Hok m Im) L1 L2 Es) as [[_ H]|[_ E]]; [left|right; exact E].
        destruct (H (fun k Hk => Wk k m (Hf k Hk))) as (r & Er & _). eauto.
      + intros i j sub Hk L2 Es. pose proof (in_force_model k0 m0 F0) as Im. rewrite (Same m0 i j sub Im ltac:(lia) L2 Es).
        destruct (plan_part pow first rest vars vm Evm C Un g Lg consumes (plan_of m0) i j sub (Hok m0 Im) ltac:(lia) L2 Es) as [[H _]|[_ E]]; [|exact E]. exfalso. apply Bad. now apply H.
    - apply (consumer_none pow _ first rest vars vm input data target S).
  Qed.
End PlanConsumer.

(** ** The three kinds *)
Lemma bind_assoc : forall A B D (x : result A) (f : A -> result B) (h : B -> result D), bind (bind x f) h = bind x (fun a => bind (f a) h).
Proof. intros A B D [a|e] f h; reflexivity. Qed.
Lemma streams_same : forall pow consumes m g sub, streams_evaluate pow consumes m g sub = plan_evaluate pow consumes (streams_plan m) g sub.
Proof.
  intros pow consumes m g sub. unfold streams_evaluate, plan_evaluate, streams_plan. cbn [pl_machine pl_common pl_rates pl_suction pl_discharge pl_intermediate pl_density optional_pressures optional_values].
  destruct (negb _); [reflexivity|]. destruct (mapM _ _) as [rates|]; [|reflexivity]. cbn [bind]. cbv zeta. rewrite !bind_assoc.
  destruct (pressure_values pow sub _ (sm_suction m)) as [s|]; [|reflexivity]. cbn [bind]. rewrite !bind_assoc. destruct (pressure_values pow sub _ (sm_discharge m)) as [d|]; [|reflexivity]. cbn [bind].
  destruct (sm_interstage m) as [e|]; cbn [optional_pressures]; [|reflexivity]. destruct (pressure_values pow sub _ e); reflexivity.
Qed.
Lemma pump_same : forall pow closest np_std bump consumes m g sub, (exists v, vm_evaluate pow sub (input_tokens (pm_density m)) = Ok v) ->
  pump_evaluate_model pow closest np_std bump consumes m g sub = plan_evaluate pow consumes (pump_plan (pump_machine closest np_std bump (pm_curves m) (pm_margin m)) m) g sub.
Proof.
  intros pow closest np_std bump consumes m g sub (rho & Er). unfold pump_evaluate_model, plan_evaluate, pump_plan. cbn [pl_machine pl_common pl_rates pl_suction pl_discharge pl_intermediate pl_density optional_pressures optional_values mc_type pump_machine].
  destruct (negb _); [reflexivity|]. cbn [mapM]. destruct (equipment_rate pow sub (pm_common m) g (pm_rate m)) as [rate|]; [|reflexivity]. cbn [bind summed]. cbv zeta.
  destruct (pressure_values pow sub _ (pm_suction m)) as [s|]; [|reflexivity]. cbn [bind]. destruct (pressure_values pow sub _ (pm_discharge m)) as [d|]; [|reflexivity]. cbn [bind].
  destruct (validate_pressures _ s d None); [|reflexivity]. cbn [bind]. rewrite Er. reflexivity.
Qed.

(** Proofs about the pump process simulations of a model file: the whole model. *)
From Coq Require Import PeanoNat String.
From Verif Require Import QcTac Base BaseLemmas Num Time_Model Time_Spec Time_Proofs Time_Proofs2 Units_Model Rates_Model Rates_Proofs4 Expr_Model Expr_Spec
  Vars_Model Vars_Proofs Vars_Proofs2 Input_Model Energy_Model Energy_Proofs3 Emitters_Spec Chart_Model Chart_Spec Pump_Model Pump_Spec Pump_Proofs Pump_Proofs2
  Consumer_Model Consumer_Spec Consumer_Proofs2 Consumer_Proofs5 Equipment_Model Equipment_Spec Equipment_Proofs2 Duty_Model Duty_Spec Duty_Proofs.
Local Open Scope list_scope.
Local Open Scope nat_scope.

Lemma slice_whole : forall A (l : list A) n, List.length l = n -> slice 0 n l = l.
Proof. intros A l n <-. rewrite slice_0. apply firstn_all. Qed.
Lemma nth_same : forall A (l m : list A), List.length l = List.length m -> (forall k x, nth_error l k = Some x -> nth_error m k = Some x) -> l = m.
Proof.
  induction l as [|a l IH]; intros [|b m] L H; try discriminate; [reflexivity|]. f_equal.
  - specialize (H 0 a eq_refl). cbn in H. congruence.
  - apply IH; [cbn in L; lia|]. intros k x. apply (H (S k)).
Qed.
Lemma existsb_negative : forall l, existsb (fun x => Qcltb x 0) l = false <-> forall x, In x l -> (0 <= x)%Qc.
Proof.
  intros l. split.
  - intros E x I. destruct (Qclt_le_dec x 0) as [H|H]; [|exact H]. apply Qcltb_lt in H. assert (existsb (fun x => Qcltb x 0) l = true) by (apply existsb_exists; eauto). congruence.
  - intros H. destruct (existsb _ l) eqn:E; [|reflexivity]. apply existsb_exists in E as (x & I & L). apply Qcltb_lt in L. elim (Qclt_not_le _ _ L (H x I)).
Qed.

Section Whole.
  Variable pow : Qc -> Qc -> Qc.
  Variables (first : period) (rest : list period) (vars : variables_dict) (vm : variables_map).
  Let ps := first :: rest.
  Let n := List.length ps.
  Hypothesis Evm : make_variables_map ps vars = Ok vm.
  Hypothesis C : contiguous ps.
  Hypothesis Un : forall r l, dict_get String.eqb r vars = Some l -> List.length l = n.
  Hypothesis Mx : (p_end (last rest first) <= DT_MAX)%Z.

  Lemma index_first : index_of Z.eqb (p_start first) (dates_of ps) = Some 0.
  Proof. unfold ps. rewrite dates_of_eq. cbn. now rewrite Z.eqb_refl. Qed.
  Lemma index_last : index_of Z.eqb (p_end (last rest first)) (dates_of ps) = Some n.
  Proof.
    assert (nth_error ps (n - 1) = Some (last rest first)) as K.
    { unfold n, ps. clear. cbn [List.length]. replace (S (List.length rest) - 1) with (List.length rest) by lia. revert first.
      induction rest as [|q l IH]; intros p; [reflexivity|]. cbn [List.length nth_error]. rewrite (IH q). f_equal. symmetry. apply last_shift. }
    destruct (dates_of_nth _ _ _ C K) as [_ E]. replace (S (n - 1)) with n in E by (unfold n, ps; cbn; lia).
    destruct (index_of_boundary ps (p_end (last rest first)) C) as (i & Ei & Ni).
    { apply (dates_of_In _ _ C). eapply nth_error_In; eauto. }
    rewrite Ei. f_equal. pose proof (dates_of_increasing _ C) as I.
    pose proof (proj2 (increasing_nth_le _ _ _ _ _ I Ni E)). pose proof (proj2 (increasing_nth_le _ _ _ _ _ I E Ni)). lia.
  Qed.
  (** the variables of the whole run *)
  Lemma whole_subset : exists sub, get_subset_for_period vm (whole_of first rest) = Ok sub /\ get_subset vm 0 n = Ok sub.
  Proof.
    destruct (get_subset_spec first rest vars vm 0 n C Evm) as (sub & Es & _). { unfold n, ps. cbn. lia. } { apply Nat.le_refl. }
    exists sub. split; [|exact Es]. unfold get_subset_for_period. rewrite (vm_period_spec _ _ _ _ Evm). cbn [bind].
    assert (intersects (whole_of first rest) (whole_of first rest) = true) as ->.
    { apply intersects_iff; try now apply whole_nonempty. exists (p_start first). pose proof (whole_nonempty first rest C) as W. unfold nonempty, whole_of in W. cbn in W. unfold In_period, whole_of; cbn. lia. }
    cbn [negb whole_of p_start p_end]. rewrite Z.max_id, Z.min_id. assert (vm_time_vector vm = dates_of ps) as -> by now rewrite (vm_eq _ _ _ _ Evm).
    rewrite index_first, index_last. exact Es.
  Qed.

  Section Sub.
    Variable sub : variables_map.
    Hypothesis Es : get_subset vm 0 n = Ok sub.
    Lemma n_pos : 0 < n. Proof. unfold n, ps. cbn. lia. Qed.
    Lemma sub_made : make_variables_map ps (map (fun kv => (fst kv, slice 0 n (snd kv))) vars) = Ok sub.
    Proof. rewrite <- Es. rewrite (get_subset_make first rest vars vm 0 n C Evm n_pos (Nat.le_refl n)). fold ps. now rewrite slice_whole. Qed.
    Lemma sub_periods : vm_periods sub = ps.
    Proof. now rewrite (vm_eq _ _ _ _ sub_made). Qed.
    Lemma sub_period : vm_period sub = Ok (whole_of first rest).
    Proof. apply (vm_period_spec _ _ _ _ sub_made). Qed.
    Lemma sub_regularity : regularity_values pow None (whole_of first rest) sub = Ok (repeat 1%Qc n).
    Proof.
      apply (regularity_zero_proof pow first rest _ sub (whole_of first rest) sub_made C); cbn [whole_of p_start p_end]; try apply Z.le_refl; [|exact Mx].
      intros r l E. rewrite dict_get_map in E. destruct (dict_get String.eqb r vars) as [l'|] eqn:E'; [|discriminate]. cbn [option_map] in E. assert (slice 0 n l' = l) as <- by congruence.
      rewrite slice_whole; apply (Un r l' E').
    Qed.
    Lemma values_of : forall e, evaluable pow vars n e -> exists v, List.length v = n /\
      (forall k x, k < n -> input_at pow vars n e k x <-> nth_error v k = Some x) /\ vm_evaluate pow sub (input_tokens e) = Ok v.
    Proof.
      intros e He. destruct (vector_of pow first rest vars vm Evm C Un e He) as (v & Lv & Vv & Sv). fold ps in Lv, Vv, Sv. fold n in Lv, Vv, Sv.
      exists v. split; [exact Lv|]. split; [exact Vv|]. rewrite (Sv 0 n sub n_pos (Nat.le_refl n) Es). now rewrite slice_whole.
    Qed.
    Lemma rates_of : forall e v, evaluable pow vars n e -> List.length v = n -> (forall k x, k < n -> input_at pow vars n e k x <-> nth_error v k = Some x) ->
      equipment_rate pow sub (mkCommon None None None) (repeat 1%Qc n) e = if existsb (fun w => Qcltb w 0) v then Err ValidationError else Ok v.
    Proof.
      intros e v He Lv Vv. assert (common_ok pow vars n (mkCommon None None None)) as Hc by (split; [|split]; discriminate).
      destruct (rate_facts pow first rest vars vm Evm C Un (repeat 1%Qc n) (repeat_length _ _) (mkCommon None None None) e Hc He) as (ws & Lw & Vw & Sw).
      fold ps in Lw, Vw, Sw. fold n in Lw, Vw, Sw. specialize (Sw 0 n sub n_pos (Nat.le_refl n) Es).
      rewrite !slice_whole in Sw by (try apply repeat_length; exact Lw). rewrite Sw. assert (v = ws) as <-; [|reflexivity].
      apply nth_same; [congruence|]. intros k x K. assert (k < n) as L by (rewrite <- Lv; apply nth_error_Some; congruence).
      apply (Vw k x L). exists x, true, 1%Qc. split; [now apply Vv|]. split; [|split].
      - cbn [in_use cl_condition cl_conditions]. split; [discriminate|]. intros (es & e' & D & _). discriminate D.
      - now rewrite nth_error_repeat.
      - unfold stream_rate_means. left. split; [discriminate|]. ring.
    Qed.
    Lemma map_duty_spec : forall d, Forall proper_curve (du_curves d) -> duty_evaluable pow vars n d ->
      (forall p inputs periods, map_duty pow sub d = Ok (p, inputs, periods) ->
         make_pump (du_curves d) (du_minimum_flow d) = Ok p /\ periods = ps /\ List.length inputs = n /\
         forall k, k < n -> exists i, nth_error inputs k = Some i /\ duty_input pow vars n d k i) /\
      ((exists r, map_duty pow sub d = Ok r) <-> duty_pump_ok d /\ duty_values_ok pow vars n d).
    Proof.
      intros d Hp (H1 & H2 & H3 & H4). unfold map_duty.
      destruct (values_of _ H1) as (v1 & L1 & V1 & E1). destruct (values_of _ H2) as (v2 & L2 & V2 & E2).
      destruct (values_of _ H3) as (v3 & L3 & V3 & E3). destruct (values_of _ H4) as (v4 & L4 & V4 & E4).
      rewrite sub_period. cbn [bind]. rewrite sub_regularity. cbn [bind]. rewrite (rates_of _ v1 H1 L1 V1). unfold duty_pressures. rewrite E2, E3, E4. cbn [bind]. rewrite sub_periods.
      destruct (make_pump_proof (du_curves d) (du_minimum_flow d) Hp) as (_ & Mok & _).
      assert (duty_pump_ok d <-> du_head_margin d = 0%Qc /\ exists p, make_pump (du_curves d) (du_minimum_flow d) = Ok p) as Pok.
      { unfold duty_pump_ok. rewrite Mok. tauto. }
      assert (forall k r s rho dd, duty_at pow vars n d k r s rho dd -> k < n -> nth_error v1 k = Some r /\ nth_error v2 k = Some s /\ nth_error v3 k = Some rho /\ nth_error v4 k = Some dd) as At.
      { intros k r s rho dd (A1 & A2 & A3 & A4) L. repeat split; [now apply V1|now apply V2|now apply V3|now apply V4]. }
      destruct (Qceqb (du_head_margin d) 0) eqn:Em; cbn [negb].
      2:{ split; [discriminate|]. split; [intros [r D]; discriminate D|]. intros [Q _]. apply Pok in Q as [Q _]. apply Qceqb_eq in Q. congruence. }
      destruct (make_pump (du_curves d) (du_minimum_flow d)) as [p|] eqn:Ep; cbn [bind].
      2:{ split; [discriminate|]. split; [intros [r D]; discriminate D|]. intros [Q _]. apply Pok in Q as [_ [q Q]]. discriminate Q. }
      assert (duty_pump_ok d) as Q. { apply Pok. split; [now apply Qceqb_eq|eauto]. }
      assert (forall l (e : expression_input), (forall k x, k < n -> input_at pow vars n e k x <-> nth_error l k = Some x) -> List.length l = n ->
        existsb (fun w => Qcltb w 0) l = true -> exists k x, k < n /\ input_at pow vars n e k x /\ (x < 0)%Qc) as Bad.
      { intros l e Vl Ll Eb. apply existsb_exists in Eb as (x & I & L). apply Qcltb_lt in L. apply In_nth_error in I as [k K].
        assert (k < n) as Lk by (rewrite <- Ll; apply nth_error_Some; congruence). exists k, x. split; [exact Lk|]. split; [now apply Vl|exact L]. }
      assert (forall k, k < n -> exists r s rho dd, duty_at pow vars n d k r s rho dd) as Tot.
      { intros k L. assert (forall l : list Qc, List.length l = n -> exists x, nth_error l k = Some x) as G.
        { intros l Ll. destruct (nth_error l k) as [x|] eqn:K; [eauto|]. apply nth_error_None in K. lia. }
        destruct (G v1 L1) as [r K1]. destruct (G v2 L2) as [s K2]. destruct (G v3 L3) as [rho K3]. destruct (G v4 L4) as [dd K4].
        exists r, s, rho, dd. repeat split; [now apply V1|now apply V2|now apply V3|now apply V4]. }
      destruct (existsb (fun w => Qcltb w 0) v1) eqn:B1; cbn [bind].
      { split; [discriminate|]. split; [intros [r D]; discriminate D|]. intros [_ Q2]. destruct (Bad v1 _ V1 L1 B1) as (k & x & Lk & I & L).
        destruct (Tot k Lk) as (r & s & rho & dd & A). destruct (Q2 k r s rho dd Lk A) as (N & _). destruct A as (A & _). apply (V1 k _ Lk) in A. apply (V1 k _ Lk) in I.
        assert (r = x) by congruence. subst. elim (Qclt_not_le _ _ L N). }
      destruct (existsb (fun w => Qcltb w 0) v2) eqn:B2; cbn [bind].
      { split; [discriminate|]. split; [intros [r D]; discriminate D|]. intros [_ Q2]. destruct (Bad v2 _ V2 L2 B2) as (k & x & Lk & I & L).
        destruct (Tot k Lk) as (r & s & rho & dd & A). destruct (Q2 k r s rho dd Lk A) as (_ & N & _). destruct A as (_ & A & _). apply (V2 k _ Lk) in A. apply (V2 k _ Lk) in I.
        assert (s = x) by congruence. subst. elim (Qclt_not_le _ _ L (Qclt_le_weak _ _ N)). }
      destruct (existsb (fun w => Qcltb w 0) v4) eqn:B4; cbn [bind].
      { split; [discriminate|]. split; [intros [r D]; discriminate D|]. intros [_ Q2]. destruct (Bad v4 _ V4 L4 B4) as (k & x & Lk & I & L).
        destruct (Tot k Lk) as (r & s & rho & dd & A). destruct (Q2 k r s rho dd Lk A) as (_ & _ & _ & N & _). destruct A as (_ & _ & _ & A). apply (V4 k _ Lk) in A. apply (V4 k _ Lk) in I.
        assert (dd = x) by congruence. subst. elim (Qclt_not_le _ _ L N). }
      destruct (operating_inputs_spec v1 v2 v4 v3) as [O1 O2]; try congruence. { now apply existsb_negative. } cbn zeta in O1, O2.
      destruct (operating_inputs v1 v2 v4 v3) as [inputs|] eqn:Eo; cbn [bind].
      - destruct (O1 inputs eq_refl) as (Li & Ov & Oi). rewrite L1 in Li. fold n. rewrite Li, Nat.eqb_refl. cbn [negb]. split.
        + intros p' inputs' periods E. injection E as <- <- <-. split; [reflexivity|]. split; [reflexivity|]. split; [exact Li|]. intros k Lk.
          destruct (Tot k Lk) as (r & s & rho & dd & A). destruct (At _ _ _ _ _ A Lk) as (K1 & K2 & K3 & K4). destruct (Oi k r s dd rho K1 K2 K4 K3) as (i & Ki & Hi).
          exists i. split; [exact Ki|]. intros r' s' rho' dd' A'. destruct (At _ _ _ _ _ A' Lk) as (K1' & K2' & K3' & K4').
          assert (r' = r) as -> by congruence. assert (s' = s) as -> by congruence. assert (rho' = rho) as -> by congruence. assert (dd' = dd) as -> by congruence. exact Hi.
        + split; [|eauto]. intros _. split; [exact Q|]. intros k r s rho dd Lk A. destruct (At _ _ _ _ _ A Lk) as (K1 & K2 & K3 & K4). exact (Ov k r s dd rho K1 K2 K4 K3).
      - split; [discriminate|]. split; [intros [r D]; discriminate D|]. intros [_ Q2]. destruct O2 as [l D]; [|discriminate D].
        intros k r s dd rho K1 K2 K4 K3. assert (k < n) as Lk by (rewrite <- L1; apply nth_error_Some; congruence).
        apply (Q2 k r s rho dd Lk). repeat split; [now apply V1|now apply V2|now apply V3|now apply V4].
    Qed.
  End Sub.
End Whole.

(** the pump process simulations of a model that starts and ends with its periods *)
Theorem duties_proof : forall pow first rest vars vm duties, let ps := first :: rest in let n := List.length ps in
  make_variables_map ps vars = Ok vm -> contiguous ps -> (forall r l, dict_get String.eqb r vars = Some l -> List.length l = n) ->
  (p_end (last rest first) <= DT_MAX)%Z ->
  Forall (fun d => Forall proper_curve (du_curves d) /\ duty_evaluable pow vars n d) duties ->
  (forall sims, pump_process_simulations pow vm (Some (p_start first)) (p_end (last rest first)) duties = Ok sims ->
     Forall2 (fun d s => let '(p, inputs, periods) := s in
       make_pump (du_curves d) (du_minimum_flow d) = Ok p /\ periods = ps /\ List.length inputs = n /\
       forall k, (k < n)%nat -> exists i, nth_error inputs k = Some i /\ duty_input pow vars n d k i) duties sims) /\
  ((exists sims, pump_process_simulations pow vm (Some (p_start first)) (p_end (last rest first)) duties = Ok sims) <->
     forall d, In d duties -> duty_pump_ok d /\ duty_values_ok pow vars n d).
Proof.
  intros pow first rest vars vm duties ps n Evm C Un Mx F. unfold pump_process_simulations. change (model_period (Some (p_start first)) (p_end (last rest first))) with (whole_of first rest).
  destruct (whole_subset first rest vars vm Evm C) as (sub & -> & Es). cbn [bind].
  pose proof (map_duty_spec pow first rest vars vm Evm C Un Mx sub Es) as M. fold ps in M. fold n in M. split.
  - intros sims E. apply mapM_Ok in E. revert E. clear - F M. revert sims. induction duties as [|d ds IH]; intros sims E; inversion E; subst; constructor.
    + destruct y as [[p inputs] periods]. inversion F as [|? ? [U1 U2] ?]; subst. now apply (M d U1 U2).
    + inversion F; subst. now apply IH.
  - clear - F M. induction F as [|d ds [H1 H2] F IH]. { split; [intros _ d []|exists []; reflexivity]. }
    cbn [mapM]. destruct (M d H1 H2) as [_ Md]. split.
    + intros [sims E]. destruct (map_duty pow sub d) as [r|] eqn:Ed; [|discriminate]. cbn [bind] in E. destruct (mapM (map_duty pow sub) ds) as [l|] eqn:El; [|discriminate].
      intros x [<-|I]; [apply Md; eauto|]. apply IH; eauto.
    + intros H. destruct (proj2 Md (H d (or_introl eq_refl))) as [r ->]. cbn [bind]. destruct (proj2 IH (fun x I => H x (or_intror I))) as [l ->]. cbn [bind]. eauto.
Qed.

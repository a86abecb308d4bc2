(** Rates and fluids of the streams of a process simulation. *)
From Coq Require Import PeanoNat String Lia.
From Verif Require Import QcTac Base BaseLemmas Num Time_Model Time_Spec Time_Proofs Time_Proofs2 Units_Model Rates_Model Rates_Proofs4 Expr_Model Expr_Spec
  Vars_Model Vars_Proofs Vars_Proofs2 Input_Model Energy_Model Energy_Proofs3 Emitters_Spec Export_Proofs2
  Consumer_Model Consumer_Spec Consumer_Proofs2 Consumer_Proofs5 Consumer_Proofs6 Duty_Model Duty_Proofs2 Simulations_Model Simulations_Spec.
Local Open Scope list_scope.
Local Open Scope nat_scope.

Lemma some_negative : forall us : list Qc, existsb (fun r => match r with Some q => Qcltb q 0 | None => false end) (map Some us) = existsb (fun x => Qcltb x 0) us.
Proof. induction us as [|u us IH]; [reflexivity|]. cbn. now rewrite IH. Qed.
Lemma all_some : forall us : list Qc, mapM (of_option ValueError) (map Some us) = Ok us.
Proof. induction us as [|u us IH]; [reflexivity|]. cbn [map mapM of_option bind]. rewrite IH. reflexivity. Qed.

Section Rates.
  Variable pow : Qc -> Qc -> Qc.
  Variables (first : period) (rest : list period) (vars : variables_dict) (vm : variables_map).
  Let ps := first :: rest.
  Let n := List.length ps.
  Hypothesis Evm : make_variables_map ps vars = Ok vm.
  Hypothesis C : contiguous ps.
  Hypothesis Un : forall r l, dict_get String.eqb r vars = Some l -> List.length l = n.
  Hypothesis Mx : (p_end (last rest first) <= DT_MAX)%Z.
  Variable sub : variables_map.
  Hypothesis Es : get_subset vm 0 n = Ok sub.

  Lemma rate_mask : forall r, rate_evaluable pow vars n r -> exists mask, (forall m, mask = Some m -> List.length m = n) /\
    (forall k b, k < n -> in_use pow vars n (rate_common r) k b <-> exists x, mask_value mask k = Some x /\ (b = false <-> x = 0%Qc)) /\
    match rate_condition r with Some ts => bind (vm_evaluate pow sub ts) (fun m => Ok (Some m)) | None => Ok None end = Ok mask.
  Proof.
    intros r (_ & H1 & H2). unfold rate_condition, rate_common.
    destruct (wr_conditions r) as [[|e es]|] eqn:Ec.
    - destruct (H2 [] eq_refl) as [H _]. congruence.
    - assert (wr_condition r = None) as ->. { destruct (wr_condition r) as [e'|] eqn:E'; [|reflexivity]. destruct (H1 e' eq_refl) as [_ D]. discriminate D. }
      destruct (mask_of pow first rest vars vm Evm C Un (mkCommon None (Some (e :: es)) None)) as (mask & Lm & Vm & Sm).
      { split; [discriminate|]. split; [|discriminate]. intros es' e' E I. cbn in E. injection E as <-. now apply (H2 (e :: es) eq_refl). }
      fold ps in Lm, Vm, Sm. fold n in Lm, Vm, Sm. exists mask. split; [exact Lm|]. split; [exact Vm|].
      specialize (Sm 0 n sub (n_pos first rest) (Nat.le_refl n) Es). unfold condition_values in Sm. cbn [cl_condition cl_conditions map_condition] in Sm.
      rewrite Sm. f_equal. destruct mask as [m|]; [|reflexivity]. cbn [option_map]. f_equal. apply slice_whole. now apply Lm.
    - destruct (wr_condition r) as [e|] eqn:E'; cbn [option_map].
      + destruct (H1 e eq_refl) as [He _]. destruct (values_of pow first rest vars vm Evm C Un sub Es e He) as (v & Lv & Vv & Ev). exists (Some v). split; [intros m E; injection E as <-; exact Lv|].
        split; [|rewrite Ev; reflexivity]. intros k b L. unfold in_use. cbn [cl_condition mask_value]. split; intros (x & A & B); exists x; (split; [now apply Vv|exact B]).
      + exists None. split; [discriminate|]. split; [|reflexivity]. intros k b L. unfold in_use. cbn [cl_condition cl_conditions mask_value]. split.
        * intros [B _]. exists 1%Qc. split; [reflexivity|]. split; [|intros E; discriminate E]. intros E. destruct (B E) as (es & e & D & _). discriminate D.
        * intros (x & X & B). injection X as <-. split; [intros E; apply B in E; discriminate E|]. intros (es & e & D & _). discriminate D.
  Qed.

  Lemma map_rate_spec : forall r, rate_evaluable pow vars n r ->
    (forall l, map_rate pow sub r = Ok l -> rate_series pow vars n r l) /\
    ((exists l, map_rate pow sub r = Ok l) <-> rate_not_negative pow vars n r) /\
    (forall e, map_rate pow sub r = Err e -> e = ValidationError).
  Proof.
    intros r H. destruct (rate_mask r H) as (mask & Lm & Vm & Em). destruct H as (Hv & _).
    destruct (values_of pow first rest vars vm Evm C Un sub Es _ Hv) as (v & Lv & Vv & Ev). fold ps in Lv, Vv. fold n in Lv, Vv.
    unfold map_rate. rewrite (sub_period first rest vars vm Evm C sub Es). cbn [bind]. rewrite (sub_regularity pow first rest vars vm Evm C Un Mx sub Es). cbn [bind].
    rewrite Ev. cbn [bind]. rewrite Em. cbn [bind]. fold ps. fold n.
    destruct (stream_values mask v (wr_type r) (repeat 1%Qc n)) as (us & Eu & Lu & Vu). { rewrite repeat_length. congruence. } { intros m E. rewrite Lv. now apply Lm. }
    assert (forall k u, k < n -> nth_error us k = Some u <-> rate_written pow vars n r k u) as W.
    { intros k u L. destruct (nth_error v k) as [x|] eqn:Kx; [|apply nth_error_None in Kx; lia].
      assert (exists c, mask_value mask k = Some c) as [c Kc].
      { destruct mask as [m|]; cbn [mask_value]; [|eauto]. destruct (nth_error m k) eqn:K; [eauto|]. apply nth_error_None in K. rewrite (Lm m eq_refl) in K. lia. }
      destruct (Vu k x c 1%Qc Kx Kc) as (u0 & Ku & Mu). { now rewrite nth_error_repeat. }
      assert (forall b, (b = false <-> c = 0%Qc) -> u0 = if b then x else 0%Qc) as Q.
      { intros b B. specialize (Mu b B). unfold stream_rate_means in Mu. destruct b; [|exact Mu]. destruct (wr_type r); [congruence|]. destruct Mu as [[_ Mu]|[D _]]; [|discriminate D]. rewrite Qcmult_1_r in Mu. congruence. }
      unfold rate_written. rewrite Ku. split.
      - intros E. injection E as <-. exists x. destruct (Qc_eq_dec c 0) as [Z|Z]; [exists false|exists true].
        + split; [now apply Vv|]. split; [apply Vm; [exact L|]; exists c; tauto|]. apply (Q false). tauto.
        + assert (true = false <-> c = 0%Qc) as B by (split; [discriminate|tauto]). split; [now apply Vv|]. split; [apply Vm; [exact L|]; exists c; auto|]. now apply (Q true).
      - intros (x' & b & A & B & ->). apply Vv in A; [|exact L]. assert (x' = x) as -> by congruence. apply Vm in B as (c' & Kc' & B); [|exact L]. assert (c' = c) as -> by congruence.
        f_equal. now apply Q. }
    unfold flow_rates. destruct (apply_mask mask (map Some v)) as [mk|]; cbn [bind] in *; [|discriminate]. rewrite Eu. cbn [bind]. rewrite some_negative.
    destruct (existsb (fun x => Qcltb x 0) us) eqn:B; cbn [bind].
    - split; [discriminate|]. split; [|intros e E; congruence]. split; [intros [l E]; discriminate E|]. intros N. exfalso.
      apply existsb_exists in B as (x & I & B). apply Qcltb_lt in B. apply In_nth_error in I as [k K]. assert (k < n) as L by (rewrite <- Lv, <- Lu; apply nth_error_Some; congruence).
      apply (W k x L) in K. elim (Qclt_not_le _ _ B (N k x L K)).
    - rewrite all_some. split; [|split; [|discriminate]].
      + intros l E. injection E as <-. split; [congruence|exact W].
      + split; [|eauto]. intros _ k x L K. apply (W k x L) in K. apply (proj1 (existsb_negative us) B). eapply nth_error_In; eauto.
  Qed.

  Lemma fluid_spec : forall f k p, (forall e, In e (fl_components f) -> evaluable pow vars n e) -> nth_error ps k = Some p ->
    (forall r, fluid_in_period pow sub f p = Ok r -> fst r = fl_eos f /\ Forall2 (fun e x => input_at pow vars n e k x) (fl_components f) (snd r)) /\
    ((exists r, fluid_in_period pow sub f p = Ok r) <-> forall e x, In e (fl_components f) -> input_at pow vars n e k x -> (0 <= x)%Qc).
  Proof.
    intros [eos comps] k p He K. cbn [fl_eos fl_components] in *. unfold fluid_in_period. rewrite (sub_periods first rest vars vm Evm C sub Es). fold ps. cbn [fl_eos fl_components].
    assert (k < n) as L by (unfold n; apply nth_error_Some; congruence).
    assert (index_of period_eqb p ps = Some k) as ->.
    { apply index_of_nth; [exact period_eqb_spec|now apply periods_NoDup|exact K]. }
    cbn [of_option bind].
    assert (exists xs, mapM (fun e => bind (vm_evaluate pow sub (input_tokens e)) (fun values => of_option IndexError (nth_error values k))) comps = Ok xs /\
      Forall2 (fun e x => forall y, input_at pow vars n e k y <-> y = x) comps xs) as (xs & Ex & F).
    { clear - Evm C Un Es He L. induction comps as [|e comps IH]; [exists []; split; [reflexivity|constructor]|].
      destruct IH as (xs & Ex & F); [intros x I; apply He; now right|]. destruct (values_of pow first rest vars vm Evm C Un sub Es e (He e (or_introl eq_refl))) as (v & Lv & Vv & Ev).
      fold ps in Lv, Vv. fold n in Lv, Vv. destruct (nth_error v k) as [x|] eqn:Kx; [|apply nth_error_None in Kx; lia].
      exists (x :: xs). cbn [mapM]. rewrite Ev. cbn [bind]. rewrite Kx. cbn [of_option bind]. rewrite Ex. split; [reflexivity|]. constructor; [|exact F].
      intros y. rewrite (Vv k y L). rewrite Kx. split; congruence. }
    rewrite Ex. cbn [bind]. unfold make_composition. destruct (existsb (fun x => Qcltb x 0) xs) eqn:B; cbn [bind].
    - split; [discriminate|]. split; [intros [r E]; discriminate E|]. intros N. exfalso. apply existsb_exists in B as (x & I & B). apply Qcltb_lt in B.
      enough (exists e, In e comps /\ input_at pow vars n e k x) as (e & Ie & A) by (elim (Qclt_not_le _ _ B (N e x Ie A))).
      clear - F I. induction F as [|e y es ys H F IH]; [destruct I|]. destruct I as [->|I]; [exists e; split; [now left|now apply H]|]. destruct (IH I) as (e' & Ie & A). exists e'. split; [now right|exact A].
    - split.
      + intros r E. injection E as <-. cbn [fst snd]. split; [reflexivity|]. clear - F. induction F as [|e y es ys H F IH]; constructor; auto. now apply H.
      + split; [|eauto]. intros _ e x I A. apply (proj1 (existsb_negative xs) B).
        clear - F I A. induction F as [|e' y es ys H F IH]; [destruct I|]. destruct I as [->|I]; [left; symmetry; now apply H|right; auto].
  Qed.
  Lemma no_fluid : forall f p, ~ In p ps -> fluid_in_period pow sub f p = Err ProgrammingError.
  Proof.
    intros f p N. unfold fluid_in_period. rewrite (sub_periods first rest vars vm Evm C sub Es). fold ps. destruct (index_of period_eqb p ps) as [i|] eqn:E; [|reflexivity].
    apply (index_of_Some _ period_eqb) in E; [|exact period_eqb_spec]. destruct E as [E _]. elim N. eapply nth_error_In; eauto.
  Qed.
End Rates.

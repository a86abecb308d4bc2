(** The maximum rate and what it depends on (C84). *)
From Coq Require Import List Bool ZArith Lia.
From Verif Require Import QcTac Base Num Search_Model Stream_Model Stream_Spec Flash_Model Process_Model Process_Spec Process_Proofs Train_Model Train_Spec Train_Proofs Train_Proofs2 Train_Proofs3 Train_Proofs4 Train_Proofs5 Train_Proofs6 Train_Proofs7 Train_Proofs8.
Import ListNotations.
Local Open Scope Qc_scope.

Lemma resp_speed_search : forall all e t c lower upper, incl (tn_stages t) all -> resp (same_state all) (find_speed e t c lower upper).
Proof.
  intros all e t c lower upper I. unfold find_speed. apply resp_bind; [apply resp_lift|]. intros lowest. apply resp_bind; [apply resp_lift|]. intros highest.
  cbv zeta.
  assert (Step : forall v, resp (same_state all) (set_train_speed t v ;;* calculate_train e t c)).
  { intros v. apply resp_bind; [apply resp_set_speed|]. intros _. now apply resp_calculate. }
  assert (End : forall v, resp (same_state all) (set_train_speed t v ;;* ret v)).
  { intros v. apply resp_bind; [apply resp_set_speed|]. intros _. apply resp_ret. }
  apply resp_bind; [apply Step|]. intros r_high.
  destruct (negb (tr_within r_high)); [apply End|]. apply resp_bind; [apply Step|]. intros r_low. apply resp_bind.
  { destruct (negb (tr_within r_low)); [|apply resp_ret]. apply resp_bind.
    - apply resp_maximize. intros x. apply resp_bind; [apply Step|]. intros r. apply resp_ret.
    - intros m. cbv zeta. apply resp_bind; [apply Step|]. intros r. apply resp_ret. }
  intros [low r_low']. destruct (c_discharge c) as [target|]; [|apply End].
  destruct (Qcleb (tr_discharge r_low') target && Qcleb target (tr_discharge r_high)).
  - apply resp_bind; [|intros v; apply End]. apply resp_find_root. intros x. apply resp_bind; [apply Step|]. intros r. apply resp_ret.
  - destruct (Qcltb target (tr_discharge r_low')); apply End.
Qed.

Lemma resp_two_pressures : forall e t n c p controls, resp (same_state (tn_stages t)) (two_pressures e t n c p controls).
Proof.
  intros e t n c p controls. unfold two_pressures. set (all := tn_stages t).
  set (part1 := first_part t n (Some (fst controls))). cbv zeta.
  assert (I1 : incl (tn_stages part1) all).
  { intros x X. cbn [part1 first_part tn_stages] in X. unfold all. rewrite <- (firstn_skipn n (tn_stages t)). apply in_or_app. now left. }
  assert (I2 : forall model, incl (tn_stages (last_part t n (Some (snd controls)) model)) all).
  { intros model x X. cbn [last_part tn_stages] in X. unfold all. rewrite <- (firstn_skipn n (tn_stages t)). apply in_or_app. now right. }
  apply resp_bind; [apply resp_construct|]. intros _. apply resp_bind; [apply resp_lift|]. intros placeholder.
  apply resp_bind; [apply resp_construct|]. intros _. apply resp_bind; [apply resp_lift|]. intros [rates1 rates2].
  apply resp_bind; [apply resp_lift|]. intros lowest. apply resp_bind; [apply resp_lift|]. intros highest.
  apply resp_bind; [apply resp_speed_search; exact I1|]. intros v1.
  apply resp_bind; [apply resp_part, I1|]. intros r1. apply resp_bind; [apply resp_lift|]. intros z.
  apply resp_bind; [apply resp_speed_search, I2|]. intros v2. apply resp_bind; [apply resp_part, I2|]. intros r2.
  apply resp_bind.
  { destruct (Qcltb v2 v1).
    - apply resp_bind; [apply resp_set_speed|]. intros _. apply resp_bind; [apply resp_control, I2|]. intros r. apply resp_ret.
    - apply resp_bind; [apply resp_set_speed|]. intros _. apply resp_bind; [apply resp_control, I1|]. intros r. apply resp_ret. }
  intros [q1 q2]. apply (resp_speed _ all (fun sp =>
    let r := mk_train_result (tr_inlet q1) (tr_outlet q2) sp (tr_stages q1 ++ tr_stages q2) NotCalculated (above_power t (tr_stages q1 ++ tr_stages q2)) in
    let! status := check_result t c r in Return (set_status r status))).
Qed.

Lemma resp_evaluate : forall e t c, resp (same_state (tn_stages t)) (evaluate_constraints e t c).
Proof.
  intros e t c. unfold evaluate_constraints. apply resp_bind; [apply resp_reset|]. intros _. apply resp_bind; [apply resp_lift|]. intros _.
  destruct (any_ingoing t (c_rates c)); [|apply resp_ret]. apply resp_bind; [|intros r; apply resp_ret].
  destruct (c_interstage c) as [p|].
  - apply resp_bind; [apply resp_lift|]. intros n. apply resp_bind; [apply resp_lift|]. intros controls. apply resp_two_pressures.
  - apply resp_bind; [apply resp_speed_search, incl_refl|]. intros v. apply resp_bind; [apply resp_calculate, incl_refl|]. intros r.
    destruct (tr_status r); try apply resp_ret; (destruct (tn_control t); [apply resp_control, incl_refl|apply resp_ret]).
Qed.

(** ** The maximum rate *)

Lemma rel_max_rate : forall e t c, rel (before (tn_stages t) t) (max_rate e t c) (same_state (tn_stages t)).
Proof.
  intros e t c. unfold max_rate. set (all := tn_stages t).
  eapply rel_bind; [apply rel_lift|]. intros model. eapply rel_bind; [apply rel_lift|]. intros first.
  eapply rel_bind; [apply rel_lift|]. intros f. cbv zeta.
  eapply rel_bind; [apply rel_lift|]. intros fastest. eapply rel_bind; [apply rel_lift|]. intros slowest.
  assert (AtMass : forall m, resp (same_state all) (let* c' := lift (with_rate c (mass_rate_to_standard_rate (e_service e) model m)) in calculate_train e t c')).
  { intros m. apply resp_bind; [apply resp_lift|]. intros c'. apply resp_calculate, incl_refl. }
  assert (Result : forall v m, resp (same_state all) (set_train_speed t v ;;*
     (let* c' := lift (with_rate c (mass_rate_to_standard_rate (e_service e) model m)) in calculate_train e t c'))).
  { intros v m. apply resp_bind; [apply resp_set_speed|]. intros _. apply AtMass. }
  assert (Within : forall v m, resp (same_state all) (let* r := set_train_speed t v ;;*
     (let* c' := lift (with_rate c (mass_rate_to_standard_rate (e_service e) model m)) in calculate_train e t c') in ret (tr_within r))).
  { intros v m. apply resp_bind; [apply Result|]. intros r. apply resp_ret. }
  assert (Solved : forall rate, resp (same_state all) (let* c' := lift (with_rate c rate) in evaluate_constraints e t c')).
  { intros rate. apply resp_bind; [apply resp_lift|]. intros c'. apply resp_evaluate. }
  eapply rel_bind.
  { eapply rel_bind; [apply rel_set_speed_before|]. intros _. apply rel_resp. apply AtMass. }
  intros r_min. apply rel_resp. apply resp_bind; [apply Result|]. intros r_max. apply resp_bind; [apply Result|]. intros r_slow.
  destruct (negb (tr_within r_min)); [apply resp_ret|]. apply resp_bind.
  { destruct (negb (tr_within r_max)); [|apply resp_ret]. apply resp_bind; [apply resp_maximize; intros m; apply Within|]. intros m.
    apply resp_bind; [apply Result|]. intros r. apply resp_ret. }
  intros [m_max r_max']. apply resp_bind.
  - destruct (match c_discharge c with Some p => Qcltb (tr_discharge r_min) p | None => false end); [apply resp_ret|].
    destruct (match c_discharge c with Some p => Qcleb (tr_discharge r_max') p | None => false end).
    + destruct (c_discharge c) as [p|]; [|apply resp_raise]. apply resp_bind; [|intros m; apply resp_ret].
      apply resp_find_root. intros m. apply resp_bind; [apply Result|]. intros r. apply resp_ret.
    + assert (Rest : resp (same_state all)
        (let* r_slow := if negb (tr_within r_slow) then
              let* m := maximize_x EPSILON (tc_max_rate (st_chart first) (tc_min_speed (st_chart first)) * p_density (f_properties f))
                         (fun m => let* r := set_train_speed t slowest ;;*
                            (let* c' := lift (with_rate c (mass_rate_to_standard_rate (e_service e) model m)) in calculate_train e t c') in ret (tr_within r))
                         convergence_tolerance maximum_iterations in
              set_train_speed t slowest ;;*
              (let* c' := lift (with_rate c (mass_rate_to_standard_rate (e_service e) model m)) in calculate_train e t c')
            else ret r_slow in
          match c_discharge c with
          | None => raise OtherProcessError
          | Some p =>
              if Qcleb p (tr_discharge r_max') && Qcleb (tr_discharge r_slow) p then
                let stone_wall v :=
                  let* m := maximize_x (tc_min_rate (st_chart first) v * p_density (f_properties f)) (tc_max_rate (st_chart first) v * p_density (f_properties f))
                    (fun m => let* r := set_train_speed t v ;;*
                            (let* c' := lift (with_rate c (mass_rate_to_standard_rate (e_service e) model m)) in calculate_train e t c') in ret (tr_within r)) (qc 1 1000) 20 in
                  (let* c' := lift (with_rate c (mass_rate_to_standard_rate (e_service e) model m)) in calculate_train e t c') in
                let* v := find_root e slowest fastest (fun v => let* r := stone_wall v in ret (tr_discharge r - p))
                            convergence_tolerance maximum_iterations in
                set_train_speed t v ;;*
                (let* r := stone_wall v in
                 match tr_stages r with
                 | [] => raise IndexErr
                 | x :: _ => ret (Some (s_mass_rate (sr_inlet x) * (1 - rate_calculation_tolerance)))
                 end)
              else if Qcltb p (tr_discharge r_slow) then ret None
              else raise OtherProcessError
          end)).
      { apply resp_bind.
        { destruct (negb (tr_within r_slow)); [|apply resp_ret]. apply resp_bind; [apply resp_maximize; intros m; apply Within|]. intros m. apply Result. }
        intros r_slow'. destruct (c_discharge c) as [p|]; [|apply resp_raise].
        destruct (Qcleb p (tr_discharge r_max') && Qcleb (tr_discharge r_slow') p).
        - cbv zeta.
          assert (Wall : forall v, resp (same_state all) (let* m := maximize_x (tc_min_rate (st_chart first) v * p_density (f_properties f)) (tc_max_rate (st_chart first) v * p_density (f_properties f))
                    (fun m => let* r := set_train_speed t v ;;*
                            (let* c' := lift (with_rate c (mass_rate_to_standard_rate (e_service e) model m)) in calculate_train e t c') in ret (tr_within r)) (qc 1 1000) 20 in
                  (let* c' := lift (with_rate c (mass_rate_to_standard_rate (e_service e) model m)) in calculate_train e t c'))).
          { intros v. apply resp_bind; [apply resp_maximize; intros m; apply Within|]. intros m. apply AtMass. }
          apply resp_bind; [apply resp_find_root; intros v; apply resp_bind; [apply Wall|]; intros r; apply resp_ret|]. intros v.
          apply resp_bind; [apply resp_set_speed|]. intros _. apply resp_bind; [apply Wall|]. intros r.
          destruct (tr_stages r); [apply resp_raise|apply resp_ret].
        - destruct (Qcltb p (tr_discharge r_slow')); [apply resp_ret|apply resp_raise]. }
      destruct (tn_control t) as [[]|]; try exact Rest; [|apply resp_ret].
      apply resp_bind; [|intros m; apply resp_ret]. apply resp_maximize. intros m. apply resp_bind; [apply Solved|]. intros o. apply resp_ret.
  - intros mass. destruct mass as [mass|]; [|apply resp_ret]. destruct (tn_max_power t) as [limit|]; [|apply resp_ret].
    destruct (Qceqb limit 0); [apply resp_ret|]. apply resp_bind; [apply Solved|]. intros o. destruct (Qcltb limit (ev_power o)); [|apply resp_ret].
    apply resp_bind; [apply Solved|]. intros low. destruct (Qcltb limit (ev_power low)); [apply resp_ret|].
    apply resp_bind; [destruct low as [n|r]; [apply resp_ret|]; destruct (tr_stages r); [apply resp_raise|apply resp_ret]|]. intros m0.
    apply resp_bind; [|intros m; apply resp_ret]. apply resp_find_root. intros m. apply resp_bind; [apply Solved|]. intros x. apply resp_ret.
Qed.

Lemma max_rate_same : forall e t c s1 s2, tn_variable t = true \/ t_speed s1 = t_speed s2 ->
  (forall st, In st (tn_stages t) -> m_mass (t_mod s1 (st_id st)) = m_mass (t_mod s2 (st_id st)) /\
                                    m_fraction (t_mod s1 (st_id st)) = m_fraction (t_mod s2 (st_id st))) ->
  fst (max_rate e t c s1) = fst (max_rate e t c s2).
Proof.
  intros e t c s1 s2 H Md. apply (rel_max_rate e t c s1 s2). assert (Sm : same_modes (tn_stages t) s1 s2).
  { intros st I. destruct (Md st I). unfold mode. congruence. }
  unfold before. destruct (tn_variable t); [exact Sm|]. split; [destruct H; [discriminate|assumption]|exact Sm].
Qed.

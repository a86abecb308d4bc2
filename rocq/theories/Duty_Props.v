(** C127: the pump process simulations of a model file.  C42: streams given by their volume. *)
From Coq Require Import PeanoNat String.
From Verif Require Import QcTac Base Num Time_Model Time_Spec Units_Model Expr_Model Vars_Model Input_Model Input_Spec Energy_Model Chart_Model Chart_Spec
  Pump_Model Pump_Spec Pump_Props Consumer_Model Consumer_Spec Duty_Model Duty_Spec Duty_Proofs Duty_Proofs2 Duty_Proofs3.
Local Open Scope list_scope.
Local Open Scope Qc_scope.

(** ** C42 A liquid stream given by its volume per day has that volume per day; only physical ones are accepted. *)
Theorem C42_volume : forall rate pressure density,
  (forall s, liquid_from_volume rate pressure density = Ok s ->
     physical s /\ l_rate_per_day s = rate /\ l_pressure s = pressure /\ l_density s = density) /\
  ((exists s, liquid_from_volume rate pressure density = Ok s) <-> 0 < density /\ 0 <= rate /\ 0 < pressure) /\
  (forall e, liquid_from_volume rate pressure density = Err e -> e = DomainError).
Proof. exact volume_proof. Qed.
Print Assumptions C42_volume.
(** The discharge pressure a pump is set to must be positive, and must be set. *)
Theorem C42_target : forall closest np_std p target s,
  (0 < target -> set_discharge target = Ok (Some target)) /\ (target <= 0 -> set_discharge target = Err DomainError) /\
  pump_propagate closest np_std p None s = Err ValueError.
Proof. exact target_proof. Qed.
Print Assumptions C42_target.
Example C42_case_volume : exists s, liquid_from_volume (qz 240) (qz 5) (qz 1000) = Ok s /\ l_mass s = qz 10000.
Proof. eexists. split; [vm_compute; reflexivity|]. apply Qc_is_canon. reflexivity. Qed.

(** ** C127 The simulations of a model with a start and an end: which are accepted, and the input of every period *)
Theorem C127_inputs : forall pow tv start stop extra ps vars vm duties,
  (start < stop)%Z -> (stop <= DT_MAX)%Z -> get_model_periods tv stop (Some start) extra = Ok ps -> make_variables_map ps vars = Ok vm ->
  (forall r l, dict_get String.eqb r vars = Some l -> List.length l = List.length ps) ->
  Forall (fun d => Forall proper_curve (du_curves d) /\ duty_evaluable pow vars (List.length ps) d) duties ->
  (forall sims, pump_process_simulations pow vm (Some start) stop duties = Ok sims ->
     Forall2 (fun d s => let '(p, inputs, periods) := s in
       make_pump (du_curves d) (du_minimum_flow d) = Ok p /\ periods = ps /\ List.length inputs = List.length ps /\
       forall k, (k < List.length ps)%nat -> exists i, nth_error inputs k = Some i /\ duty_input pow vars (List.length ps) d k i) duties sims) /\
  ((exists sims, pump_process_simulations pow vm (Some start) stop duties = Ok sims) <->
     forall d, In d duties -> duty_pump_ok d /\ duty_values_ok pow vars (List.length ps) d).
Proof. exact simulations_proof. Qed.
Print Assumptions C127_inputs.
(** Every accepted simulation can be evaluated in every period, and serves the liquid of that period. *)
Theorem C127_results : forall closest np_std, (forall pts x y, 0 <= fst (closest pts x y)) ->
  forall pow tv start stop extra ps vars vm duties sims, let n := List.length ps in
  (start < stop)%Z -> (stop <= DT_MAX)%Z -> get_model_periods tv stop (Some start) extra = Ok ps -> make_variables_map ps vars = Ok vm ->
  (forall r l, dict_get String.eqb r vars = Some l -> List.length l = n) ->
  Forall (fun d => Forall proper_curve (du_curves d) /\ duty_evaluable pow vars n d) duties ->
  pump_process_simulations pow vm (Some start) stop duties = Ok sims ->
  Forall2 (fun d s => let '(p, inputs, periods) := s in
    exists results, simulate closest np_std p inputs = Ok results /\ List.length results = List.length periods /\
      forall k rate suction density discharge, (k < n)%nat -> duty_at pow vars n d k rate suction density discharge ->
        exists res s0 s1 s2 s3 s4, nth_error results k = Some (res, [s0; s1; s2; s3; s4]) /\
          (* the liquid of the period comes in, and leaves *)
          requested s0 * qz 24 = rate /\ l_pressure s0 = suction /\ requested s4 * qz 24 = rate /\
          (forall s, In s [s0; s1; s2; s3; s4] -> l_density s = density) /\
          (* where it flows it leaves with the required pressure *)
          (0 < rate -> l_pressure s4 = discharge /\ pr_required_head res = head_between suction discharge density /\ discharge <= pr_discharge res /\
             rate <= pr_rate res * qz 24) /\
          (* where nothing flows the pump stands still *)
          (rate <= 0 -> pr_power res = 0 /\ pr_valid res = true /\ pr_rate res = 0 /\ l_pressure s3 = suction)) duties sims.
Proof. exact results_proof. Qed.
Print Assumptions C127_results.
(** C127 fails for models without a START (it is optional, and then the first date of the time series counts): the variables
    are looked up for a period that begins in 1900. *)
Theorem C127_no_start_refuted : forall pow tv stop extra ps vars vm duties a, earliest a tv -> (DEFAULT_START < a)%Z -> (a < stop)%Z ->
  get_model_periods tv stop None extra = Ok ps -> make_variables_map ps vars = Ok vm ->
  pump_process_simulations pow vm None stop duties = Err ValueError.
Proof. exact no_start_proof. Qed.
Print Assumptions C127_no_start_refuted.

(** A pump that runs in the first period and stands still in the second; the model starts in 2020. *)
Definition C127_vars : variables_dict := [("w;rate", [qz 288; qz 0]); ("w;p", [qz 15; qz 0])]%string.
Definition C127_duty : duty :=
  mkDuty [C42_slow; C42_fast] 0 None (IText [TRef "w;rate"]) (INumber (qz 5)) (INumber (qz 1000)) (IText [TRef "w;p"]).
Definition C127_periods : list period := [mkPeriod 63713433600 63745056000; mkPeriod 63745056000 63776592000].
Example C127_case :
  get_model_periods [63713433600; 63745056000]%Z 63776592000 (Some 63713433600%Z) [] = Ok C127_periods /\
  duty_pump_ok C127_duty /\ Forall proper_curve (du_curves C127_duty) /\
  match (do vm <- make_variables_map C127_periods C127_vars; pump_process_simulations (fun x _ => x) vm (Some 63713433600%Z) 63776592000 [C127_duty]) with
  | Ok [(p, [(a, pa); (b, pb)], _)] =>
      Qceqb (l_mass a) (qz 12000) && Qceqb pa (qz 15) && Qceqb (l_mass b) 0 && Qceqb pb (qz 5) &&
      match simulate C42_closest C42_std p [(a, pa); (b, pb)] with
      | Ok [(ra, _); (rb, _)] => Qcltb 0 (pr_power ra) && Qceqb (pr_power rb) 0
      | _ => false
      end
  | _ => false
  end = true.
Proof.
  split; [vm_compute; reflexivity|]. destruct C42_case_accepted as (H & Mp & _). split.
  { split; [reflexivity|]. apply (C42_accepted [C42_slow; C42_fast] None H). eauto. }
  split; [exact H|]. vm_compute. reflexivity.
Qed.
Example C127_case_evaluable : duty_evaluable (fun x _ => x) C127_vars 2 C127_duty /\ duty_values_ok (fun x _ => x) C127_vars 2 C127_duty.
Proof.
  split; [repeat split; cbn; eexists; vm_compute; reflexivity|].
  intros k r s rho d L (A1 & A2 & A3 & A4). cbn in A2, A3. subst s rho. destruct A1 as (l1 & E1 & K1). destruct A4 as (l4 & E4 & K4). vm_compute in E1, E4.
  injection E1 as <-. injection E4 as <-.
  assert (k = 0 \/ k = 1)%nat as [-> | ->] by lia; cbn [nth_error] in K1, K4; injection K1 as <-; injection K4 as <-;
    (split; [vm_compute; discriminate|]; split; [reflexivity|]; split; [reflexivity|]; split; [vm_compute; discriminate|]; (reflexivity || discriminate)).
Qed.
(** the same model without its START *)
Example C127_no_start_case : earliest 63713433600 [63713433600; 63745056000]%Z /\
  get_model_periods [63713433600; 63745056000]%Z 63776592000 None [] = Ok C127_periods /\
  (do vm <- make_variables_map C127_periods C127_vars; pump_process_simulations (fun x _ => x) vm None 63776592000 [C127_duty]) = Err ValueError.
Proof.
  split; [split; [cbn; auto|]; intros d [<-|[<-|[]]]; lia|]. split; vm_compute; reflexivity.
Qed.

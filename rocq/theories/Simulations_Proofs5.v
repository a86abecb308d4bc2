(** The process simulations of a model with a start and an end. *)
From Coq Require Import PeanoNat String Lia.
From Verif Require Import QcTac Base BaseLemmas Num Time_Model Time_Spec Time_Proofs Time_Proofs2 Units_Model Rates_Model Expr_Model Expr_Spec Vars_Model Vars_Proofs Vars_Proofs2
  Input_Model Input_Spec Energy_Model Stream_Model Process_Model Process_Spec Sections_Model Sections_Spec Consumer_Model Consumer_Spec
  Duty_Model Duty_Proofs2 Duty_Proofs3 Simulations_Model Simulations_Spec Simulations_Proofs3 Simulations_Proofs4.
Local Open Scope list_scope.
Local Open Scope nat_scope.

Theorem process_proof : forall pow tv start stop extra ps vars vm lib events simulations,
  (start < stop)%Z -> (stop <= DT_MAX)%Z -> get_model_periods tv stop (Some start) extra = Ok ps -> make_variables_map ps vars = Ok vm ->
  (forall r l, dict_get String.eqb r vars = Some l -> List.length l = List.length ps) ->
  library_ok lib -> (forall s, In s simulations -> NoDup (map fst (wm_constraints s))) -> rates_evaluable pow vars (List.length ps) lib simulations ->
  (forall made, process_simulations pow vm (Some start) stop lib events simulations = Ok made ->
     Forall2 (simulation_made pow vars (List.length ps) lib events) simulations made) /\
  ((exists made, process_simulations pow vm (Some start) stop lib events simulations = Ok made) <->
     forall s, In s simulations -> simulation_accepted pow vars (List.length ps) lib events s).
Proof.
  intros pow tv start stop extra ps vars vm lib events simulations L Mx Ep Evm Un Lok Nc (Hs & Hu & Hp & Hd).
  destruct (model_whole tv stop (Some start) extra start ps eq_refl L Ep) as (first & rest & -> & C & <- & <-).
  unfold process_simulations. change (model_period (Some (p_start first)) (p_end (last rest first))) with (whole_of first rest).
  destruct (whole_subset first rest vars vm Evm C) as (sub & -> & Es). cbn [bind].
  assert (forall s, In s simulations ->
    (forall m, map_simulation (map_rate pow sub) lib events s = Ok m -> simulation_made pow vars (List.length (first :: rest)) lib events s m) /\
    ((exists m, map_simulation (map_rate pow sub) lib events s = Ok m) <-> simulation_accepted pow vars (List.length (first :: rest)) lib events s)) as M.
  { intros s I. apply simulation_facts; auto.
    - intros r He. destruct (map_rate_spec pow first rest vars vm Evm C Un Mx sub Es r He) as (A & B & _). auto.
    - intros r R. now apply (Hd s). }
  split.
  - intros made E. apply mapM_Ok in E. apply (Forall2_weaken _ _ _ _ _ _ (fun x y I H => proj1 (M x I) y H) E).
  - rewrite mapM_each. split; intros H s I; apply (M s I); auto.
Qed.

Theorem rates_proof : forall pow tv start stop extra ps vars vm, let n := List.length ps in
  (start < stop)%Z -> (stop <= DT_MAX)%Z -> get_model_periods tv stop (Some start) extra = Ok ps -> make_variables_map ps vars = Ok vm ->
  (forall r l, dict_get String.eqb r vars = Some l -> List.length l = n) ->
  exists sub, get_subset_for_period vm (mkPeriod start stop) = Ok sub /\
  forall r, rate_evaluable pow vars n r ->
    (forall l, map_rate pow sub r = Ok l -> rate_series pow vars n r l) /\
    ((exists l, map_rate pow sub r = Ok l) <-> rate_not_negative pow vars n r) /\
    (forall e, map_rate pow sub r = Err e -> e = ValidationError).
Proof.
  intros pow tv start stop extra ps vars vm n L Mx Ep Evm Un.
  destruct (model_whole tv stop (Some start) extra start ps eq_refl L Ep) as (first & rest & -> & C & <- & <-). subst n.
  destruct (whole_subset first rest vars vm Evm C) as (sub & E & Es). exists sub. split; [exact E|]. intros r He.
  exact (map_rate_spec pow first rest vars vm Evm C Un Mx sub Es r He).
Qed.

(** the two ways to give a rate are the same *)
Theorem types_proof : forall pow tv start stop extra ps vars vm sub v c cs l,
  (start < stop)%Z -> (stop <= DT_MAX)%Z -> get_model_periods tv stop (Some start) extra = Ok ps -> make_variables_map ps vars = Ok vm ->
  (forall r l, dict_get String.eqb r vars = Some l -> List.length l = List.length ps) ->
  get_subset_for_period vm (mkPeriod start stop) = Ok sub -> rate_evaluable pow vars (List.length ps) (mkWrittenRate v STREAM_DAY c cs) ->
  (map_rate pow sub (mkWrittenRate v STREAM_DAY c cs) = Ok l <-> map_rate pow sub (mkWrittenRate v CALENDAR_DAY c cs) = Ok l).
Proof.
  intros pow tv start stop extra ps vars vm sub v c cs l L Mx Ep Evm Un Es He.
  destruct (rates_proof pow tv start stop extra ps vars vm L Mx Ep Evm Un) as (sub' & Es' & H). assert (sub' = sub) as -> by congruence.
  destruct (H _ He) as (A1 & B1 & _). destruct (H (mkWrittenRate v CALENDAR_DAY c cs) He) as (A2 & B2 & _).
  assert (forall a b, rate_series pow vars (List.length ps) (mkWrittenRate v STREAM_DAY c cs) a -> rate_series pow vars (List.length ps) (mkWrittenRate v CALENDAR_DAY c cs) b -> a = b) as Q.
  { intros a b [La Va] [Lb Vb]. apply nth_same; [congruence|]. intros k x K. assert (k < List.length ps) as Lk by (rewrite <- La; apply nth_error_Some; congruence).
    apply Vb; [exact Lk|]. now apply (Va k x Lk). }
  split; intros E.
  - destruct (proj2 B2 (proj1 B1 (ex_intro _ l E))) as [l' E']. rewrite E'. f_equal. symmetry. apply Q; auto.
  - destruct (proj2 B1 (proj1 B2 (ex_intro _ l E))) as [l' E']. rewrite E'. f_equal. apply Q; auto.
Qed.

Theorem fluids_proof : forall pow tv start stop extra ps vars vm sub f, let n := List.length ps in
  (start < stop)%Z -> get_model_periods tv stop (Some start) extra = Ok ps -> make_variables_map ps vars = Ok vm ->
  (forall r l, dict_get String.eqb r vars = Some l -> List.length l = n) ->
  get_subset_for_period vm (mkPeriod start stop) = Ok sub -> (forall e, In e (fl_components f) -> evaluable pow vars n e) ->
  (forall k p, nth_error ps k = Some p ->
     (forall r, fluid_in_period pow sub f p = Ok r -> fst r = fl_eos f /\ Forall2 (fun e x => input_at pow vars n e k x) (fl_components f) (snd r)) /\
     ((exists r, fluid_in_period pow sub f p = Ok r) <-> forall e x, In e (fl_components f) -> input_at pow vars n e k x -> (0 <= x)%Qc)) /\
  (forall p, ~ In p ps -> fluid_in_period pow sub f p = Err ProgrammingError).
Proof.
  intros pow tv start stop extra ps vars vm sub f n L Ep Evm Un Es He.
  destruct (model_whole tv stop (Some start) extra start ps eq_refl L Ep) as (first & rest & -> & C & <- & <-). subst n.
  destruct (whole_subset first rest vars vm Evm C) as (sub' & E & Es'). unfold whole_of in E. assert (sub' = sub) as -> by congruence. split.
  - intros k p K. exact (fluid_spec pow first rest vars vm Evm C Un sub Es' f k p He K).
  - intros p N. exact (no_fluid pow first rest vars vm Evm C sub Es' f p N).
Qed.

(** a model without a START that begins after 1900 has no process simulations *)
Theorem no_process_start : forall pow tv stop extra ps vars vm lib events simulations a, earliest a tv -> (DEFAULT_START < a)%Z -> (a < stop)%Z ->
  get_model_periods tv stop None extra = Ok ps -> make_variables_map ps vars = Ok vm ->
  process_simulations pow vm None stop lib events simulations = Err ValueError.
Proof.
  intros pow tv stop extra ps vars vm lib events simulations a Ea La L Ep Evm.
  pose proof (no_start_proof pow tv stop extra ps vars vm [] a Ea La L Ep Evm) as E. unfold pump_process_simulations in E. unfold process_simulations.
  destruct (get_subset_for_period vm (model_period None stop)) as [sub|e]; cbn [bind mapM] in *; [discriminate E|congruence].
Qed.

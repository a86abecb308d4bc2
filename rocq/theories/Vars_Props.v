(** Properties C07, C08, C22, C23: temporal expressions, subsets of variables, variables.
    Model: Vars_Model.v.  Specification: Time_Spec.v, Vars_Spec.v. *)
From Coq Require Import Ascii String.
From Verif Require Import QcTac Base BaseLemmas Time_Model Time_Spec Expr_Model Expr_Spec Expr_Proofs
  Vars_Model Vars_Spec Vars_Proofs Vars_Proofs2 Vars_Proofs3.
Local Open Scope string_scope.
Local Open Scope list_scope.
Local Open Scope Z_scope.

(** C07: on a contiguous series of periods that no date of the temporal expression cuts, the value
    in a period is the value there of the expression in force in it, and 0 if none is. *)
Theorem C07_temporal_expression : forall pow first rest vars vm (data : temporal_data (list token)) target,
  let ps := first :: rest in
  let n := length ps in
  make_variables_map ps vars = Ok vm -> contiguous ps ->
  (forall r l, dict_get String.eqb r vars = Some l -> length l = n) ->
  data_well_formed data -> data_ordered data -> nonempty target -> p_end target <= DT_MAX ->
  (forall t p, t = p_start target \/ t = p_end target \/ In t (data_dates data) -> In p ps ->
     ~ (p_start p < t < p_end p)) ->
  (forall ts, In ts (data_models data) -> exists v, evaluate pow ts vars n = Ok v) ->
  exists vec, temporal_expression_evaluate pow data target vm = Ok vec /\ length vec = n /\
    forall k p, nth_error ps k = Some p ->
      (forall d ts, In_period d p -> In_period d target -> data_in_force data d ts ->
         exists v, evaluate pow ts vars n = Ok v /\ nth_error vec k = nth_error v k) /\
      ((forall d ts, In_period d p -> ~ (In_period d target /\ data_in_force data d ts)) ->
         nth_error vec k = Some 0%Qc).
Proof. exact temporal_expression_proof. Qed.
Print Assumptions C07_temporal_expression.

Definition C07_ps := [mkPeriod 0 10; mkPeriod 10 20; mkPeriod 20 30; mkPeriod 30 40].
Definition C07_vars : variables_dict := [("x", [qz 1; qz 2; qz 3; qz 4])].
Definition C07_data : temporal_data (list token) :=
  TDDates (10, [TNum (qz 5)]) [(20, [TRef "x"; TOp "{+}"; TNum (qz 1)])].
Example C07_case :
  contiguous C07_ps /\ data_well_formed C07_data /\ data_ordered C07_data /\
  (forall t p, t = p_start (mkPeriod 0 30) \/ t = p_end (mkPeriod 0 30) \/ In t (data_dates C07_data) ->
     In p C07_ps -> ~ (p_start p < t < p_end p)) /\
  (do vm <- make_variables_map C07_ps C07_vars;
   temporal_expression_evaluate (fun x _ => x) C07_data (mkPeriod 0 30) vm)
  = Ok [qz 0; qz 5; qz 4; qz 0].
Proof.
  split; [cbn; unfold nonempty; cbn; lia|]. split; [cbn; unfold DT_MAX; intuition lia|]. split; [exact I|].
  split; [|qc_compute].
  cbn. intros t p Ht Hp. destruct Hp as [<-|[<-|[<-|[<-|[]]]]]; cbn; lia.
Qed.

(** C08: the subset for a period inside the global period, on its grid: exactly the periods inside
    it, each with its own value of every variable. *)
Theorem C08_subset_for_period : forall first rest vars vm p,
  let ps := first :: rest in
  make_variables_map ps vars = Ok vm -> contiguous ps -> nonempty p ->
  is_boundary ps (p_start p) -> is_boundary ps (p_end p) ->
  let inside := fun q => (p_start p <=? p_start q) && (p_end q <=? p_end p) in
  exists sub, get_subset_for_period vm p = Ok sub /\
    vm_periods sub = filter inside ps /\
    forall r l, dict_get String.eqb r vars = Some l -> length l = length ps ->
      exists l', dict_get String.eqb r (vm_variables sub) = Some l' /\
        combine (vm_periods sub) l' = filter (fun pv => inside (fst pv)) (combine ps l).
Proof. exact get_subset_for_period_proof. Qed.
Print Assumptions C08_subset_for_period.

(** C08: the subset for one time step: that period and the values in it. *)
Theorem C08_subset_for_timestep : forall first rest vars vm k p,
  let ps := first :: rest in
  make_variables_map ps vars = Ok vm -> contiguous ps -> nth_error ps k = Some p ->
  exists sub, get_subset_for_timestep vm (p_start p) = Ok sub /\ vm_periods sub = [p] /\
    forall r l x, dict_get String.eqb r vars = Some l -> nth_error l k = Some x ->
      dict_get String.eqb r (vm_variables sub) = Some [x].
Proof. exact get_subset_for_timestep_proof. Qed.
Print Assumptions C08_subset_for_timestep.
Example C08_case :
  is_boundary C07_ps 10 /\ is_boundary C07_ps 30 /\
  (do vm <- make_variables_map C07_ps C07_vars; do s <- get_subset_for_period vm (mkPeriod 10 30); Ok (vm_periods s))
    = Ok [mkPeriod 10 20; mkPeriod 20 30] /\
  (do vm <- make_variables_map C07_ps C07_vars; do s <- get_subset_for_period vm (mkPeriod 10 30);
   of_option KeyError (dict_get String.eqb "x" (vm_variables s))) = Ok [qz 2; qz 3].
Proof.
  split; [exists (mkPeriod 10 20); cbn; auto|]. split; [exists (mkPeriod 20 30); cbn; auto 6|].
  split; [reflexivity|qc_compute].
Qed.

(** C08 fails: a period that reaches outside the global period is not clamped but an error, although
    the code computes the clamped dates and both are on the grid. *)
Theorem C08_reaching_outside_refuted : exists ps vars vm p,
  contiguous ps /\ make_variables_map ps vars = Ok vm /\ nonempty p /\
  (exists d q, In q ps /\ In_period d q /\ In_period d p) /\
  is_boundary ps (Z.max (p_start p) 0) /\ is_boundary ps (Z.min (p_end p) 20) /\
  get_subset_for_period vm p = Err ValueError.
Proof. exact subset_reaching_outside_refuted_proof. Qed.
Print Assumptions C08_reaching_outside_refuted.

(** C08 fails: a period entirely outside gives an IndexError instead of an empty subset. *)
Theorem C08_outside_refuted : exists ps vars vm p,
  contiguous ps /\ make_variables_map ps vars = Ok vm /\ nonempty p /\
  get_subset_for_period vm p = Err IndexError.
Proof. exact subset_outside_refuted_proof. Qed.
Print Assumptions C08_outside_refuted.

(** C22: the resulting values are exactly the determined ones, and every variable has one. *)
Theorem C22_values : forall pow variables series ps vm,
  no_clash variables series ->
  evaluate_variables pow variables series ps = Ok vm ->
  vm_periods vm = ps /\
  (forall r l, dict_get String.eqb r (vm_variables vm) = Some l <->
               determined pow (with_prefix variables) series ps r l) /\
  (forall id, In id (map fst (with_prefix variables)) ->
     exists l, dict_get String.eqb id (vm_variables vm) = Some l).
Proof. exact evaluate_variables_values_proof. Qed.
Print Assumptions C22_values.

(** C22: declaring the same variables in another order gives the same values. *)
Theorem C22_any_order : forall pow variables variables' series ps vm,
  no_clash variables series -> Permutation variables variables' ->
  evaluate_variables pow variables series ps = Ok vm ->
  exists vm', evaluate_variables pow variables' series ps = Ok vm' /\
    vm_periods vm' = vm_periods vm /\ vm_time_vector vm' = vm_time_vector vm /\
    forall r, dict_get String.eqb r (vm_variables vm') = dict_get String.eqb r (vm_variables vm).
Proof. exact evaluate_variables_order_proof. Qed.
Print Assumptions C22_any_order.

(** C22: well-written variables are resolved exactly when each can be traced back to time series
    and constants; otherwise (missing reference, cycle) there is a validation error. *)
Theorem C22_resolved_iff : forall pow variables series p0 rest,
  let ps := p0 :: rest in
  (forall p, In p ps -> nonempty p /\ p_end p <= DT_MAX) ->
  (forall r l, dict_get String.eqb r series = Some l -> length l = length ps) ->
  (forall name v, In (name, v) variables -> well_written ps v) ->
  no_clash variables series ->
  ((forall id, In id (map fst (with_prefix variables)) -> resolvable (with_prefix variables) series id) ->
     exists vm, evaluate_variables pow variables series ps = Ok vm) /\
  (~ (forall id, In id (map fst (with_prefix variables)) -> resolvable (with_prefix variables) series id) ->
     evaluate_variables pow variables series ps = Err ValidationError).
Proof. exact evaluate_variables_written_proof. Qed.
Print Assumptions C22_resolved_iff.

(* c needs b, b needs a, a needs the series x, declared in the worst order *)
Definition C22_variables : list (string * yaml_variable) :=
  [("c", VSingle [TRef "$var.b"; TOp "{*}"; TNum (qz 2)]);
   ("b", VSingle [TRef "$var.a"; TOp "{+}"; TRef "x"]);
   ("a", VSingle [TRef "x"; TOp "{-}"; TNum (qz 1)])].
Example C22_case :
  no_clash C22_variables C07_vars /\
  (do vm <- evaluate_variables (fun x _ => x) C22_variables C07_vars C07_ps;
   of_option KeyError (dict_get String.eqb "$var.c" (vm_variables vm))) = Ok [qz 2; qz 6; qz 10; qz 14] /\
  evaluate_variables (fun x _ => x) [("a", VSingle [TRef "$var.b"]); ("b", VSingle [TRef "$var.a"])] [] C07_ps
    = Err ValidationError.
Proof.
  split; [|split; [qc_compute|reflexivity]].
  split; [repeat constructor; cbn; intuition discriminate|].
  intros id H. cbn in H. intuition (subst; reflexivity).
Qed.

(** C23: a temporal variable whose dates are written in increasing order (none strictly inside a
    period): in each period the latest expression's value there, 0 before the first date. *)
Theorem C23_temporal_variable : forall pow vars ps (entries : list (datetime * list token)),
  increasing (map fst entries) -> (forall k, In k (map fst entries) -> k < DT_MAX) ->
  (forall p, In p ps -> nonempty p /\ p_end p <= DT_MAX) ->
  (forall k p, In k (map fst entries) -> In p ps -> ~ (p_start p < k < p_end p)) ->
  (forall ts, In ts (map snd entries) ->
     exists v, evaluate pow ts vars (length ps) = Ok v /\ length v = length ps) ->
  exists vec, process_variable pow (VTemporal entries) vars ps = Ok vec /\ length vec = length ps /\
    forall k p, nth_error ps k = Some p ->
      (forall ts, latest_model entries (p_start p) ts ->
         exists v, evaluate pow ts vars (length ps) = Ok v /\ nth_error vec k = nth_error v k) /\
      ((forall t, In t (map fst entries) -> p_start p < t) -> nth_error vec k = Some 0%Qc).
Proof. exact temporal_variable_proof. Qed.
Print Assumptions C23_temporal_variable.
Example C23_case :
  process_variable (fun x _ => x)
    (VTemporal [(10, [TNum (qz 5)]); (30, [TRef "x"; TOp "{+}"; TNum (qz 2)])]) C07_vars C07_ps
  = Ok [qz 0; qz 5; qz 5; qz 6].
Proof. qc_compute. Qed.

(** C23 fails when the dates are written in another order: the expressions move to other dates. *)
Theorem C23_unsorted_dates_refuted : forall pow, exists entries ps vec,
  NoDup (map fst entries) /\ latest_model entries (p_start (mkPeriod 20 30)) [TNum (qz 2)] /\
  nth_error ps 1 = Some (mkPeriod 20 30) /\
  process_variable pow (VTemporal entries) [] ps = Ok vec /\ nth_error vec 1 = Some (qz 1).
Proof. exact temporal_variable_unsorted_refuted_proof. Qed.
Print Assumptions C23_unsorted_dates_refuted.

(** C23 fails when a date lies strictly inside a period: that period silently gets 0. *)
Theorem C23_date_inside_period_refuted : forall pow, exists entries ps vec,
  increasing (map fst entries) /\ contiguous ps /\
  (forall d, 10 <= d < 30 -> exists ts v, latest_model entries d ts /\ In ts (map snd entries) /\
     evaluate pow ts [] 2 = Ok v /\ nth_error v 1 <> Some 0%Qc) /\
  nth_error ps 0 = Some (mkPeriod 10 20) /\
  process_variable pow (VTemporal entries) [] ps = Ok vec /\ nth_error vec 0 = Some 0%Qc.
Proof. exact temporal_variable_off_grid_refuted_proof. Qed.
Print Assumptions C23_date_inside_period_refuted.

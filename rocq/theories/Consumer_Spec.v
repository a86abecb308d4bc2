(** Vocabulary for the results of consumers over time. *)
From Coq Require Import String.
From Verif Require Import QcTac Base Time_Model Time_Spec Num Expr_Model Expr_Spec Units_Model Rates_Model Input_Model Energy_Model Interp_Model Interp_Spec Emitters_Spec Consumer_Model.
Local Open Scope list_scope.
Local Open Scope Z_scope.

(** the value, in period number [k], of an expression given as a number or as a text *)
Definition input_at (pow : Qc -> Qc -> Qc) (vars : variables_dict) (n : nat) (e : expression_input) (k : nat) (v : Qc) : Prop :=
  match e with
  | INumber q => v = q
  | IText ts => evaluates_at pow vars n ts k v
  end.
(** whether a model is in use in period number [k]: its condition is not zero there; none of its conditions is *)
Definition in_use (pow : Qc -> Qc -> Qc) (vars : variables_dict) (n : nat) (c : conditions_and_loss) (k : nat) (b : bool) : Prop :=
  match cl_condition c with
  | Some e => exists x, input_at pow vars n e k x /\ (b = false <-> x = 0%Qc)
  | None => b = false <-> exists es e, cl_conditions c = Some es /\ In e es /\ input_at pow vars n e k 0%Qc
  end.
(** the fraction lost on the way to the consumer *)
Definition lost (pow : Qc -> Qc -> Qc) (vars : variables_dict) (n : nat) (c : conditions_and_loss) (k : nat) (f : Qc) : Prop :=
  match cl_loss c with
  | Some e => input_at pow vars n e k f
  | None => f = 0%Qc
  end.
(** what must be supplied so that [x] arrives when the fraction [f] is lost: there is no such number when all is lost *)
Definition supplied (x f : Qc) (y : num) : Prop :=
  if Qc_eq_dec f 1 then y = None else exists q, y = Some q /\ (q * (1 - f))%Qc = x.

(** an expression that can be evaluated over the periods of the run *)
Definition evaluable (pow : Qc -> Qc -> Qc) (vars : variables_dict) (n : nat) (e : expression_input) : Prop :=
  match e with INumber _ => True | IText ts => exists v, evaluate pow ts vars n = Ok v end.
(** conditions of a list are written in infix notation and mention variables of the run *)
Definition well_written_input (vars : variables_dict) (e : expression_input) : Prop :=
  match e with
  | INumber _ => True
  | IText ts => exists k x, writes k ts x /\ forall r, In r (references x) -> exists l, dict_get String.eqb r vars = Some l
  end.
(** what is common to the models can be evaluated: one condition, or several, or none *)
Definition common_ok (pow : Qc -> Qc -> Qc) (vars : variables_dict) (n : nat) (c : conditions_and_loss) : Prop :=
  (forall e, cl_condition c = Some e -> evaluable pow vars n e /\ cl_conditions c = None /\ e <> INumber 0%Qc /\ e <> IText []) /\
  (forall es e, cl_conditions c = Some es -> In e es -> well_written_input vars e) /\
  (forall e, cl_loss c = Some e -> evaluable pow vars n e).
(** the regularity given can be evaluated: well-formed, its dates are dates of the run, and so on *)
Definition regularity_ok (pow : Qc -> Qc -> Qc) (vars : variables_dict) (ps : list period) (input : option (temporal_data expression_input)) : Prop :=
  match input with
  | None => True
  | Some d => data_well_formed d /\ data_ordered d /\
      (forall t p, In t (data_dates d) -> In p ps -> ~ (p_start p < t < p_end p)) /\
      (forall e, In e (data_models d) -> evaluable pow vars (List.length ps) e)
  end.

(** model [m] is in force, within the time [target] the consumer is evaluated for, in (some instant of) period number [k] *)
Definition in_force_at {M} (ps : list period) (data : temporal_data M) (target : period) (k : nat) (m : M) : Prop :=
  exists p d, nth_error ps k = Some p /\ In_period d p /\ In_period d target /\ data_in_force data d m.
(** what the result of a consumer is given by: a series over all periods of the run, in the unit of its kind; the energy usage of
    an electrical consumer is power; where no model is in force the usage is zero, and valid *)
Definition consumer_result {M} (ps : list period) (consumes : energy_usage_type) (data : temporal_data M) (target : period)
    (meaning : M -> nat -> num -> bool -> Prop) (s : consumer_series) : Prop :=
  s_periods (cs_energy s) = ps /\ s_periods (cs_valid s) = ps /\
  s_unit (cs_energy s) = (match consumes with POWER => MEGA_WATT | FUEL => STANDARD_CUBIC_METER_PER_DAY end) /\
  cs_power s = (match consumes with POWER => Some (cs_energy s) | FUEL => None end) /\
  List.length (s_values (cs_energy s)) = List.length ps /\ List.length (s_values (cs_valid s)) = List.length ps /\
  forall k, (k < List.length ps)%nat -> exists e v, nth_error (s_values (cs_energy s)) k = Some e /\ nth_error (s_values (cs_valid s)) k = Some v /\
    (forall m, in_force_at ps data target k m -> meaning m k e v) /\
    ((forall m, ~ in_force_at ps data target k m) -> e = Some 0%Qc /\ v = true).
(** the run: contiguous periods; every variable has a value for each; the consumer is evaluated for a time inside the
    run; models and regularity change between periods *)
Definition consumer_setting {M} (pow : Qc -> Qc -> Qc) (first : period) (rest : list period) (vars : variables_dict)
    (input : option (temporal_data expression_input)) (data : temporal_data M) (target : period) : Prop :=
  let ps := first :: rest in
  contiguous ps /\ p_end (last rest first) <= DT_MAX /\
  (forall r l, dict_get String.eqb r vars = Some l -> List.length l = List.length ps) /\
  regularity_ok pow vars ps input /\
  (forall e es, data <> TDPeriods e es) /\ data_well_formed data /\
  nonempty target /\ p_start first <= p_start target /\ p_end target <= p_end (last rest first) /\
  forall t p, t = p_start target \/ t = p_end target \/ In t (data_dates data) -> In p ps -> ~ (p_start p < t < p_end p).

(** ** A direct energy usage model *)
(** the load (or fuel rate) per producing day the model gives in period number [k]; [g] is the regularity *)
Definition direct_load (pow : Qc -> Qc -> Qc) (vars : variables_dict) (n : nat) (g : list Qc) (m : direct_model) (k : nat) (u : Qc) : Prop :=
  exists x b gk, input_at pow vars n (dm_value m) k x /\ in_use pow vars n (dm_common m) k b /\ nth_error g k = Some gk /\
    stream_rate_means (match dm_rate_type m with Some ty => ty | None => STREAM_DAY end) x b gk u.
Definition direct_energy (pow : Qc -> Qc -> Qc) (vars : variables_dict) (n : nat) (g : list Qc) (m : direct_model) (k : nat) (e : num) : Prop :=
  exists u f, direct_load pow vars n g m k u /\ lost pow vars n (dm_common m) k f /\ supplied u f e.
(** a consumer accepts a model of its own kind, and no negative fuel rate *)
Definition direct_acceptable (pow : Qc -> Qc -> Qc) (vars : variables_dict) (n : nat) (g : list Qc) (consumes : energy_usage_type) (m : direct_model) (k : nat) : Prop :=
  dm_type m = consumes /\ (consumes = FUEL -> forall u, direct_load pow vars n g m k u -> (0 <= u)%Qc).
Definition direct_ok (pow : Qc -> Qc -> Qc) (vars : variables_dict) (n : nat) (m : direct_model) : Prop :=
  evaluable pow vars n (dm_value m) /\ common_ok pow vars n (dm_common m).

(** ** A tabulated energy usage model *)
(** the column of the table with the energy usage, and its variables: the other headers *)
Definition usage_name (t : tabular_data) : string := if in_dec string_dec "POWER"%string (tb_headers t) then "POWER"%string else "FUEL"%string.
Definition table_variables (t : tabular_data) : list string := filter (fun h => if string_dec h (usage_name t) then false else true) (tb_headers t).
(** a usable table: different headers, a column for energy usage and at least one more, a column of equal length for each header, at least one
    row; with one variable its values differ *)
Definition table_ok (t : tabular_data) : Prop :=
  NoDup (tb_headers t) /\ In (usage_name t) (tb_headers t) /\ table_variables t <> [] /\
  List.length (tb_data t) = List.length (tb_headers t) /\
  (exists rows, (0 < rows)%nat /\ forall c, In c (tb_data t) -> List.length c = rows) /\
  (forall x xs, table_variables t = [x] -> In (x, xs) (combine (tb_headers t) (tb_data t)) -> NoDup xs).
(** the energy usage of the table at a point, given by the values of the variables in the order of the table: with one
    variable, by interpolation inside the table and nothing outside; [nd] is the interpolation in several variables *)
Definition table_usage (nd : tabular_data -> list num -> num) (t : tabular_data) (point : list Qc) (u : num) : Prop :=
  match table_variables t with
  | [x] => exists q xs es, point = [q] /\ In (x, xs) (combine (tb_headers t) (tb_data t)) /\ In (usage_name t, es) (combine (tb_headers t) (tb_data t)) /\
      ((exists y, interpolates (combine xs es) q y /\ u = Some y) \/ (~ in_range (combine xs es) q /\ u = None))
  | _ => u = nd t (map Some point)
  end.
(** the value of a variable of the model in period number [k]: zero when the model is not in use; a variable named "rate" (in
    whatever case) is given per calendar day *)
Definition variable_at (pow : Qc -> Qc -> Qc) (vars : variables_dict) (n : nat) (g : list Qc) (c : conditions_and_loss) (name : string) (e : expression_input) (k : nat) (w : Qc) : Prop :=
  exists x b gk, input_at pow vars n e k x /\ in_use pow vars n c k b /\ nth_error g k = Some gk /\
    stream_rate_means (if string_dec (lower name) "rate" then CALENDAR_DAY else STREAM_DAY) x b gk w.
(** the result in period number [k]: the energy usage read in the table at the values of the variables (of the last
    with the name), with the losses; nothing outside the table.  The result is valid where the usage is a number that is not negative. *)
Definition tabulated_energy (pow : Qc -> Qc -> Qc) (nd : tabular_data -> list num -> num) (vars : variables_dict) (n : nat) (g : list Qc) (m : tabulated_model) (k : nat) (e : num) (v : bool) : Prop :=
  exists point u f, Forall2 (fun name w => exists x, last_named (tm_variables m) name x /\ variable_at pow vars n g (tm_common m) name x k w) (table_variables (tm_table m)) point /\
    table_usage nd (tm_table m) point u /\ lost pow vars n (tm_common m) k f /\
    (match u with Some q => supplied q f e | None => e = None end) /\
    (v = true <-> exists q, u = Some q /\ (0 <= q)%Qc).
Definition tabulated_ok (pow : Qc -> Qc -> Qc) (vars : variables_dict) (n : nat) (m : tabulated_model) : Prop :=
  table_ok (tm_table m) /\ tm_variables m <> [] /\ (forall name e, In (name, e) (tm_variables m) -> evaluable pow vars n e) /\ common_ok pow vars n (tm_common m).
(** the variables of the model are those of the table *)
Definition names_match (m : tabulated_model) : Prop := forall name, In name (map fst (tm_variables m)) <-> In name (table_variables (tm_table m)).
Definition of_kind (consumes : energy_usage_type) (m : tabulated_model) : Prop :=
  usage_name (tm_table m) = (match consumes with POWER => "POWER" | FUEL => "FUEL" end)%string.

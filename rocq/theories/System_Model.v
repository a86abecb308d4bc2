(** Consumer systems: operational settings, cross-over and the choice of a setting.

    Models /repo/src/libecalc/domain/infrastructure/energy_components/legacy_consumer/system
    (consumer_function.py, operational_setting.py, results.py, utils.py), and /repo/src/libecalc/common/priority_optimizer.py.
    A numpy array of floats is a [list num], an array of booleans a [list bool]. The consumers (pumps and compressors,
    types.py) are given by their two functions; what a consumer computes is not modelled here. *)
From Coq Require Import PeanoNat String.
From Verif Require Import QcTac Base BaseLemmas Num Energy_Model.
Local Open Scope list_scope.

(** ** domain/process/core/results/base.py:19-22, EnergyResult (without the units) *)
Record energy_result := mkER { er_energy : list num; er_power : option (list num); er_valid : list bool }.

(** ** operational_setting.py:79-80: the fluid density of a consumer is an array or, without densities, the number 1 *)
Inductive density := One | Per (l : list num).

(** ** consumer_function.py:25-45, SystemComponent: name, get_max_standard_rate (suction, discharge, density) and
    evaluate (rate, suction, discharge, density) *)
Record consumer := mkConsumer {
  c_name : string;
  c_max_rate : list num -> list num -> density -> result (list num);
  c_evaluate : list num -> list num -> list num -> density -> result energy_result
}.

(** ** operational_setting.py:14-47, ConsumerSystemOperationalSettingExpressions: the values of the series *)
Record operational_setting := mkSetting {
  os_rates : list (list num);
  os_suction : list (list num);
  os_discharge : list (list num);
  os_cross : option (list Z);
  os_density : option (list (list num))
}.

(** ** operational_setting.py:82-106, check_list_length. An empty list of cross-overs is falsy. *)
Definition check_list_length (s : operational_setting) : result unit :=
  let n := length (os_rates s) in
  if negb (Nat.eqb (length (os_suction s)) n) then Err ValidationError
  else if negb (Nat.eqb (length (os_discharge s)) n) then Err ValidationError
  else match os_cross s with
       | Some ((_ :: _) as c) => if negb (Nat.eqb (length c) n) then Err ValidationError else Ok tt
       | _ => Ok tt
       end.

(** ** operational_setting.py:60-80, the getters of one consumer (a list index out of range is an IndexError) *)
Definition get {A} (l : list A) (i : nat) : result A := of_option IndexError (nth_error l i).
Definition get_density (s : operational_setting) (i : nat) : result density :=
  match os_density s with
  | None => Ok One
  | Some d => do l <- get d i; Ok (Per l)
  end.
(** Python's [l[z]]: a negative index counts from the end *)
Definition py_index (n : nat) (z : Z) : option nat :=
  (if Z.of_nat n <=? z then None
   else if 0 <=? z then Some (Z.to_nat z)
   else if z <? - Z.of_nat n then None
   else Some (Z.to_nat (z + Z.of_nat n)))%Z.

(** numpy's in-place [a += b] and [a -= b]: the result must have the shape of a *)
Definition np_inplace (f : num -> num -> num) (a b : list num) : result (list num) :=
  do r <- np_broadcast f a b; if Nat.eqb (length r) (length a) then Ok r else Err ValueError.
Fixpoint set_nth {A} (i : nat) (x : A) (l : list A) : list A :=
  match l, i with
  | [], _ => []
  | _ :: r, O => x :: r
  | a :: r, S i => a :: set_nth i x r
  end.

(** comparisons of floats: false when one of them is not a number *)
Definition num_pos (x : num) : bool := match x with Some v => Qcltb 0 v | None => false end.
Definition num_ge (a b : num) : bool := match a, b with Some x, Some y => Qcleb y x | _, _ => false end.

(** ** consumer_function.py:193-235, calculate_operational_settings_after_cross_over: the rates after cross-over *)
Definition cross_over_step (consumers : list consumer) (s : operational_setting) (rates : list (list num))
    (i : nat) (number : Z) : result (list (list num)) :=
  if (number =? 0)%Z then Ok rates
  else
    do own <- get (os_discharge s) i;
    do receiver <- of_option IndexError (py_index (length (os_discharge s)) (number - 1));
    do other <- get (os_discharge s) receiver;
    do suction <- get (os_suction s) i;
    do fd <- get_density s i;
    do c <- get consumers i;
    do maximum <- c_max_rate c suction own fd;
    do rate <- get (os_rates s) i;
    do difference <- np_broadcast nsub rate maximum;
    let excess := map (fun x => if num_pos x then x else Some 0%Qc) difference in
    do allowed <- np_broadcast num_ge other own;
    do transfer <- np_broadcast (fun (a : bool) x => if a then x else Some 0%Qc) allowed excess;
    do before <- get rates i;
    do after <- np_inplace nsub before transfer;
    let rates := set_nth i after rates in
    do target <- of_option IndexError (py_index (length rates) (number - 1));
    do before <- get rates target;
    do after <- np_inplace nadd before transfer;
    Ok (set_nth target after rates).
Fixpoint cross_over_from (consumers : list consumer) (s : operational_setting) (rates : list (list num))
    (i : nat) (numbers : list Z) : result (list (list num)) :=
  match numbers with
  | [] => Ok rates
  | number :: rest => do rates <- cross_over_step consumers s rates i number; cross_over_from consumers s rates (S i) rest
  end.
(** the rates [get_rate_after_crossover] gives in [evaluate] (consumer_function.py:99-103, operational_setting.py:57-71) *)
Definition rates_after_cross_over (consumers : list consumer) (s : operational_setting) : result (list (list num)) :=
  match os_cross s with
  | Some ((_ :: _) as numbers) => cross_over_from consumers s (os_rates s) 0 numbers
  | _ => Ok (os_rates s)
  end.

(** ** results.py:14-54, ConsumerSystemOperationalSettingResult: only what is used, the length (of the first energy
    usage) and the validity (the product over the consumers) *)
Fixpoint all_valid_from (acc : list bool) (l : list (list bool)) : result (list bool) :=
  match l with
  | [] => Ok acc
  | v :: rest => if Nat.eqb (length acc) (length v) then all_valid_from (map2 andb acc v) rest else Err ValueError
  end.
Definition all_valid (l : list (list bool)) : result (list bool) :=
  match l with [] => Err TypeError | v :: rest => all_valid_from v rest end.
Definition setting_length (l : list energy_result) : result nat :=
  do r <- get l 0; Ok (length (er_energy r)).
(** indices_outside_capacity *)
Definition outside (valid : list bool) : list nat :=
  map fst (filter (fun e => negb (snd e)) (zip (seq 0 (length valid)) valid)).

(** ** utils.py:10-79, get_operational_settings_number_used_from_model_results *)
Definition intersect1d (a b : list nat) : list nat := filter (fun i => existsb (Nat.eqb i) b) a.
Definition assign (used : list nat) (indices : list nat) (v : nat) : list nat := fold_left (fun u i => set_nth i v u) indices used.
Fixpoint number_used_from (i : nat) (settings : list (list energy_result)) (used remaining : list nat) : result (list nat) :=
  match settings with
  | [] => Ok used
  | r :: rest =>
      do valid <- all_valid (map er_valid r);
      match intersect1d remaining (outside valid) with
      | [] => Ok used
      | remaining => number_used_from (S i) rest (assign used remaining (S i)) remaining
      end
  end.
Definition number_used (settings : list (list energy_result)) : result (list nat) :=
  do first <- get settings 0;
  do n <- setting_length first;
  match settings with
  | _ :: _ :: _ => number_used_from 0 (removelast settings) (repeat 0%nat n) (seq 0 n)
  | _ => Ok (repeat 0%nat n)
  end.

(** ** consumer_function.py:105-122, the consumers in one operational setting; the results are kept in a dictionary by
    the consumers' names *)
Fixpoint evaluate_setting_from (s : operational_setting) (rates : list (list num)) (i : nat) (consumers : list consumer)
    (acc : list (string * energy_result)) : result (list energy_result) :=
  match consumers with
  | [] => Ok (map snd acc)
  | c :: rest =>
      do rate <- get rates i;
      do suction <- get (os_suction s) i;
      do discharge <- get (os_discharge s) i;
      do fd <- get_density s i;
      do r <- c_evaluate c rate suction discharge fd;
      evaluate_setting_from s rates (S i) rest (dict_set String.eqb (c_name c) r acc)
  end.
Definition evaluate_setting (consumers : list consumer) (s : operational_setting) (rates : list (list num)) : result (list energy_result) :=
  evaluate_setting_from s rates 0 consumers [].

(** ** consumer_function.py:130-165, the values of the setting used in each time step, for one consumer; and the
    cross-over rate there *)
Record used_values := mkUsed { u_rate : num; u_suction : num; u_discharge : num; u_density : num; u_cross : num }.
Definition used_value (settings : list (operational_setting * list (list num))) (consumer_index index number : nat) : result used_values :=
  do e <- get settings number;
  let (s, rates) := e in
  do after <- get rates consumer_index;
  do before <- get (os_rates s) consumer_index;
  do cross <- np_broadcast nsub after before;
  do x <- get cross index;
  do rate <- get after index;
  do suction <- get (os_suction s) consumer_index;
  do suction <- get suction index;
  do discharge <- get (os_discharge s) consumer_index;
  do discharge <- get discharge index;
  do fd <- get_density s consumer_index;
  do d <- match fd with One => Ok (Some 1%Qc) | Per l => get l index end;
  Ok (mkUsed rate suction discharge d x).
Definition used_values_of (settings : list (operational_setting * list (list num))) (numbers : list nat) (consumer_index : nat) : result (list used_values) :=
  mapM (fun e => used_value settings consumer_index (fst e) (snd e)) (zip (seq 0 (length numbers)) numbers).
(** consumer_function.py:165, any(cross > 0) *)
Definition cross_over_used (n : nat) (used : list (list used_values)) : list bool :=
  map (fun k => existsb (fun l => match nth_error l k with Some u => num_pos (u_cross u) | None => false end) used) (seq 0 n).

(** ** results.py:63-152, ConsumerSystemConsumerFunctionResult; energy results by the consumers' names *)
Record system_result := mkSR {
  sr_setting_used : list nat;
  sr_consumers : list (string * energy_result);
  sr_cross_over : list bool
}.
Definition sr_energy_results (r : system_result) : list energy_result :=
  map snd (fold_left (fun d e => dict_set String.eqb (fst e) (snd e) d) (sr_consumers r) []).
(** np.sum(..., axis=0) of at least one array *)
Fixpoint np_sum_from (acc : list num) (l : list (list num)) : result (list num) :=
  match l with
  | [] => Ok acc
  | v :: rest => if Nat.eqb (length acc) (length v) then np_sum_from (map2 nadd acc v) rest else Err ValueError
  end.
Definition np_sum (l : list (list num)) : result (list num) :=
  match l with [] => Err TypeError | v :: rest => np_sum_from v rest end.
Definition with_power_loss (factor : option (list Qc)) (v : list num) : result (list num) :=
  match factor with None => Ok v | Some f => apply_power_loss v f end.
Definition system_energy (r : system_result) (factor : option (list Qc)) : result (list num) :=
  do s <- np_sum (map er_energy (sr_energy_results r)); with_power_loss factor s.
Definition system_power (r : system_result) (factor : option (list Qc)) : result (list num) :=
  do s <- np_sum (map (fun e => match er_power e with Some p => p | None => repeat (Some 0%Qc) (length (er_energy e)) end) (sr_energy_results r));
  with_power_loss factor s.
Definition system_valid (r : system_result) : result (list bool) := all_valid (map er_valid (sr_energy_results r)).

(** ** consumer_function.py:49-75, the constructor's check *)
Definition validate_system (consumers : list consumer) (settings : list operational_setting) : result unit :=
  if existsb (fun s => negb (Nat.eqb (length (os_rates s)) (length consumers))) settings then Err ValidationError else Ok tt.

(** ** consumer_function.py:82-191, ConsumerSystemConsumerFunction.evaluate *)
Definition evaluate_system (consumers : list consumer) (settings : list operational_setting) : result system_result :=
  do rates <- mapM (rates_after_cross_over consumers) settings;
  let settings := zip settings rates in
  do results <- mapM (fun e => evaluate_setting consumers (fst e) (snd e)) settings;
  do numbers <- number_used results;
  do used <- mapM (used_values_of settings numbers) (seq 0 (length consumers));
  do final <- mapM (fun e => do r <- c_evaluate (fst e) (map u_rate (snd e)) (map u_suction (snd e)) (map u_discharge (snd e)) (Per (map u_density (snd e)));
                             Ok (c_name (fst e), r)) (zip consumers used);
  Ok (mkSR numbers final (cross_over_used (length numbers) used)).

(** ** priority_optimizer.py:28-70, PriorityOptimizer.optimize (result: the priority used and the results it keeps).
    The attribute access [ecalc_model_result.component_result] is left out: the results are returned as they are.
    The dictionary by priority and id only keeps, per priority, the last result of each id. [reduce] of an empty list
    is a TypeError; [mul] of the validities is truthy exactly when all are. *)
Section Optimizer.
  Context {R : Type}.
  Definition evaluator_result : Type := string * R * bool.
  Definition results_by_id (l : list evaluator_result) (acc : list (string * R)) : list (string * R) :=
    fold_left (fun d e => dict_set String.eqb (fst (fst e)) (snd (fst e)) d) l acc.
  Definition priority_dict : Type := list (string * list (string * R)).
  Fixpoint optimize_from (evaluator : string -> result (list evaluator_result)) (priorities : list string)
      (default : string) (acc : priority_dict) : result (string * priority_dict) :=
    match priorities with
    | [] => Ok (default, acc)
    | p :: rest =>
        do l <- evaluator p;
        let known := match dict_get String.eqb p acc with Some d => d | None => [] end in
        let acc := match l with [] => acc | _ => dict_set String.eqb p (results_by_id l known) acc end in
        match l with
        | [] => Err TypeError
        | _ => if forallb (fun e => snd e) l then Ok (p, acc) else optimize_from evaluator rest default acc
        end
    end.
  Definition optimize (priorities : list string) (evaluator : string -> result (list evaluator_result)) : result (string * list R) :=
    do default <- of_option IndexError (last_opt priorities);
    do r <- optimize_from evaluator priorities default [];
    Ok (fst r, match dict_get String.eqb (fst r) (snd r) with Some d => map snd d | None => [] end).
End Optimizer.

(** Model of src/libecalc/common/variables.py, expression/temporal_expression.py and
    presentation/yaml/mappers/variables_mapper/variables_mapper.py. *)
From Coq Require Import Ascii String.
From Verif Require Import QcTac Base Time_Model Expr_Model.
Local Open Scope string_scope.
Local Open Scope list_scope.
Local Open Scope Z_scope.

(** variables.py:35-38, VariablesMap.__init__ (periods.all_dates raises on no periods) *)
Record variables_map : Type := mkVM {
  vm_periods : list period;
  vm_time_vector : list datetime;
  vm_variables : variables_dict }.

Definition make_variables_map (ps : list period) (variables : variables_dict) : result variables_map :=
  do tv <- all_dates ps; Ok (mkVM ps tv variables).

(** variables.py:44-49, VariablesMap.period *)
Definition vm_period (vm : variables_map) : result period :=
  match vm_time_vector vm, last_opt (vm_time_vector vm) with
  | a :: _, Some b => Ok (mkPeriod a b)
  | _, _ => Err IndexError
  end.

(** variables.py:55-61, VariablesMap.get_subset for non-negative indices *)
Definition get_subset (vm : variables_map) (start_index end_index : nat) : result variables_map :=
  make_variables_map
    (create_periods (slice start_index (end_index + 1) (vm_time_vector vm)) false false)
    (map (fun kv => (fst kv, slice start_index end_index (snd kv))) (vm_variables vm)).

(** variables.py:63-88, VariablesMap.get_subset_for_period.  Line 81-82 look up the unclamped
    [period.start] and [period.end]; list.index raises ValueError. *)
Definition get_subset_for_period (vm : variables_map) (p : period) : result variables_map :=
  do whole <- vm_period vm;
  if negb (intersects whole p) then get_subset vm 0 0
  else
    let period_start := Z.max (p_start p) (p_start whole) in
    let period_end := Z.min (p_end p) (p_end whole) in
    match index_of Z.eqb period_start (vm_time_vector vm), index_of Z.eqb period_end (vm_time_vector vm) with
    | Some _, Some _ =>
        match index_of Z.eqb (p_start p) (vm_time_vector vm) with
        | None => Err ValueError
        | Some i =>
            match index_of Z.eqb (p_end p) (vm_time_vector vm) with
            | None => Err ValueError
            | Some j => get_subset vm i j
            end
        end
    | _, _ => Err ProgrammingError
    end.

(** variables.py:90-97, VariablesMap.get_subset_for_timestep *)
Definition get_subset_for_timestep (vm : variables_map) (t : datetime) : result variables_map :=
  match index_of Z.eqb t (vm_time_vector vm) with
  | None => Err ValueError
  | Some i => get_subset vm i (i + 1)
  end.

Section Evaluate.
  Variable np_pow : Qc -> Qc -> Qc.

  (** variables.py:128-129, VariablesMap.evaluate for a plain expression *)
  Definition vm_evaluate (vm : variables_map) (ts : list token) : result (list Qc) :=
    evaluate np_pow ts (vm_variables vm) (List.length (vm_periods vm)).

  (** variables.py:143-149, one iteration of the loop over the temporal expression *)
  Definition evaluate_temporal_step (vm : variables_map) (acc : result (list Qc))
      (entry : period * list token) : result (list Qc) :=
    do res <- acc;
    do whole <- vm_period vm;
    if intersects (fst entry) whole then
      do ij <- get_period_indices (fst entry) (vm_periods vm);
      do sub <- get_subset vm (fst ij) (snd ij);
      do vec <- vm_evaluate sub (snd entry);
      Ok (splice (fst ij) (snd ij) vec res)
    else Ok res.

  (** variables.py:137-150, VariablesMap._evaluate_temporal *)
  Definition evaluate_temporal (vm : variables_map) (tm : list (period * list token)) : result (list Qc) :=
    fold_left (evaluate_temporal_step vm) tm (Ok (repeat 0%Qc (List.length (vm_periods vm)))).

  (** temporal_expression.py:18-53, TemporalExpression: normalise to the target period, then evaluate.
      (Reading the expression text is in Expr_Model / Lex_Model.) *)
  Definition temporal_expression_evaluate (data : temporal_data (list token)) (target : period)
      (vm : variables_map) : result (list Qc) :=
    do tm <- temporal_model_of_periods (define_time_model_for_period data target);
    evaluate_temporal vm tm.

  (** ** variables_mapper.py *)

  (** yaml_variable.py: a single expression or a dict of dates *)
  Inductive yaml_variable : Type :=
  | VSingle (ts : list token)
  | VTemporal (entries : list (datetime * list token)).

  (** variables_mapper.py:25-30, required_variables *)
  Definition required_variables (v : yaml_variable) : list string :=
    match v with
    | VSingle ts => token_references ts
    | VTemporal entries => flat_map (fun e => token_references (snd e)) entries
    end.

  (** variables_mapper.py:36-39: the sorted dates are zipped with the values in written order;
      each expression is evaluated on the whole time vector *)
  Fixpoint evaluate_entries (variables : variables_dict) (n : nat) (l : list (period * list token))
    : result (list (period * list Qc)) :=
    match l with
    | [] => Ok []
    | (p, ts) :: rest =>
        do v <- evaluate np_pow ts variables n;
        do vs <- evaluate_entries variables n rest;
        Ok ((p, v) :: vs)
    end.

  (** variables_mapper.py:43-50 *)
  Fixpoint temporal_values (variable_periods : list period) (processed : list (period * list Qc))
      (i : nat) (ps : list period) : result (list Qc) :=
    match ps with
    | [] => Ok []
    | p :: rest =>
        do x <- match get_period variable_periods p with
                | None => Ok 0%Qc
                | Some vp =>
                    match dict_get period_eqb vp processed with
                    | None => Ok 0%Qc
                    | Some v => of_option IndexError (nth_error v i)
                    end
                end;
        do xs <- temporal_values variable_periods processed (S i) rest;
        Ok (x :: xs)
    end.

  (** variables_mapper.py:32-58, VariableProcessor.process *)
  Definition process_variable (v : yaml_variable) (variables : variables_dict) (ps : list period)
    : result (list Qc) :=
    match v with
    | VSingle ts => evaluate np_pow ts variables (List.length ps)
    | VTemporal entries =>
        let variable_periods := create_periods (sort Z.leb (map fst entries)) false true in
        do processed <- evaluate_entries variables (List.length ps) (zip variable_periods (map snd entries));
        temporal_values variable_periods (period_dict processed) 0 ps
    end.

  Definition defined (variables : variables_dict) (r : string) : bool :=
    match dict_get String.eqb r variables with Some _ => true | None => false end.

  (** variables_mapper.py:77-88, one pass of the for loop.  The loop removes from the list it iterates
      over, so the variable after a processed one is skipped in this pass.  Result: the variables
      left, the processed variables, and whether any was processed. *)
  Fixpoint variables_pass (ps : list period) (todo : list (string * yaml_variable)) (processed : variables_dict)
    : result (list (string * yaml_variable) * variables_dict * bool) :=
    match todo with
    | [] => Ok ([], processed, false)
    | (id, v) :: rest =>
        if forallb (defined processed) (required_variables v) then
          do value <- process_variable v processed ps;
          let processed' := dict_set String.eqb id value processed in
          match rest with
          | [] => Ok ([], processed', true)
          | skipped :: rest' =>
              do r <- variables_pass ps rest' processed';
              Ok (skipped :: fst (fst r), snd (fst r), true)
          end
        else
          do r <- variables_pass ps rest processed;
          Ok ((id, v) :: fst (fst r), snd (fst r), snd r)
    end.

  (** variables_mapper.py:75-88, the while loop (fuel: one more than the number of variables) *)
  Fixpoint variables_loop (fuel : nat) (ps : list period) (todo : list (string * yaml_variable))
      (processed : variables_dict) : result (list (string * yaml_variable) * variables_dict) :=
    match fuel with
    | O => Err OtherError (* shown unreachable *)
    | S fuel' =>
        match todo with
        | [] => Ok ([], processed)
        | _ =>
            do r <- variables_pass ps todo processed;
            if snd r then variables_loop fuel' ps (fst (fst r)) (snd (fst r))
            else Ok (fst (fst r), snd (fst r))
        end
    end.

  (** variables_mapper.py:62-105, _evaluate_variables; the reference of a variable is "$var." and its
      name.  InvalidVariablesException is [ValidationError]. *)
  Definition evaluate_variables (variables : list (string * yaml_variable)) (series : variables_dict)
      (ps : list period) : result variables_map :=
    let todo := map (fun kv => ("$var." ++ fst kv, snd kv)%string) variables in
    do r <- variables_loop (S (List.length todo)) ps todo series;
    match fst r with
    | [] => make_variables_map ps (snd r)
    | _ => Err ValidationError
    end.
End Evaluate.

(** Model of the machines behind compressor consumers: a compressor train and a sampled compressor as they are evaluated
    for the series of a consumer. *)
From Coq Require Import PeanoNat String.
From Verif Require Import Search_Model Train_Model.
From Verif Require Import QcTac Num Base BaseLemmas Time_Model Expr_Model Vars_Model Interp_Model Energy_Model Sampled_Model Consumer_Model Equipment_Model.
Local Open Scope list_scope.
Local Open Scope Qc_scope.

(** an exception of the train as an error of the model *)
Definition error_of (x : exn) : error :=
  match x with
  | ValueErr => ValueError | KeyErr => KeyError | IndexErr => IndexError | ZeroDivisionErr => ZeroDivisionError
  | AssertionErr => AssertionError | ValidationErr => ValidationError | _ => OtherError
  end.

(** ** Trains.  compressor/core/train/base.py:40-60: a train with the adjustment of its power; calculate_max_rate is
    False.  [dt_state] is what the train has kept from its construction and from earlier evaluations. *)
Record driven_train : Type := mkDriven {
  dt_env : environment; dt_train : train; dt_factor : Qc; dt_constant : Qc; dt_state : tstate }.
(** base.py:132-153, set_evaluation_input, and 189-211, the request of one period (with no periods nothing is checked
    here) *)
Definition has_interstage (t : train) : bool := existsb (fun st => match st_controls st with Some _ => true | None => false end) (tn_stages t).
Definition train_request (t : train) (p : operating_point) : result constraints :=
  do suction <- of_option ValidationError (op_suction p);
  do discharge <- of_option ValidationError (op_discharge p);
  match has_interstage t, op_intermediate p with
  | true, None => Err ValidationError
  | false, Some _ => Err ValidationError
  | _, _ => Ok (mk_constraints suction (Some discharge) (op_intermediate p) (op_rates p))
  end.
(** 214-249 with the power, failure and stages of a period (compressor/core/results.py:345-411) *)
Definition train_output (d : driven_train) (v : evaluation) : compressor_output :=
  let power := Some (adjusted_power (dt_factor d) (dt_constant d) (ev_power v)) in
  mkCO power power (is_no_failure (ev_failure v))
    (Some (match v with Idle _ => true | Running r => forallb sr_within (tr_stages r) end)).
(** 159-249, evaluate: the periods one after the other on the same train *)
Definition train_evaluate (d : driven_train) (points : list operating_point) : result (list compressor_output) :=
  do cs <- mapM (train_request (dt_train d)) points;
  match fst (evaluate_periods (dt_env d) (dt_train d) cs (dt_state d)) with
  | Return l => Ok (map (train_output d) l)
  | Raise x => Err (error_of x)
  end.
(** the train for one period; base.py:108-112, it consumes power *)
Definition train_compressor (d : driven_train) : compressor :=
  mkCompressor POWER true (fun p =>
    do c <- train_request (dt_train d) p;
    match fst (evaluate_constraints (dt_env d) (dt_train d) c (dt_state d)) with
    | Return v => Ok (train_output d v)
    | Raise x => Err (error_of x)
    end).

(** ** Sampled compressors.  compressor_model_sampled.py:174-321 gives a result like that of a train with one stage *)
Definition sampled_has_power (s : samples) : bool :=
  match sm_type s with POWER => true | FUEL => match fuel_to_power s with Ok (Some _) => true | _ => false end end.
Definition sampled_output (u : num) (w : num) (valid : bool) : compressor_output := mkCO u w true (Some valid).
Definition one {A} (x : A) : list A := [x].
(** the sampled compressor for one period *)
Definition sampled_compressor (m : sampled) : compressor :=
  mkCompressor (sm_type (sa_samples m)) (sampled_has_power (sa_samples m)) (fun p =>
    match op_rates p with
    | [rate] =>
        do r <- evaluate_sampled m (Some [rate]) (option_map one (op_suction p)) (option_map one (op_discharge p));
        match Sampled_Model.sr_usage r, Sampled_Model.sr_valid r with
        | [u], [valid] => Ok (sampled_output u (match Sampled_Model.sr_power r with Some [w] => w | _ => None end) valid)
        | _, _ => Err ValueError
        end
    | _ => Err AssertionError
    end).

(** ** What a compressor model in a model file can refer to: consumer_function_mapper.py:300-960, CompressorModelMapper: a
    train, a sampled compressor, or one of these with a turbine *)
Inductive compressor_kind : Type := KTrain (d : driven_train) | KSampled (m : sampled).
Definition compressor_of (k : compressor_kind) : compressor :=
  match k with KTrain d => train_compressor d | KSampled m => sampled_compressor m end.
Inductive machine_kind : Type := KElectric (k : compressor_kind) | KTurbine (t : turbine) (factor constant : Qc) (k : compressor_kind).
Definition machine_of (k : machine_kind) : machine :=
  match k with
  | KElectric k => compressor_machine (compressor_of k)
  | KTurbine t factor constant k => turbine_machine t factor constant (compressor_of k)
  end.

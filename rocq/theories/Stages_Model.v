(** Model of the number of stages of a simplified compressor train, and of the pressures its stages are made for
    (presentation/yaml/mappers/simplified_train_mapping_utils.py, mappers/consumer_function_mapper.py:540-690).  Logarithms and
    roots are those of the real numbers. *)
From Coq Require Import Reals List.
From Verif Require Import Base.
Import ListNotations.
Local Open Scope list_scope.
Local Open Scope R_scope.

(** math.log: a ValueError unless the argument is positive *)
Definition py_log (x : R) : result R := if Rlt_dec 0 x then Ok (ln x) else Err ValueError.
(** division of Python floats *)
Definition py_div (x y : R) : result R := if Req_EM_T y 0 then Err ZeroDivisionError else Ok (x / y).
(** math.ceil *)
Definition py_ceil (x : R) : Z := (- Int_part (- x))%Z.
(** max of a sequence *)
Definition py_max (l : list R) : result R :=
  match l with [] => Err ValueError | x :: r => Ok (fold_left Rmax r x) end.

(** a period: suction pressure and discharge pressure.  Simplified: the model speaks of positive pressures; others are
    OtherError (numpy gives infinities, nan or complex numbers). *)
Definition positive (p : R * R) : bool := if Rlt_dec 0 (fst p) then if Rlt_dec 0 (snd p) then true else false else false.
(** simplified_train_mapping_utils.py:61-81, calculate_number_of_stages *)
Definition calculate_number_of_stages (maximum_ratio : R) (periods : list (R * R)) : result Z :=
  if negb (forallb positive periods) then Err OtherError
  else
    do top <- py_max (map (fun p => snd p / fst p) periods);
    do a <- py_log top;
    do b <- py_log maximum_ratio;
    do x <- py_div a b;
    Ok (py_ceil x).

(** domain/process/compressor/core/train/base.py:30-34, calculate_pressure_ratio_per_stage *)
Definition pressure_ratio_per_stage (p : R * R) (n : nat) : result R :=
  match n with O => Err ValueError | _ => Ok (Rpower (snd p / fst p) (1 / INR n)) end.
(** consumer_function_mapper.py:636-670, the loop over the stages: for each stage, the inlet and outlet pressure in each
    period *)
Fixpoint pressures_of_stages (n : nat) (inlets ratios : list R) : list (list (R * R)) :=
  match n with
  | O => []
  | S k => let outlets := map2 Rmult inlets ratios in combine inlets outlets :: pressures_of_stages k outlets ratios
  end.
(** consumer_function_mapper.py:559-689 for a train of unknown stages: range() of a negative number is empty *)
Definition unknown_stages (maximum_ratio : option R) (periods : list (R * R)) : result (list (list (R * R))) :=
  match maximum_ratio with
  | None => Err ValidationError
  | Some r =>
      do n <- calculate_number_of_stages r periods;
      do ratios <- mapM (fun p => pressure_ratio_per_stage p (Z.to_nat n)) periods;
      Ok (pressures_of_stages (Z.to_nat n) (map fst periods) ratios)
  end.

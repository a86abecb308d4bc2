(** Model of one-dimensional linear interpolation as used by the energy functions. *)
From Coq Require Import PeanoNat String.
From Verif Require Import QcTac Base BaseLemmas Num.
Local Open Scope list_scope.
Local Open Scope Qc_scope.

(** np.interp on points sorted by abscissa, for [x] not below the first abscissa: the last point not after [x]
    and the next one determine the line; at or after the last point its value. *)
Fixpoint np_interp (pts : list (Qc * Qc)) (x : Qc) : num :=
  match pts with
  | [] => None
  | (a, ya) :: rest =>
      match rest with
      | [] => Some ya
      | (b, yb) :: _ => if Qcltb x b then Some (ya + (yb - ya) / (b - a) * (x - a)) else np_interp rest x
      end
  end.

(** common/interpolation.py:8-29, setup_interpolator_1d: scipy.interpolate.interp1d(x, y, bounds_error=False,
    fill_value=(below, above)), linear.  scipy sorts the points by [x] (a stable sort), requires at least one
    point and equal lengths (ValueError), delegates to np.interp and then replaces the values outside the range. *)
Record interpolator : Type := mkInterpolator { ip_points : list (Qc * Qc); ip_below : num; ip_above : num }.
Definition make_interpolator (xs ys : list Qc) (below above : num) : result interpolator :=
  if negb (Nat.eqb (List.length xs) (List.length ys)) then Err ValueError
  else match xs with
       | [] => Err ValueError
       | _ => Ok (mkInterpolator (sort (fun p q => Qcleb (fst p) (fst q)) (combine xs ys)) below above)
       end.
Definition interpolate_1d (f : interpolator) (x : num) : num :=
  match x with
  | None => None
  | Some x =>
      match ip_points f with
      | [] => None
      | (x0, y0) :: rest =>
          if Qcltb x x0 then ip_below f
          else if Qcltb (fst (last rest (x0, y0))) x then ip_above f
          else np_interp (ip_points f) x
      end
  end.

(** ** legacy_consumer/tabulated/tabular_energy_function.py *)
Inductive energy_usage_type : Type := POWER | FUEL.
Definition usage_header (t : energy_usage_type) : string :=
  match t with POWER => "POWER" | FUEL => "FUEL" end%string.
Record tabular_data : Type := mkTable { tb_headers : list string; tb_data : list (list Qc) }.
Definition has_header (h : string) (t : tabular_data) : bool := existsb (String.eqb h) (tb_headers t).

(** 70-71, get_column (ValueError without the header, IndexError without the column) *)
Definition tabular_column (t : tabular_data) (h : string) : result (list Qc) :=
  match index_of String.eqb h (tb_headers t) with
  | None => Err ValueError
  | Some i => of_option IndexError (nth_error (tb_data t) i)
  end.
(** 73-74, get_energy_usage_type *)
Definition tabular_usage_type (t : tabular_data) : energy_usage_type := if has_header "POWER" t then POWER else FUEL.
(** 82-84, get_variables: the other headers (a dict, so a repeated header counts once, with its first column) *)
Definition tabular_variables (t : tabular_data) : list string :=
  nodup string_dec (filter (fun h => negb (String.eqb h (usage_header (tabular_usage_type t)))) (tb_headers t)).
(** 86-119, validate_headers and validate_data (the values of the model are numbers) *)
Definition tabular_validate (t : tabular_data) : result unit :=
  if negb (has_header "FUEL" t || has_header "POWER" t) then Err ValidationError
  else match tb_data t with
       | [] => Ok tt
       | c :: cs => if forallb (fun d => Nat.eqb (List.length d) (List.length c)) cs then Ok tt else Err ValidationError
       end.
(** 39-56 and 121-150 for a table with one variable; tables with more variables use scipy's LinearNDInterpolator,
    which is not modelled. *)
Definition tabular_function_1d (t : tabular_data) : result interpolator :=
  do _ <- tabular_validate t;
  do values <- tabular_column t (usage_header (tabular_usage_type t));
  match tabular_variables t with
  | [x] => do xs <- tabular_column t x; make_interpolator xs values None None
  | _ => Err NotImplementedErr
  end.

(** ** domain/process/core/results/generic.py:40-49, EnergyFunctionGenericResult._is_valid *)
Definition generic_is_valid (allow_negative : bool) (usage : num) : bool :=
  match usage with None => false | Some u => allow_negative || Qcleb 0 u end.

(** ** tabular_consumer_function.py:86-129, evaluate_variables for one variable: the energy usage and the validity of
    every period, given the values of the variable *)
Definition tabular_evaluate_1d (t : tabular_data) (name : string) (values : list num) : result (list num * list bool) :=
  do f <- tabular_function_1d t;
  match tabular_variables t with
  | [x] =>
      if String.eqb x name then
        let usage := map (interpolate_1d f) values in
        Ok (usage, map (generic_is_valid false) usage)
      else Err OtherError  (* IllegalStateException *)
  | _ => Err NotImplementedErr
  end.

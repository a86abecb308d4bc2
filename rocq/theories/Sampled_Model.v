(** Model of the sampled compressor: a table of rates, suction and discharge pressures with the energy used
    (domain/process/compressor/core/sampled). *)
From Coq Require Import PeanoNat String.
From Verif Require Import QcTac Base Num Interp_Model.
Local Open Scope list_scope.
Local Open Scope Qc_scope.

(** constants.py:1-5 *)
Inductive variable : Type := RATE | PS | PD.
Definition variable_eqb (a b : variable) : bool :=
  match a, b with RATE, RATE | PS, PS | PD, PD => true | _, _ => false end.
(** constants.py, EPSILON = 1e-15 *)
Definition epsilon : Qc := qc 1 1000000000000000.

(** ** The data: compressor_model_sampled.py:52-76, the arguments of CompressorModelSampled.  Cells that are not
    numbers are not modelled. *)
Record samples : Type := mkSamples {
  sm_usage : list Qc; sm_type : energy_usage_type;
  sm_rate : option (list Qc); sm_ps : option (list Qc); sm_pd : option (list Qc);
  sm_power : option (list Qc) }.
Definition sm_column (s : samples) (v : variable) : option (list Qc) :=
  match v with RATE => sm_rate s | PS => sm_ps s | PD => sm_pd s end.

Definition empty_or_none {A} (l : option (list A)) : bool :=
  match l with None | Some [] => true | Some _ => false end.
(** 342-346, validate_minimum_one_variable *)
Definition has_variable (s : samples) : bool :=
  negb (empty_or_none (sm_rate s) && empty_or_none (sm_ps s) && empty_or_none (sm_pd s)).
(** 324-340, validate_equal_list_lengths *)
Definition same_length (n : nat) (l : option (list Qc)) : bool :=
  match l with None => true | Some l => Nat.eqb (List.length l) n end.
Definition equal_lengths (s : samples) : bool :=
  forallb (same_length (List.length (sm_usage s))) [sm_rate s; sm_ps s; sm_pd s; sm_power s].
(** 348-369, validate_non_negative_values *)
Definition non_negative (l : option (list Qc)) : bool :=
  match l with None => true | Some l => forallb (fun x => negb (Qcltb x 0)) l end.
Definition all_non_negative (s : samples) : bool :=
  forallb non_negative [Some (sm_usage s); sm_rate s; sm_ps s; sm_pd s; sm_power s].

(** 89-97, the columns present, in this order *)
Definition required_variables (s : samples) : list variable :=
  filter (fun v => match sm_column s v with Some _ => true | None => false end) [RATE; PS; PD].
(** 409-420, _non_degenerated_variables: the columns that do not hold exactly one value *)
Definition number_of_values (l : list Qc) : nat := List.length (nodup Qc_eq_dec l).
Definition varies (s : samples) (v : variable) : bool :=
  match sm_column s v with Some l => negb (Nat.eqb (number_of_values l) 1) | None => false end.
Definition varying_variables (s : samples) : list variable := filter (varies s) (required_variables s).
(** 106-120: the value of a column with a single value; None stands for the infinity used otherwise *)
Definition constant_value (s : samples) (v : variable) : option Qc :=
  match sm_column s v with
  | Some (x :: l) => if varies s v then None else Some x
  | _ => None
  end.
Definition column_or_nil (s : samples) (v : variable) : list Qc :=
  match sm_column s v with Some l => l | None => [] end.

(** ** One variable: compressor_model_sampled_1d.py *)
Record sampled_1d : Type := mk1D { d1_variable : variable; d1_function : interpolator; d1_max_rate : num }.
Definition by_fst (p q : Qc * Qc) : bool := Qcleb (fst p) (fst q).
Definition first_of {A} (l : list A) : result A := of_option IndexError (nth_error l 0).
Definition last_of {A} (l : list A) : result A := of_option IndexError (last_opt l).
(** 17-37, _get_extrapolation_values *)
Definition extrapolation_values (v : variable) (sorted : list (Qc * Qc)) : result (num * num) :=
  match v with
  | PS => do e <- last_of sorted; Ok (None, Some (snd e))
  | _ => do e <- first_of sorted; Ok (Some (snd e), None)
  end.
(** 80-117.  With repeated values of the variable the code builds its message with
    [', '.join(duplicates)] on a list of floats, so that TypeError is raised before the intended exception. *)
Definition make_1d (v : variable) (xs ys : list Qc) : result sampled_1d :=
  let sorted := sort by_fst (combine xs ys) in
  do fill <- extrapolation_values v sorted;
  do largest <- last_of sorted;
  let max_rate := match v with RATE => Some (fst largest) | _ => None end in
  if Nat.eqb (List.length sorted) (number_of_values (map fst sorted)) then
    do f <- make_interpolator (map fst sorted) (map snd sorted) (fst fill) (snd fill);
    Ok (mk1D v f max_rate)
  else Err TypeError.

(** ** Two variables.  The convex hull of the points (scipy.spatial.ConvexHull) and the piecewise linear surface
    (scipy.interpolate.LinearNDInterpolator) come from the environment.  A hull lists its edges: two indices into the
    points and the coefficients of the equation [a x + b y + d <= 0] of the half plane it bounds. *)
Record edge : Type := mkEdge { e_from : nat; e_to : nat; e_a : Qc; e_b : Qc; e_d : Qc }.
Record hull : Type := mkHull { h_points : list (Qc * Qc); h_edges : list edge }.
Record geometry : Type := mkGeometry {
  g_hull : list (Qc * Qc) -> result hull;
  g_surface : list (Qc * Qc) -> list Qc -> result (Qc -> Qc -> num);
  (** compressor_model_sampled_3d.py, the whole class: not modelled *)
  g_solid : list (Qc * Qc * Qc) -> list Qc -> result (Qc -> Qc -> Qc -> num) }.

Inductive axis : Type := FIRST | SECOND.
Definition other (ax : axis) : axis := match ax with FIRST => SECOND | SECOND => FIRST end.
Definition coordinate (ax : axis) (p : Qc * Qc) : Qc := match ax with FIRST => fst p | SECOND => snd p end.
Definition coefficient (ax : axis) (e : edge) : Qc := match ax with FIRST => e_a e | SECOND => e_b e end.

(** The bounds of the hull: ConvexHull.min_bound and max_bound (of at least one point) *)
Definition smallest (l : list Qc) : result Qc :=
  match l with [] => Err ValueError | x :: l => Ok (fold_left Qcmin l x) end.
Definition largest (l : list Qc) : result Qc :=
  match l with [] => Err ValueError | x :: l => Ok (fold_left Qcmax l x) end.
(** convex_hull_common.py:110 *)
Definition middle (ax : axis) (h : hull) : result Qc :=
  do lo <- smallest (map (coordinate ax) (h_points h));
  do hi <- largest (map (coordinate ax) (h_points h));
  Ok ((hi + lo) / qz 2).
(** 112-120: where the line of an edge passes the middle, along the axis *)
Definition test_value (ax : axis) (centre : Qc) (e : edge) : Qc :=
  - (e_d e / coefficient ax e) - (coefficient (other ax) e / coefficient ax e) * centre.
Definition non_boundary (ax : axis) (h : hull) : list edge :=
  filter (fun e => negb (Qceqb (coefficient ax e) 0)) (h_edges h).
(** 124-125 *)
Inductive side : Type := LOWER | UPPER.
Definition on_side (sd : side) (value centre : Qc) : bool :=
  match sd with LOWER => Qcleb value centre | UPPER => Qcleb centre value end.
Definition side_edges (sd : side) (ax : axis) (h : hull) : result (list edge) :=
  do c <- middle ax h;
  do o <- middle (other ax) h;
  Ok (filter (fun e => on_side sd (test_value ax o e) c) (non_boundary ax h)).
(** 128-133: np.unique of the indices of the edges, and the points at these indices *)
Definition edge_points (h : hull) (es : list edge) : result (list (Qc * Qc)) :=
  mapM (fun i => of_option IndexError (nth_error (h_points h) i))
    (sort Nat.leb (nodup Nat.eq_dec (flat_map (fun e => [e_from e; e_to e]) es))).
Definition side_points (sd : side) (ax : axis) (h : hull) : result (list (Qc * Qc)) :=
  do es <- side_edges sd ax h; edge_points h es.
(** 198-227 for the first axis: the upper edges along which the first variable does not decrease when the second
    increases (rate_ps), or does not increase (rate_pd) *)
Inductive case_2d : Type := RATE_PS | RATE_PD.
Definition monotonic (c : case_2d) (e : edge) : bool :=
  match c with RATE_PS => Qcleb (e_b e / e_a e) 0 | RATE_PD => Qcleb 0 (e_b e / e_a e) end.
Definition monotonic_points (c : case_2d) (h : hull) : result (list (Qc * Qc)) :=
  do es <- side_edges UPPER FIRST h; edge_points h (filter (monotonic c) es).

(** compressor_model_sampled_2d.py:77-99, 238-258, 308-329: the points sorted by the other coordinate, interpolated,
    with the values at the ends outside *)
Definition by_coordinate (ax : axis) (p q : Qc * Qc) : bool := Qcleb (coordinate ax p) (coordinate ax q).
Definition boundary_function (ax : axis) (points : list (Qc * Qc)) : result interpolator :=
  let sorted := sort (by_coordinate (other ax)) points in
  do lo <- first_of sorted;
  do hi <- last_of sorted;
  make_interpolator (map (coordinate (other ax)) sorted) (map (coordinate ax) sorted)
    (Some (coordinate ax lo)) (Some (coordinate ax hi)).
(** 101-128, the largest rate for a discharge pressure and the largest discharge pressure for a rate *)
Definition maximum_functions_pd (points : list (Qc * Qc)) : result (interpolator * interpolator) :=
  let s := sort (by_coordinate SECOND) points in
  do lo <- first_of s;
  do f <- make_interpolator (map snd s) (map fst s) (Some (fst lo)) (Some 0);
  let r := sort (by_coordinate FIRST) points in
  do lo <- first_of r;
  do g <- make_interpolator (map fst r) (map snd r) (Some (snd lo)) (Some 0);
  Ok (f, g).
(** 260-266 *)
Definition maximum_function_ps (points : list (Qc * Qc)) : result interpolator :=
  let s := sort (by_coordinate SECOND) points in
  do hi <- last_of s;
  make_interpolator (map snd s) (map fst s) (Some 0) (Some (fst hi)).

(** np.fmax and np.fmin of a number with the value of an interpolation *)
Definition fmax (x : Qc) (y : num) : Qc := match y with Some y => Qcmax x y | None => x end.
Definition fmin (x : Qc) (y : num) : Qc := match y with Some y => Qcmin x y | None => x end.

Record sampled_rate_pd : Type := mkRatePd {
  rp_surface : Qc -> Qc -> num; rp_min_rate : interpolator; rp_min_pd : interpolator;
  rp_max_rate : interpolator; rp_max_pd : interpolator }.
(** 45-128, CompressorModelSampled2DRatePd *)
Definition make_rate_pd (g : geometry) (points : list (Qc * Qc)) (ys : list Qc) : result sampled_rate_pd :=
  do surface <- g_surface g points ys;
  do h <- g_hull g points;
  do lower_rate <- side_points LOWER FIRST h;
  do upper_monotonic <- monotonic_points RATE_PD h;
  do lower_pd <- side_points LOWER SECOND h;
  do min_rate <- boundary_function FIRST lower_rate;
  do min_pd <- boundary_function SECOND lower_pd;
  do mx <- maximum_functions_pd upper_monotonic;
  Ok (mkRatePd surface min_rate min_pd (fst mx) (snd mx)).
(** 186-207 *)
Definition project_rate_pd (m : sampled_rate_pd) (rate pd : Qc) : Qc * Qc :=
  let rate' := fmax rate (interpolate_1d (rp_min_rate m) (Some pd)) in
  let pd' := fmax pd (interpolate_1d (rp_min_pd m) (Some rate')) in
  (rate', pd').
(** 143-163 *)
Definition evaluate_rate_pd (m : sampled_rate_pd) (rate pd : Qc) : num :=
  let (rate', pd') := project_rate_pd m rate pd in rp_surface m rate' pd'.

Record sampled_rate_ps : Type := mkRatePs {
  rs_surface : Qc -> Qc -> num; rs_min_rate : interpolator; rs_max_ps : interpolator; rs_max_rate : interpolator }.
(** 218-266, CompressorModelSampled2DRatePs *)
Definition make_rate_ps (g : geometry) (points : list (Qc * Qc)) (ys : list Qc) : result sampled_rate_ps :=
  do surface <- g_surface g points ys;
  do h <- g_hull g points;
  do lower_rate <- side_points LOWER FIRST h;
  do upper_monotonic <- monotonic_points RATE_PS h;
  do upper_ps <- side_points UPPER SECOND h;
  do min_rate <- boundary_function FIRST lower_rate;
  do max_ps <- boundary_function SECOND upper_ps;
  do max_rate <- maximum_function_ps upper_monotonic;
  Ok (mkRatePs surface min_rate max_ps max_rate).
(** 278-282 *)
Definition project_rate_ps (m : sampled_rate_ps) (rate ps : Qc) : Qc * Qc :=
  let rate' := fmax rate (interpolate_1d (rs_min_rate m) (Some ps)) in
  let ps' := fmin ps (interpolate_1d (rs_max_ps m) (Some rate')) in
  (rate', ps').
(** 268-273 *)
Definition evaluate_rate_ps (m : sampled_rate_ps) (rate ps : Qc) : num :=
  let (rate', ps') := project_rate_ps m rate ps in rs_surface m rate' ps'.

Record sampled_ps_pd : Type := mkPsPd {
  pp_surface : Qc -> Qc -> num; pp_min_pd : interpolator; pp_max_ps : interpolator }.
(** 293-329, CompressorModelSampled2DPsPd *)
Definition make_ps_pd (g : geometry) (points : list (Qc * Qc)) (ys : list Qc) : result sampled_ps_pd :=
  do surface <- g_surface g points ys;
  do h <- g_hull g points;
  do lower_pd <- side_points LOWER SECOND h;
  do upper_ps <- side_points UPPER FIRST h;
  do min_pd <- boundary_function SECOND lower_pd;
  do max_ps <- boundary_function FIRST upper_ps;
  Ok (mkPsPd surface min_pd max_ps).
(** 343-347 *)
Definition project_ps_pd (m : sampled_ps_pd) (ps pd : Qc) : Qc * Qc :=
  let pd' := fmax pd (interpolate_1d (pp_min_pd m) (Some ps)) in
  let ps' := fmin ps (interpolate_1d (pp_max_ps m) (Some pd')) in
  (ps', pd').
(** 331-336 *)
Definition evaluate_ps_pd (m : sampled_ps_pd) (ps pd : Qc) : num :=
  let (ps', pd') := project_ps_pd m ps pd in pp_surface m ps' pd'.

(** ** compressor_model_sampled.py *)
Inductive core : Type :=
| Core1D (m : sampled_1d)
| CoreRatePd (m : sampled_rate_pd)
| CoreRatePs (m : sampled_rate_ps)
| CorePsPd (m : sampled_ps_pd)
| Core3D (f : Qc -> Qc -> Qc -> num).
Record sampled : Type := mkSampled {
  sa_samples : samples; sa_core : core;
  sa_rate : option Qc; sa_ps : option Qc; sa_pd : option Qc  (* the values of the constant columns *) }.

(** 382-406 and 128-133 *)
Definition make_core (g : geometry) (s : samples) : result core :=
  let col := column_or_nil s in
  match varying_variables s with
  | [v] => do m <- make_1d v (col v) (sm_usage s); Ok (Core1D m)
  | [PS; PD] => do m <- make_ps_pd g (combine (col PS) (col PD)) (sm_usage s); Ok (CorePsPd m)
  | [RATE; PD] => do m <- make_rate_pd g (combine (col RATE) (col PD)) (sm_usage s); Ok (CoreRatePd m)
  | [RATE; PS] => do m <- make_rate_ps g (combine (col RATE) (col PS)) (sm_usage s); Ok (CoreRatePs m)
  | [RATE; PS; PD] =>
      do f <- g_solid g (combine (combine (col RATE) (col PS)) (col PD)) (sm_usage s); Ok (Core3D f)
  | _ => Err NotImplementedErr
  end.
(** 52-133, the constructor *)
Definition make_sampled (g : geometry) (s : samples) : result sampled :=
  if negb (has_variable s) then Err ValidationError
  else if negb (equal_lengths s) then Err ValidationError
  else if negb (all_non_negative s) then Err ValidationError
  else do c <- make_core g s;
       Ok (mkSampled s c (constant_value s RATE) (constant_value s PS) (constant_value s PD)).

(** 138-158, get_max_standard_rate for the given number of periods.  [get_max_rate] of the two- and three-dimensional
    models has parameters without default, but is called without arguments: TypeError. *)
Definition get_max_standard_rate (m : sampled) (suction_pressures : option (list Qc)) : result (list num) :=
  let n := match suction_pressures with Some l => List.length l | None => 1%nat end in
  match sm_rate (sa_samples m) with
  | None => Ok (repeat None n)
  | Some _ =>
      match sa_core m with
      | Core1D c => match d1_variable c with
                    | RATE => Ok (repeat (d1_max_rate c) n)
                    | _ => Ok (repeat (sa_rate m) n)
                    end
      | CorePsPd _ => Ok (repeat (sa_rate m) n)
      | CoreRatePd _ | CoreRatePs _ | Core3D _ => Err TypeError
      end
  end.

(** The evaluation of the core for lists of points.  A variable that is needed but was not given is the empty list:
    the result then does not have the number of points to be evaluated. *)
Fixpoint map_pairs {A B C} (f : A -> B -> C) (xs : list A) (ys : list B) : result (list C) :=
  match xs, ys with
  | [], [] => Ok []
  | x :: xs, y :: ys => do r <- map_pairs f xs ys; Ok (f x y :: r)
  | _, _ => Err ValueError
  end.
Definition core_evaluate (c : core) (rates pss pds : list Qc) : result (list num) :=
  match c with
  | Core1D m =>
      let xs := match d1_variable m with RATE => rates | PS => pss | PD => pds end in
      Ok (map (fun x => interpolate_1d (d1_function m) (Some x)) xs)
  | CoreRatePd m => map_pairs (evaluate_rate_pd m) rates pds
  | CoreRatePs m => map_pairs (evaluate_rate_ps m) rates pss
  | CorePsPd m => map_pairs (evaluate_ps_pd m) pss pds
  | Core3D f => do fs <- map_pairs f rates pss; map_pairs (fun h x => h x) fs pds
  end.

(** 377-380, np.argwhere *)
Definition indices_of (condition : list bool) : list nat :=
  map fst (filter snd (combine (seq 0 (List.length condition)) condition)).
(** [values[indices]] *)
Definition take_at {A} (l : list A) (idx : list nat) : result (list A) :=
  mapM (fun i => of_option IndexError (nth_error l i)) idx.
(** [base[i] = v] *)
Fixpoint set_at {A} (base : list A) (i : nat) (v : A) : result (list A) :=
  match base, i with
  | [], _ => Err IndexError
  | _ :: base, O => Ok (v :: base)
  | b :: base, S i => do r <- set_at base i v; Ok (b :: r)
  end.
(** [base[indices] = values] *)
Fixpoint assign {A} (base : list A) (idx : list nat) (vs : list A) : result (list A) :=
  match idx, vs with
  | [], [] => Ok base
  | i :: idx, v :: vs => do b <- set_at base i v; assign b idx vs
  | _, _ => Err ValueError
  end.

(** 196-197: a positive rate is reduced by a tiny amount *)
Definition shift_rate (r : Qc) : Qc := if Qcltb 0 r then r - epsilon else r.
(** A condition on a variable that need not be given; one that is not given is always met *)
Definition condition (n : nat) (ok : Qc -> bool) (l : option (list Qc)) : result (list bool) :=
  match l with
  | None => Ok (repeat true n)
  | Some l => if Nat.eqb (List.length l) n then Ok (map ok l) else Err ValueError
  end.
Definition at_most (bound : option Qc) (x : Qc) : bool := match bound with Some b => Qcleb x b | None => true end.
Definition at_least (bound : option Qc) (x : Qc) : bool := match bound with Some b => Qcleb b x | None => true end.
Definition conjunction (a b : list bool) : list bool := map2 andb a b.
Definition given_or_nil (l : option (list Qc)) (idx : list nat) : result (list Qc) :=
  match l with Some l => take_at l idx | None => Ok [] end.

(** 193-246: the energy used in every period.  Series of different lengths: ValueError (numpy would stretch a series
    of length one). *)
Definition interpolated_values (m : sampled) (rate ps pd : option (list Qc)) : result (list num) :=
  let rate := match rate with Some l => Some (map shift_rate l) | None => None end in
  do n <- match rate, ps, pd with
          | Some l, _, _ | None, Some l, _ | None, None, Some l => Ok (List.length l)
          | None, None, None => Err ValueError  (* 167-168, set_evaluation_input *)
          end;
  let base := repeat (None : num) n in
  do base <- match rate with
             | Some l => let idx := indices_of (map (fun r => Qcleb r 0) l) in
                         assign base idx (map (fun _ => Some 0) idx)
             | None => Ok base
             end;
  do positive <- condition n (Qcltb 0) rate;
  do rate_ok <- condition n (at_most (sa_rate m)) rate;
  do ps_ok <- condition n (at_least (sa_ps m)) ps;
  do pd_ok <- condition n (at_most (sa_pd m)) pd;
  let idx := indices_of (conjunction (conjunction (conjunction positive rate_ok) ps_ok) pd_ok) in
  do rates <- given_or_nil rate idx;
  do pss <- given_or_nil ps idx;
  do pds <- given_or_nil pd idx;
  do values <- core_evaluate (sa_core m) rates pss pds;
  assign base idx values.

(** 84-87: the fuel column, kept for fuel with power values *)
Definition fuel_values (s : samples) : option (list Qc) :=
  match sm_type s with
  | FUEL => if empty_or_none (sm_power s) then None else Some (sm_usage s)
  | POWER => None
  end.
(** 429-445, Turbine.__post_init__ *)
Definition fuel_to_power (s : samples) : result (option interpolator) :=
  match fuel_values s, sm_power s with
  | Some fuel, Some power =>
      if Nat.eqb (List.length fuel) (List.length power) then
        do f <- make_interpolator fuel power (Some 0) None; Ok (Some f)
      else Ok None
  | _, _ => Ok None
  end.
Definition is_number (x : num) : bool := match x with Some _ => true | None => false end.

(** 248-321: the fields of the result; [sr_power] is None when there is no power.  The valid periods are those with an
    energy usage and, with a turbine, those in which its load is a number. *)
Record sampled_result : Type := mkSampledResult {
  sr_usage : list num; sr_power : option (list num); sr_valid : list bool; sr_rate : list num }.
Definition evaluate_sampled (m : sampled) (rate ps pd : option (list Qc)) : result sampled_result :=
  do usage <- interpolated_values m rate ps pd;
  do turbine <- fuel_to_power (sa_samples m);
  let load := match turbine with Some f => Some (map (interpolate_1d f) usage) | None => None end in
  let power := match sm_type (sa_samples m) with POWER => Some usage | FUEL => load end in
  let valid := match load with
               | Some load => map2 (fun u l => is_number u && negb (negb (is_number l))) usage load
               | None => map is_number usage
               end in
  Ok (mkSampledResult usage power valid
        (match rate with Some l => map (fun r => Some (shift_rate r)) l | None => map (fun _ => None) usage end)).

(** Model of the comparison of two results (presentation/simple_result/simple.py). *)
From Coq Require Import String PeanoNat.
From Verif Require Import QcTac Base Num Time_Model.
Local Open Scope list_scope.

(** 23-47, class SimpleEmissionResult *)
Record emission : Type := mkEmission { em_name : string; em_rate : list num }.

(** 71-84, class SimpleComponentResult.  Component types, levels and units are represented by their texts.  The values
    are floats, so the None branches of _subtract_list are not reachable; [None] in [num] is NaN. *)
Record component : Type := mkComponent {
  c_type : string; c_level : string; c_parent : option string; c_name : string; c_periods : list period; c_valid : list Z;
  c_emissions : list (string * emission); c_energy : list num; c_unit : string; c_power : option (list num) }.

(** 50-55 and 112-114, ComponentID: tuples ordered lexicographically *)
Definition component_id : Type := (string * string)%type.
Definition id_of (c : component) : component_id := (c_type c, c_name c).
Definition id_eqb (a b : component_id) : bool := String.eqb (fst a) (fst b) && String.eqb (snd a) (snd b).
Definition id_leb (a b : component_id) : bool :=
  if String.eqb (fst a) (fst b) then String.leb (snd a) (snd b) else String.leb (fst a) (fst b).
Definition id_dec (a b : component_id) : {a = b} + {a <> b}.
Proof. decide equality; apply string_dec. Defined.

(** 246-248, class SimpleResultData *)
Record results : Type := mkResults { r_periods : list period; r_components : list component }.

(** 141-168, the loop of fit_to_periods: the index of the period each appended value is taken from.  (The loop appends a
    value to every series for each index; the model collects the indices first.) *)
Fixpoint picks (i : nat) (ps target : list period) : result (list nat) :=
  match ps with
  | [] => Ok []
  | p :: rest =>
      do whole <- periods_period target;
      match intersection p whole with
      | Some q =>
          do s <- of_option ValueError (index_of Z.eqb (p_start q) (start_dates target));
          do e <- of_option ValueError (index_of Z.eqb (p_end q) (end_dates target));
          do more <- picks (S i) rest target;
          Ok (repeat i (e + 1 - s) ++ more)
      | None => picks (S i) rest target
      end
  end.
Definition take {A} (l : list A) (is : list nat) : result (list A) := mapM (fun i => of_option IndexError (nth_error l i)) is.

(** 133-138, the empty series of the emissions, keyed by name *)
Definition emission_names (c : component) : list string :=
  map fst (fold_left (fun d e => dict_set String.eqb (em_name (snd e)) tt d) (c_emissions c) []).

(** 116-181, SimpleComponentResult.fit_to_periods *)
Definition fit_component (c : component) (periods : list period) : result component :=
  do is <- picks 0 (c_periods c) periods;
  do power <- match c_power c with Some p => take p is | None => Ok [] end;
  do energy <- take (c_energy c) is;
  do valid <- take (c_valid c) is;
  do emissions <- mapM (fun n =>
    do rate <- mapM (fun i => do e <- of_option KeyError (dict_get String.eqb n (c_emissions c)); of_option IndexError (nth_error (em_rate e) i)) is;
    Ok (n, mkEmission n rate)) (emission_names c);
  Ok (mkComponent (c_type c) (c_level c) (c_parent c) (c_name c) periods valid emissions energy (c_unit c) (Some power)).

(** 58-68, _subtract_list *)
Definition subtract_list (first second : list num) : list num := map2 nsub first second.

(** 36-47, SimpleEmissionResult.__sub__ *)
Definition subtract_emission (self reference : emission) : result emission :=
  if negb (String.eqb (em_name self) (em_name reference)) then Err ValueError
  else Ok (mkEmission (em_name self) (subtract_list (em_rate self) (em_rate reference))).

Definition name_leb (a b : emission) : bool := String.leb (em_name a) (em_name b).
Fixpoint periods_eqb (a b : list period) : bool :=
  match a, b with
  | [], [] => true
  | x :: a', y :: b' => period_eqb x y && periods_eqb a' b'
  | _, _ => false
  end.
Definition parent_eqb (a b : option string) : bool :=
  match a, b with Some x, Some y => String.eqb x y | None, None => true | _, _ => false end.

(** 183-221, SimpleComponentResult.__sub__.  Subtracting None from a list is a TypeError.  Python's [and] on integers gives
    the first if it is zero and the second otherwise. *)
Definition subtract_component (self reference : component) : result component :=
  if negb (id_eqb (id_of self) (id_of reference)) then Err ValueError
  else if negb (periods_eqb (c_periods self) (c_periods reference)) then Err ValueError
  else if negb (String.eqb (c_unit self) (c_unit reference)) then Err ValueError
  else
    do power <- match c_power self, c_power reference with Some a, Some b => Ok (subtract_list a b) | _, _ => Err TypeError end;
    do emissions <- mapM (fun ab => do e <- subtract_emission (fst ab) (snd ab); Ok (em_name (fst ab), e))
      (zip (sort name_leb (map snd (c_emissions self))) (sort name_leb (map snd (c_emissions reference))));
    Ok (mkComponent (c_type self) (c_level self)
      (if parent_eqb (c_parent self) (c_parent reference) then c_parent self else None) (c_name self) (c_periods self)
      (map2 (fun a b => if a =? 0 then a else b) (c_valid self) (c_valid reference))
      (fold_left (fun d e => dict_set String.eqb (fst e) (snd e) d) emissions [])
      (subtract_list (c_energy self) (c_energy reference)) (c_unit self) (Some power)).

(** 224-243, _create_empty_component *)
Definition zeros (n : nat) : list num := repeat (Some 0%Qc) n.
Definition create_empty_component (c : component) : component :=
  let n := length (c_periods c) in
  mkComponent (c_type c) (c_level c) (c_parent c) (c_name c) (c_periods c) (repeat 1 n)
    (fold_left (fun d e => dict_set String.eqb (em_name (snd e)) (mkEmission (em_name (snd e)) (zeros n)) d) (c_emissions c) [])
    (zeros n) (c_unit c) (Some (zeros n)).

(** 256-277, SimpleResultData.fit_to_periods *)
Definition fit_results (model : results) (periods : list period) : result results :=
  do cs <- mapM (fun c => fit_component c periods) (r_components model); Ok (mkResults periods cs).

(** 279-306, SimpleResultData.subtract.  ValueErrors are collected; the model keeps the component they are about instead of
    the text. *)
Fixpoint subtract_components (l : list (component * component)) : result (list component * list component_id) :=
  match l with
  | [] => Ok ([], [])
  | (a, b) :: rest =>
      match subtract_component a b with
      | Ok c => do r <- subtract_components rest; Ok (c :: fst r, snd r)
      | Err ValueError => do r <- subtract_components rest; Ok (fst r, id_of a :: snd r)
      | Err e => Err e
      end
  end.
Definition subtract_results (changed reference : results) : result (results * list component_id) :=
  if negb (periods_eqb (r_periods changed) (r_periods reference)) then Err ValueError
  else do r <- subtract_components (zip (r_components changed) (r_components reference));
       Ok (mkResults (r_periods reference) (fst r), snd r).

Section Order.
(** the order in which Python iterates over a set of strings *)
Variable order : list string -> list string.

(** 308-321, SimpleResultData._normalize_emissions, for one of the two components.  (The dictionaries of the arguments
    themselves are extended there.) *)
Definition add_missing (names : list string) (c : component) : component :=
  fold_left (fun c n =>
    match dict_get String.eqb n (c_emissions c) with
    | Some _ => c
    | None => mkComponent (c_type c) (c_level c) (c_parent c) (c_name c) (c_periods c) (c_valid c)
        (dict_set String.eqb n (mkEmission n (zeros (length (c_periods c)))) (c_emissions c)) (c_energy c) (c_unit c) (c_power c)
    end) names c.
Definition normalize_emissions (changed reference : component) : component * component :=
  let names := order (nodup string_dec (map fst (c_emissions changed) ++ map fst (c_emissions reference))) in
  (add_missing names changed, add_missing names reference).

Definition components_by_id (m : results) : list (component_id * component) :=
  fold_left (fun d c => dict_set id_eqb (id_of c) c d) (r_components m) [].

(** 323-364, SimpleResultData.normalize_components: the changed and the reference model *)
Definition normalize_components (reference changed : results) (exclude : list string) : result (results * results) :=
  let changed_components := components_by_id changed in
  let reference_components := components_by_id reference in
  let ids := sort id_leb (nodup id_dec (map fst changed_components ++ map fst reference_components)) in
  let filtered := filter (fun i => negb (existsb (String.eqb (fst i)) exclude)) ids in
  do pairs <- mapM (fun i =>
    match dict_get id_eqb i changed_components, dict_get id_eqb i reference_components with
    | Some a, Some b => Ok (normalize_emissions a b)
    | None, Some b => Ok (normalize_emissions (create_empty_component b) b)
    | Some a, None => Ok (normalize_emissions a (create_empty_component a))
    | None, None => Err TypeError
    end) filtered;
  Ok (mkResults (r_periods changed) (map fst pairs), mkResults (r_periods reference) (map snd pairs)).

(** time_utils.py:186-192, Periods.last_date and first_date *)
Definition first_date (ps : list period) : result datetime :=
  match ps with [] => Err IndexError | p :: _ => Ok (p_start p) end.
Definition last_date (ps : list period) : result datetime :=
  match last_opt ps with None => Err IndexError | Some p => Ok (p_end p) end.

(** 366-418, SimpleResultData.delta_profile: the changed model, the reference model, the difference and the errors.
    EcalcError is DomainError. *)
Definition delta_profile (reference changed : results) : result (results * results * results * list component_id) :=
  do fc <- first_date (r_periods changed); do fr <- first_date (r_periods reference);
  do lc <- last_date (r_periods changed); do lr <- last_date (r_periods reference);
  let first := Z.max fc fr in let last := Z.min lc lr in
  if last <=? first then Err DomainError else
  do dr <- all_dates (r_periods reference); do dc <- all_dates (r_periods changed);
  let within := filter (fun d => (first <=? d) && (d <=? last)) in
  let dates := sorted_set (within dr ++ within dc) in
  let periods := create_periods dates false false in
  do n <- normalize_components reference changed [];
  do changed' <- fit_results (fst n) periods;
  do reference' <- fit_results (snd n) periods;
  do d <- subtract_results changed' reference';
  Ok (changed', reference', fst d, snd d).
End Order.

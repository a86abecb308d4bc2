(** What comparing two results means, independently of how it is computed. *)
From Coq Require Import String PeanoNat.
From Verif Require Import QcTac Base Num Time_Model Time_Spec Simple_Model.
Local Open Scope list_scope.

(** the quantities that are compared *)
Inductive quantity : Type := Energy | Power | Emission (name : string).
Definition series (q : quantity) (c : component) : option (list num) :=
  match q with
  | Energy => Some (c_energy c)
  | Power => c_power c
  | Emission n => match find (fun e => String.eqb (fst e) n) (c_emissions c) with Some e => Some (em_rate (snd e)) | None => None end
  end.

(** the value of a series at an instant *)
Definition value_on {A} (ps : list period) (vs : list A) (d : datetime) (v : A) : Prop :=
  exists i p, nth_error ps i = Some p /\ In_period d p /\ nth_error vs i = Some v.
Definition has_value (ps : list period) (c : component) (q : quantity) (d : datetime) (v : num) : Prop :=
  exists vs, series q c = Some vs /\ value_on ps vs d v.

(** the periods contain the instant *)
Definition covers (ps : list period) (d : datetime) : Prop := exists j u, nth_error ps j = Some u /\ In_period d u.

(** results as eCalc produces them: all components on the periods of the model, one value per period, emissions listed once
    under their names, validity given by zero and one, no two components with the same type and name *)
Definition proper_component (ps : list period) (c : component) : Prop :=
  c_periods c = ps /\ List.length (c_valid c) = List.length ps /\ (forall b, In b (c_valid c) -> b = 0 \/ b = 1) /\ List.length (c_energy c) = List.length ps /\
  (forall p, c_power c = Some p -> List.length p = List.length ps) /\
  NoDup (map fst (c_emissions c)) /\
  (forall n e, In (n, e) (c_emissions c) -> em_name e = n /\ List.length (em_rate e) = List.length ps).
Definition proper (r : results) : Prop :=
  r_periods r <> [] /\ contiguous (r_periods r) /\ (forall c, In c (r_components r) -> proper_component (r_periods r) c) /\
  NoDup (map id_of (r_components r)).

Definition present (r : results) (i : component_id) : Prop := exists c, In c (r_components r) /\ id_of c = i.
Definition reported (r : results) (i : component_id) (q : quantity) : Prop :=
  exists c vs, In c (r_components r) /\ id_of c = i /\ series q c = Some vs.

(** the amount a model reports for a component and quantity at an instant: a component or emission that is not reported
    counts as zero; a component without power reports no amount of power *)
Inductive amount (r : results) (i : component_id) : quantity -> datetime -> num -> Prop :=
| A_value : forall c q d v, In c (r_components r) -> id_of c = i -> has_value (r_periods r) c q d v -> amount r i q d v
| A_absent : forall q d, ~ present r i -> amount r i q d (Some 0%Qc)
| A_no_emission : forall n d, present r i -> ~ reported r i (Emission n) -> amount r i (Emission n) d (Some 0%Qc).

(** an emission is compared if one of the models reports it *)
Definition compared (a b : results) (i : component_id) (q : quantity) : Prop :=
  match q with Emission n => reported a i q \/ reported b i q | _ => True end.

(** the model does not report the component as invalid *)
Definition valid_in (r : results) (i : component_id) (d : datetime) : Prop :=
  forall c, In c (r_components r) -> id_of c = i -> value_on (r_periods r) (c_valid c) d 1.

(** the units of a component that both models have agree *)
Definition same_units (a b : results) (i : component_id) : Prop :=
  forall c c', In c (r_components a) -> In c' (r_components b) -> id_of c = i -> id_of c' = i -> c_unit c = c_unit c'.

(** the periods of a comparison: they cover the time both models cover, split wherever either model splits it *)
Definition common_periods (a b ps : list period) : Prop :=
  contiguous ps /\
  forall s e s' e', spans a s e -> spans b s' e' ->
    spans ps (Z.max s s') (Z.min e e') /\
    forall t, is_boundary ps t <-> (is_boundary a t \/ is_boundary b t) /\ Z.max s s' <= t <= Z.min e e'.

(** the negative *)
Definition nneg (x : num) : num := match x with Some v => Some (- v)%Qc | None => None end.

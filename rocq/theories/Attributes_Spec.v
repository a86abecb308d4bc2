(** What an installation should offer for export, independently of how it is computed. *)
From Coq Require Import String Sorted.
From Verif Require Import QcTac Num Time_Model Time_Spec Units_Model Rates_Model Rates_Spec Numbers_Model Base Export_Model Export_Spec Attributes_Model.
Local Open Scope list_scope.

(** the entries of a temporal model follow each other *)
Definition ordered {M} (tm : list (period * M)) : Prop :=
  StronglySorted (fun a b => p_end (fst a) <= p_start (fst b)) tm /\ Forall (fun e => nonempty (fst e)) tm.

(** every date of it is a date of the series, or lies outside of the series *)
Definition grid_date (ps : list period) (d : datetime) : Prop :=
  (exists p, In p ps /\ (p_start p = d \/ p_end p = d)) \/ (forall p, In p ps -> d <= p_start p) \/ (forall p, In p ps -> p_end p <= d).
Definition on_grid {M} (ps : list period) (tm : list (period * M)) : Prop := forall e, In e tm -> grid_date ps (p_start (fst e)) /\ grid_date ps (p_end (fst e)).
(** every date of it is a date of the series *)
Definition inside_grid {M} (ps : list period) (tm : list (period * M)) : Prop :=
  forall e, In e tm -> (exists p, In p ps /\ (p_start p = p_start (fst e) \/ p_end p = p_start (fst e))) /\ exists p, In p ps /\ (p_start p = p_end (fst e) \/ p_end p = p_end (fst e)).

(** the volume of a rate series in a period, in another unit; a missing value counts zero *)
Definition volume_at (s : rate_series) (u : unit_) (p : period) (x : Qc) : Prop :=
  exists k r vu f, nth_error (r_periods s) k = Some p /\ nth_error (calendar_rates s) k = Some r /\ rate_to_volume (r_unit s) = Ok vu /\ unit_to vu u = Ok f /\
    x = nan_zero (option_map f (rate_volume r p)).
Definition level_at (s : rate_series) (u : unit_) (p : period) (x : Qc) : Prop :=
  exists k r f, nth_error (r_periods s) k = Some p /\ nth_error (r_values s) k = Some r /\ unit_to (r_unit s) u = Ok f /\ x = nan_zero (option_map f r).
(** the units can be converted *)
Definition to_volume_unit (s : rate_series) (u : unit_) : Prop := exists vu f, rate_to_volume (r_unit s) = Ok vu /\ unit_to vu u = Ok f.

(** no missing rate *)
Definition finite_rates (s : rate_series) : Prop := forall r, In r (calendar_rates s) -> exists x, r = Some x.
(** the category in force when a period starts, or none *)
Definition category_at {M} (tm : list (period * M)) (p : period) (c : option M) : Prop :=
  match c with Some m => in_force tm (p_start p) m | None => forall m, ~ in_force tm (p_start p) m end.
(** the category of the fuel in force *)
Definition fuel_category_at (fuel : list (period * option categories)) (p : period) (c : option string) : Prop :=
  match c with
  | Some m => exists l, in_force fuel (p_start p) (Some l) /\ in_force l (p_start p) m
  | None => forall l m, in_force fuel (p_start p) (Some l) -> ~ in_force l (p_start p) m
  end.
(** a period starts between two dates at which something is defined *)
Definition in_scope (defined : datetime -> Prop) (p : period) : Prop := (exists d, d <= p_start p /\ defined d) /\ exists d, p_start p <= d /\ defined d.
(** a fuel without categories, or one with a category *)
Definition fuel_defined (fuel : list (period * option categories)) (d : datetime) : Prop := in_force fuel d None \/ exists l m, in_force fuel d (Some l) /\ in_force l d m.

(** the fuels follow each other, as do the categories of each of them, and each category overlaps with the use of the fuel *)
Definition fuel_ok (fuel : list (period * option categories)) : Prop :=
  ordered fuel /\ forall e c, In e fuel -> snd e = Some c -> ordered c /\ forall pc, In pc c -> exists d, In_period d (fst e) /\ In_period d (fst pc).
Definition fuel_on_grid (ps : list period) (fuel : list (period * option categories)) : Prop :=
  on_grid ps fuel /\ forall e c, In e fuel -> snd e = Some c -> on_grid ps c.

(** what is exported about a period is labelled with these categories *)
Definition fuel_labels (x : fuel_consumer) (p : period) (m : meta) : Prop :=
  exists cs f k, fc_category x = Some cs /\ in_scope (fun d => fuel_defined (fc_fuel x) d \/ exists c, in_force cs d c) p /\
    fuel_category_at (fc_fuel x) p f /\ category_at cs p k /\ m = mkMeta f k None None.
Definition power_labels (x : power_consumer) (p : period) (m : meta) : Prop :=
  exists cs, pc_category x = Some cs /\
  match pc_producer x with
  | None => exists k, in_force cs (p_start p) k /\ m = mkMeta None (Some k) None None
  | Some pr => exists rs k r, pr = Some rs /\ in_scope (fun d => (exists c, in_force cs d c) \/ exists c, in_force rs d c) p /\
      category_at cs p k /\ category_at rs p r /\ m = mkMeta None k r None
  end.
Definition emission_labels (x : emitter) (p : period) (name : string) (m : meta) : Prop :=
  exists cs, em_category x = Some cs /\
  match em_fuel x with
  | None => exists k, in_force cs (p_start p) k /\ m = mkMeta None (Some k) None (Some name)
  | Some fuel => exists f k, in_scope (fun d => fuel_defined fuel d \/ exists c, in_force cs d c) p /\
      fuel_category_at fuel p f /\ category_at cs p k /\ m = mkMeta f k None (Some name)
  end.
Definition producer_labels (cs : option categories) (p : period) (m : meta) : Prop := exists c k, cs = Some c /\ in_force c (p_start p) k /\ m = mkMeta None None (Some k) None.
Definition storage_labels (cs : option categories) (p : period) (m : meta) : Prop := exists c k, cs = Some c /\ in_force c (p_start p) k /\ m = mkMeta None (Some k) None None.

(** a sum over the components that have a property *)
Inductive sum_over {C : Type} (P : C -> Prop) (v : C -> Qc -> Prop) : list C -> Qc -> Prop :=
| O_nil : sum_over P v [] 0
| O_in : forall c l y x, P c -> v c y -> sum_over P v l x -> sum_over P v (c :: l) (y + x)
| O_out : forall c l x, ~ P c -> sum_over P v l x -> sum_over P v (c :: l) x.

(** a query wants attributes of these categories *)
Definition wants (q : query) (m : meta) : Prop := matches q (mkAttribute m []).

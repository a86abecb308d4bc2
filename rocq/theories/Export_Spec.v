(** What an export should contain, independently of how it is computed. *)
From Coq Require Import String.
From Verif Require Import QcTac Num Time_Model Time_Spec Units_Model Rates_Model Rates_Spec Numbers_Model Base Export_Model.
Local Open Scope list_scope.

(** an attribute is of a wanted category; no wish is met by everything *)
Definition is_wanted (wanted value : option string) : Prop := forall c, wanted = Some c -> value = Some c.
Definition is_among (wanted : option (list string)) (value : option string) : Prop :=
  forall l, wanted = Some l -> exists c, value = Some c /\ In c l.

(** the filters each kind of query applies *)
Definition matches (q : query) (a : attribute) : Prop :=
  match q_kind q with
  | Fuel => is_wanted (q_fuel q) (m_fuel (a_meta a)) /\ is_among (q_consumers q) (m_consumer (a_meta a))
  | StorageVolume => is_among (q_consumers q) (m_consumer (a_meta a))
  | EmissionMass => is_wanted (q_fuel q) (m_fuel (a_meta a)) /\ is_among (q_consumers q) (m_consumer (a_meta a)) /\ is_wanted (q_emission q) (m_emission (a_meta a))
  | ElectricityGenerated | MaxUsageFromShore => is_among (q_producers q) (m_producer (a_meta a))
  | PowerConsumption => is_among (q_producers q) (m_producer (a_meta a)) /\ is_among (q_consumers q) (m_consumer (a_meta a))
  end.

(** the sum of the points of one attribute in a period, and of the attributes that have a property *)
Fixpoint points_in (p : period) (l : list (period * num)) : Qc :=
  match l with [] => 0%Qc | (p', v) :: rest => ((if period_eqb p p' then nan_zero v else 0) + points_in p rest)%Qc end.
Inductive total_in (P : attribute -> Prop) (p : period) : list attribute -> Qc -> Prop :=
| T_nil : total_in P p [] 0
| T_in : forall a l x, P a -> total_in P p l x -> total_in P p (a :: l) (points_in p (a_points a) + x)
| T_out : forall a l x, ~ P a -> total_in P p l x -> total_in P p (a :: l) x.

(** finite values in the given periods *)
Definition finite_on (ps : list period) (a : attribute) : Prop := forall p v, In (p, v) (a_points a) -> In p ps /\ exists x, v = Some x.

(** the categories agree *)
Definition right_installation (q : query) (e : exportable) : Prop := is_wanted (q_installation q) (e_category e).

(** the unit can be exported: emissions pass through kilos *)
Definition unit_ok (q : query) (u : unit_) : Prop := q_kind q = EmissionMass -> u = KILO \/ u = TONS.

(** ** Reports *)

(** the frequency can be resampled to: none, or all periods together go from midnight to midnight *)
Definition frequency_ok (f : frequency) (ps : list period) : Prop := f = FreqNone \/ exists A B, (A < B)%Z /\ spans ps (86400 * A) (86400 * B).

(** the sign that a chain of modifiers gives *)
Inductive signs : list modifier -> Qc -> Qc -> Prop :=
| G_nil : forall x, signs [] x x
| G_null : forall ms x y, signs ms x y -> signs (Null :: ms) x y
| G_invert : forall ms x y, signs ms (- x) y -> signs (Invert :: ms) x y.

(** the column of an applier that formats its values at the end: one cell for every new period, which is the text of the share
    of the sums over the matching attributes that falls in the period *)
Definition formatted_column (f : frequency) (a : applier) (e : exportable) (r : query_result) : Prop :=
  qr_name r = ap_name a /\ qr_title r = ap_title a /\ qr_unit r = ap_unit a /\
  exists l sums new, attributes_of e (q_kind (ap_query a)) (ap_unit a) = Ok l /\
    Forall2 (fun p x => total_in (matches (ap_query a)) p l x) (e_periods e) sums /\
    resample_periods (e_periods e) f true true = Ok new /\
    Forall2 (fun p pc => fst pc = p /\ exists ms y t, ap_modifiers a = ms ++ [Format] /\ signs ms (prorated (e_periods e) (map Some sums) p) y /\
      format_to_precision y 6 = Ok t /\ snd pc = Text (Some t)) new (qr_values r).

(** the columns of an installation: those of the appliers that want its category, in order *)
Inductive reported (f : frequency) (e : exportable) : list applier -> list query_result -> Prop :=
| P_nil : reported f e [] []
| P_out : forall a l rs, ~ right_installation (ap_query a) e -> reported f e l rs -> reported f e (a :: l) rs
| P_in : forall a l r rs, right_installation (ap_query a) e -> formatted_column f a e r -> reported f e l rs -> reported f e (a :: l) (r :: rs).

(** what an applier needs of an installation *)
Definition can_report (f : frequency) (e : exportable) (a : applier) : Prop :=
  q_kind (ap_query a) <> MaxUsageFromShore /\ unit_ok (ap_query a) (ap_unit a) /\
  (exists ms, ap_modifiers a = ms ++ [Format] /\ ~ In Format ms) /\
  (right_installation (ap_query a) e -> exists l, attributes_of e (q_kind (ap_query a)) (ap_unit a) = Ok l /\
    forall at_, In at_ l -> matches (ap_query a) at_ -> finite_on (e_periods e) at_).

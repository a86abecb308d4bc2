(** Vocabulary for C114: the totals of an asset in terms of its text and of what is seen of its energy model. *)
From Coq Require Import PeanoNat String.
From Verif Require Import QcTac Base Time_Model Time_Spec Num Expr_Model Vars_Model Units_Model Rates_Model Input_Model
  Interp_Model Energy_Model Emitters_Model Emitters_Spec Consumer_Model Totals_Spec Asset_Model Asset_Spec.
Local Open Scope list_scope.

(** ** What is seen of an installation *)
Definition below_of (s : shown) : list shown := match s with Shown _ _ _ below => below end.
(** what burns fuel: the fuel and the energy usage of each *)
Definition users (s : shown) : list (list (period * fuel_type) * list num) :=
  flat_map (fun c => match c with Shown _ (Some fuel) (Some r) _ => [(fuel, s_values (re_energy r))] | _ => [] end) (below_of s).
Definition powers_of (l : list shown) : list (list num) := flat_map (fun c => match power_shown c with Some v => [v] | None => [] end) l.
(** the powers of what generator sets supply, and of what has nothing below it: what is driven by its own engine *)
Definition electrical (s : shown) : list (list num) := flat_map (fun c => powers_of (below_of c)) (below_of s).
Definition mechanical (s : shown) : list (list num) :=
  powers_of (filter (fun c => match below_of c with [] => true | _ => false end) (below_of s)).

Section Reported.
  Context {M : Type}.
  Variable np_pow : Qc -> Qc -> Qc.
  Variables (ps : list period) (vars : variables_dict) (vm : variables_map) (target : period).
  Let n := List.length ps.

  (** the sum over the installations *)
  Definition over_asset (part : yaml_installation M -> shown -> Qc -> Prop) (installations : list (yaml_installation M)) (below : list shown)
      (x : Qc) : Prop :=
    exists xs, Forall2 (fun p => part (fst p) (snd p)) (combine installations below) xs /\ x = qsum xs.
  (** the regularity of an installation in a period *)
  Definition regularity_at (i : yaml_installation M) (k : nat) (g : Qc) : Prop :=
    exists values, regularity_values np_pow (yi_regularity i) target vm = Ok values /\ nth_error values k = Some g.
  (** fuel per calendar day in period [k] *)
  Definition fuel_of (k : nat) (i : yaml_installation M) (s : shown) (x : Qc) : Prop :=
    exists g, regularity_at i k g /\ x = (g * qsum (map (fun u => number_at (snd u) k) (users s)))%Qc.
  (** power on producing days, and on the average over all days *)
  Definition power_of (parts : shown -> list (list num)) (k : nat) (i : yaml_installation M) (s : shown) (x : Qc) : Prop :=
    x = qsum (map (fun v => number_at v k) (parts s)).
  Definition average_power_of (parts : shown -> list (list num)) (k : nat) (i : yaml_installation M) (s : shown) (x : Qc) : Prop :=
    exists g, regularity_at i k g /\ x = (g * qsum (map (fun v => number_at v k) (parts s)))%Qc.
  Definition export_of (k : nat) (i : yaml_installation M) (s : shown) (x : Qc) : Prop :=
    exists values export, regularity_values np_pow (yi_regularity i) target vm = Ok values /\
      hydrocarbon_export np_pow (yi_export i) values target vm = Ok export /\ x = number_at (r_values export) k.

  (** what a user of fuel emits in period [k], in tons per producing day: the fuel times the factor of the fuel in force, in
      kg per Sm3 *)
  Definition burns (name : string) (k : nat) (u : list (period * fuel_type) * list num) (x : Qc) : Prop :=
    exists p, nth_error ps k = Some p /\
      ((exists t m ts v, In_period t p /\ in_force (fst u) t m /\ In (name, ts) m /\ evaluates_at np_pow vars n ts k v /\
          x = (number_at (snd u) k * (v / qz 1000))%Qc) \/
       ((forall t m, In_period t p -> in_force (fst u) t m -> ~ In name (map fst m)) /\ x = 0%Qc)).
  (** what an emitter emits in period [k], where the regularity is [g] *)
  Definition vents (name : string) (k : nat) (g : Qc) (e : emitter) (x : Qc) : Prop :=
    match e with
    | DirectEmitter es =>
        (exists r v b s, last_named es name r /\ evaluates_at np_pow vars n (ri_value r) k v /\ condition_at np_pow vars n (ri_condition r) k b /\
           stream_rate_means (ri_type r) v b g s /\ tons (ri_unit r) s x) \/
        (~ In name (map fst es) /\ x = 0%Qc)
    | OilEmitter volume es =>
        (exists factor v b s f, last_named es name factor /\ evaluates_at np_pow vars n (ri_value volume) k v /\
           condition_at np_pow vars n (ri_condition volume) k b /\ stream_rate_means (ri_type volume) v b g s /\
           evaluates_at np_pow vars n factor k f /\ x = (s * f / qz 1000)%Qc) \/
        (~ In name (map fst es) /\ x = 0%Qc)
    end.
  Definition emission_of (name : string) (k : nat) (i : yaml_installation M) (s : shown) (x : Qc) : Prop :=
    exists g us vs, regularity_at i k g /\ Forall2 (burns name k) (users s) us /\
      Forall2 (fun y => vents name k g (yv_emitter y)) (yi_venting_emitters i) vs /\ x = (g * (qsum us + qsum vs))%Qc.
  Definition emitter_names (e : emitter) : list string :=
    match e with DirectEmitter es => map fst es | OilEmitter _ es => map fst es end.
  Definition names (i : yaml_installation M) (s : shown) (name : string) : Prop :=
    (exists u t m, In u (users s) /\ in_force (fst u) t m /\ In name (map fst m)) \/
    (exists y, In y (yi_venting_emitters i) /\ In name (emitter_names (yv_emitter y))).

  (** the total of a power: missing if there is nothing to add up; in GWh, when powers are numbers that are not negative,
      what has been used on average so far *)
  Definition power_reported (parts : shown -> list (list num)) (installations : list (yaml_installation M)) (below : list shown)
      (power : option rate_series) (c : option (series num)) : Prop :=
    match power, c with
    | None, None => forall s, In s below -> parts s = []
    | Some r, Some e =>
        (exists s, In s below /\ parts s <> []) /\ power_ok ps r /\
        (forall k, (k < n)%nat -> over_asset (power_of parts k) installations below (number_at (r_values r) k)) /\
        s_unit e = GIGA_WATT_HOURS /\
        ((forall s v x, In s below -> In v (parts s) -> In x v -> exists q, x = Some q /\ (0 <= q)%Qc) ->
         exists average, List.length average = n /\ runs_up ps (qc 24 1000) average e /\
           forall k, (k < n)%nat -> over_asset (average_power_of parts k) installations below (number_at average k))
    | _, _ => False
    end.
  (** the totals of the asset *)
  Definition totals_reported (installations : list (yaml_installation M)) (below : list shown) (t : Totals_Model.totals) : Prop :=
    fuel_ok ps (Totals_Model.t_energy t) /\ r_type (Totals_Model.t_energy t) = CALENDAR_DAY /\
    (forall k, (k < n)%nat -> over_asset (fuel_of k) installations below (number_at (r_values (Totals_Model.t_energy t)) k)) /\
    s_unit (Totals_Model.t_energy_cumulative t) = STANDARD_CUBIC_METER /\
    runs_up ps 1%Qc (r_values (Totals_Model.t_energy t)) (Totals_Model.t_energy_cumulative t) /\
    power_reported electrical installations below (Totals_Model.t_electrical t) (Totals_Model.t_electrical_cumulative t) /\
    power_reported mechanical installations below (Totals_Model.t_mechanical t) (Totals_Model.t_mechanical_cumulative t) /\
    power_reported (fun s => electrical s ++ mechanical s) installations below (Totals_Model.t_power t) (Totals_Model.t_power_cumulative t) /\
    export_ok ps (Totals_Model.t_export t) /\
    (forall k, (k < n)%nat -> over_asset (export_of k) installations below (number_at (r_values (Totals_Model.t_export t)) k)) /\
    NoDup (map (fun e => fst (fst e)) (Totals_Model.t_emissions t)) /\
    (forall name, In name (map (fun e => fst (fst e)) (Totals_Model.t_emissions t)) <->
       exists p, In p (combine installations below) /\ names (fst p) (snd p) name) /\
    forall name r c, In (name, r, c) (Totals_Model.t_emissions t) ->
      emission_ok ps (name, r) /\ r_type r = CALENDAR_DAY /\ s_unit c = TONS /\ runs_up ps 1%Qc (r_values r) c /\
      forall k, (k < n)%nat -> over_asset (emission_of name k) installations below (number_at (r_values r) k).

  (** ** The setting *)
  (** the factors of a fuel can be evaluated; an emission is listed once *)
  Definition fuels_sound (fuels : list (string * fuel_type)) : Prop :=
    forall f fuel, dict_get String.eqb f fuels = Some fuel ->
      NoDup (map fst fuel) /\ forall name ts, In (name, ts) fuel -> exists v, evaluate np_pow ts vars n = Ok v.
  Definition rate_sound (r : rate_input) : Prop :=
    (exists v, evaluate np_pow (ri_value r) vars n = Ok v) /\ (forall c, ri_condition r = Some c -> exists m, evaluate np_pow c vars n = Ok m).
  (** mass rates in kg/d or t/d, oil rates in Sm3/d, and everything can be evaluated *)
  Definition emitter_sound (e : emitter) : Prop :=
    match e with
    | DirectEmitter es => forall name r, In (name, r) es -> (ri_unit r = KILO_PER_DAY \/ ri_unit r = TONS_PER_DAY) /\ rate_sound r
    | OilEmitter volume es =>
        ri_unit volume = STANDARD_CUBIC_METER_PER_DAY /\ rate_sound volume /\
        forall name factor, In (name, factor) es -> exists v, evaluate np_pow factor vars n = Ok v
    end.
  (** fuels change between periods *)
  Definition fuel_dates_sound (i : yaml_installation M) : Prop :=
    forall data, (yi_fuel i = Some data \/ (exists y, In y (yi_generator_sets i) /\ yg_fuel y = Some data) \/
                  (exists y, In y (yi_fuel_consumers i) /\ yf_fuel y = Some data)) ->
      forall t, In t (data_dates data) -> uncut ps t.
  Definition report_setting (fuels : list (string * fuel_type)) (installations : list (yaml_installation M)) : Prop :=
    installations <> [] /\ (forall r l, dict_get String.eqb r vars = Some l -> List.length l = n) /\ fuels_sound fuels /\
    forall i, In i installations -> fuel_dates_sound i /\ forall y, In y (yi_venting_emitters i) -> emitter_sound (yv_emitter y).
End Reported.

(** Model of what an installation offers for export (src/libecalc/presentation/exporter/infrastructure.py). *)
From Coq Require Import String PeanoNat.
From Verif Require Import QcTac Num Time_Model Units_Model Rates_Model Numbers_Model Base Export_Model.
Local Open Scope list_scope.

(** Categories as CategoryService.get_category gives them (yaml_mapping_context.py:38-43): a temporal model, the result of
    [temporal_model_create], or None for components without a category. *)
Definition categories : Type := list (period * string).

(** domain/installation.py: what the exporter reads of the components.  The category of a component is stored with it in place
    of its id.  A fuel is represented by its category. *)
Record producer : Type := mkProducer { pr_category : option categories; pr_production : rate_series; pr_maximum : option rate_series }.
Record container : Type := mkContainer { co_category : option categories; co_rates : rate_series }.
Record fuel_consumer : Type := mkFuelConsumer { fc_category : option categories; fc_fuel : list (period * option categories); fc_rate : rate_series }.
Record power_consumer : Type := mkPowerConsumer { pc_category : option categories; pc_producer : option (option categories); pc_rate : rate_series }.
Record emitter : Type := mkEmitter { em_category : option categories; em_fuel : option (list (period * option categories)); em_emissions : list (string * rate_series) }.
Record installation : Type := mkInstallation {
  in_name : string; in_category : option categories; in_periods : list period;
  in_producers : list producer; in_containers : list container; in_fuel_consumers : list fuel_consumer;
  in_power_consumers : list power_consumer; in_emitters : list emitter }.

(** 27-37, TimeSeriesAttribute, with rates.py:278-279, datapoints *)
Definition attribute_of (m : meta) (s : series num) : attribute := mkAttribute m (zip (s_periods s) (s_values s)).

(** rates.py:326-329 for a series of rates *)
Definition rate_to_unit (s : rate_series) (u : unit_) : result rate_series :=
  if unit_eqb u (r_unit s) then Ok s
  else do f <- unit_to (r_unit s) u; Ok (mkRate (r_periods s) (map (option_map f) (r_values s)) u (r_type s) (r_regularity s)).

(** items() of a temporal model that may be None: AttributeError *)
Definition items (c : option categories) : result categories := of_option OtherError c.

(** rate.for_period(period).to_volumes().to_unit(unit) *)
Definition volumes_for (s : rate_series) (p : period) (u : unit_) : result (series num) :=
  do r <- rate_for_period s p; do v <- rate_to_volumes r; series_to_unit v u.

(** 46-65, get_electricity_production *)
Definition electricity_production (i : installation) (u : unit_) : result (list attribute) :=
  do ls <- mapM (fun x =>
    do c <- items (pr_category x);
    mapM (fun pc => do v <- volumes_for (pr_production x) (fst pc) u; Ok (attribute_of (mkMeta None None (Some (snd pc)) None) v)) c) (in_producers i);
  Ok (concat ls).

(** 67-89, get_maximum_electricity_production *)
Definition maximum_electricity_production (i : installation) (u : unit_) : result (list attribute) :=
  do ls <- mapM (fun x =>
    match pr_maximum x with
    | None => Ok []
    | Some m =>
        do c <- items (pr_category x);
        mapM (fun pc => do r <- rate_for_period m (fst pc); do r <- rate_to_unit r u;
          Ok (mkAttribute (mkMeta None None (Some (snd pc)) None) (zip (r_periods r) (r_values r)))) c
    end) (in_producers i);
  Ok (concat ls).

(** 91-110, get_storage_volumes *)
Definition storage_volumes (i : installation) (u : unit_) : result (list attribute) :=
  do ls <- mapM (fun x =>
    do v <- rate_to_volumes (co_rates x); do v <- series_to_unit v u;
    do c <- items (co_category x);
    mapM (fun pc => do s <- series_for_period v (fst pc); Ok (attribute_of (mkMeta None (Some (snd pc)) None None) s)) c) (in_containers i);
  Ok (concat ls).

(** 112-118, get_category *)
Definition installation_category (i : installation) : result (option string) :=
  match in_category i with
  | None => Ok None
  | Some [(_, c)] => Ok (Some c)
  | Some _ => Err AssertionError
  end.

(** 125-180, _combine_categories.  148-166: a category that is not defined in a period is None there *)
Definition dates_of_model {M} (tm : option (list (period * M))) : list datetime :=
  match tm with Some l => flat_map (fun e => [p_start (fst e); p_end (fst e)]) l | None => [] end.
Definition category_in {M} (tm : option (list (period * M))) (p : period) : option M :=
  match tm with Some l => match get_model_for_period l p with Ok m => Some m | Err _ => None end | None => None end.
Definition is_some {M} (o : option M) : bool := match o with Some _ => true | None => false end.
Definition combine_categories (fuel : option (list (period * option string))) (consumer producer : option categories) : result (list (period * meta)) :=
  if Nat.ltb (List.length (filter (fun b => b) [is_some fuel; is_some consumer; is_some producer])) 2 then Err ProgrammingError
  else
    let timesteps := dates_of_model fuel ++ dates_of_model consumer ++ dates_of_model producer in
    Ok (map (fun p => (p, mkMeta (match category_in fuel p with Some c => c | None => None end) (category_in consumer p) (category_in producer p) None))
         (create_periods (sorted_set timesteps) false false)).

(** 182-198, _get_temporal_fuel_category: a dict of periods, which must be sorted (temporal_model.py:78-79) *)
Definition fuel_category (fuel : list (period * option categories)) : result (list (period * option string)) :=
  do d <- fold_left (fun acc e =>
    do d <- acc;
    match snd e with
    | None => Ok (dict_set period_eqb (fst e) None d)
    | Some c =>
        fold_left (fun acc pc => do d <- acc; do p <- of_option AssertionError (intersection (fst e) (fst pc)); Ok (dict_set period_eqb p (Some (snd pc)) d)) c (Ok d)
    end) fuel (Ok []);
  temporal_model_of_periods d.

(** 200-219, get_fuel_consumption *)
Definition fuel_consumption (i : installation) : result (list attribute) :=
  do ls <- mapM (fun x =>
    do f <- fuel_category (fc_fuel x);
    do ws <- combine_categories (Some f) (fc_category x) None;
    mapM (fun pm => do r <- rate_for_period (fc_rate x) (fst pm); do v <- rate_to_volumes r; Ok (attribute_of (snd pm) v)) ws) (in_fuel_consumers i);
  Ok (concat ls).

(** 221-260, get_power_consumption *)
Definition power_windows (x : power_consumer) : result (list (period * meta)) :=
  do c <- of_option AssertionError (pc_category x);
  match pc_producer x with
  | Some producer => do p <- of_option AssertionError producer; combine_categories None (Some c) (Some p)
  | None => Ok (map (fun pc => (fst pc, mkMeta None (Some (snd pc)) None None)) c)
  end.
Definition power_consumption (i : installation) (u : unit_) : result (list attribute) :=
  do ls <- mapM (fun x =>
    do ws <- power_windows x;
    mapM (fun pm => do v <- volumes_for (pc_rate x) (fst pm) u; Ok (attribute_of (mkMeta None (m_consumer (snd pm)) (m_producer (snd pm)) None) v)) ws) (in_power_consumers i);
  Ok (concat ls).

(** 262-295, get_emissions *)
Definition emission_windows (x : emitter) : result (list (period * meta)) :=
  do c <- of_option AssertionError (em_category x);
  match em_fuel x with
  | Some fuel => do f <- fuel_category fuel; combine_categories (Some f) (Some c) None
  | None => Ok (map (fun pc => (fst pc, mkMeta None (Some (snd pc)) None None)) c)
  end.
Definition emissions (i : installation) (u : unit_) : result (list attribute) :=
  do ls <- mapM (fun x =>
    do ws <- emission_windows x;
    do rs <- mapM (fun pm => mapM (fun ne => do v <- volumes_for (snd ne) (fst pm) u;
      Ok (attribute_of (mkMeta (m_fuel (snd pm)) (m_consumer (snd pm)) None (Some (fst ne))) v)) (em_emissions x)) ws;
    Ok (concat rs)) (in_emitters i);
  Ok (concat ls).

(** 40-300, InstallationExportable.  (The category is looked up once here, and its assertion fails here instead of in the queries
    that ask for a category.) *)
Definition exportable_of (i : installation) : result exportable :=
  do c <- installation_category i;
  Ok (mkExportable (in_name i) c (in_periods i) (fuel_consumption i) (power_consumption i) (emissions i) (electricity_production i)
    (maximum_electricity_production i) (storage_volumes i)).

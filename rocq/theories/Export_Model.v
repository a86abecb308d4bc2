(** Model of the export of results to tables (src/libecalc/presentation/exporter). *)
From Coq Require Import String PeanoNat.
From Verif Require Import QcTac Num Time_Model Units_Model Rates_Model Numbers_Model Base.
Local Open Scope list_scope.

(** ** domain/exportable.py *)

(** 20-25, AttributeMeta *)
Record meta : Type := mkMeta { m_fuel : option string; m_consumer : option string; m_producer : option string; m_emission : option string }.
(** 28-33, Attribute (an AttributeSet is a list of these) *)
Record attribute : Type := mkAttribute { a_meta : meta; a_points : list (period * num) }.

(** 44-70, Exportable.  The sets that depend on a unit are functions of it; they may fail. *)
Record exportable : Type := mkExportable {
  e_name : string; e_category : option string; e_periods : list period;
  e_fuel_consumption : result (list attribute);
  e_power_consumption : unit_ -> result (list attribute);
  e_emissions : unit_ -> result (list attribute);
  e_electricity_production : unit_ -> result (list attribute);
  e_maximum_electricity_production : unit_ -> result (list attribute);
  e_storage_volumes : unit_ -> result (list attribute) }.

(** ** queries.py *)

(** the six query classes: FuelQuery 40-99, StorageVolumeQuery 102-142, EmissionQuery 145-193,
    ElectricityGeneratedQuery 196-232, MaxUsageFromShoreQuery 235-275, PowerConsumptionQuery 278-323 *)
Inductive kind : Type := Fuel | StorageVolume | EmissionMass | ElectricityGenerated | MaxUsageFromShore | PowerConsumption.
(** the filters of all classes; a class without a filter has None *)
Record query : Type := mkQuery {
  q_kind : kind; q_installation : option string; q_consumers : option (list string); q_producers : option (list string);
  q_fuel : option string; q_emission : option string }.

Definition text_eqb (a b : option string) : bool :=
  match a, b with Some x, Some y => String.eqb x y | None, None => true | _, _ => false end.

(** "filter is not None and value != filter" *)
Definition differs (wanted : option string) (value : option string) : bool :=
  match wanted with None => false | Some _ => negb (text_eqb value wanted) end.
(** "filter is not None and value not in filter" *)
Definition not_among (wanted : option (list string)) (value : option string) : bool :=
  match wanted with
  | None => false
  | Some l => match value with Some x => negb (existsb (String.eqb x) l) | None => true end
  end.

(** the "continue" statements of the loops: 75-79, 121-122, 167-174, 215-216, 254-255, 299-303 *)
Definition skipped (q : query) (m : meta) : bool :=
  match q_kind q with
  | Fuel => differs (q_fuel q) (m_fuel m) || not_among (q_consumers q) (m_consumer m)
  | StorageVolume => not_among (q_consumers q) (m_consumer m)
  | EmissionMass => differs (q_fuel q) (m_fuel m) || not_among (q_consumers q) (m_consumer m) || differs (q_emission q) (m_emission m)
  | ElectricityGenerated | MaxUsageFromShore => not_among (q_producers q) (m_producer m)
  | PowerConsumption => not_among (q_producers q) (m_producer m) || not_among (q_consumers q) (m_consumer m)
  end.

(** the attributes a query runs over: 73, 118, 165, 212, 251, 296 *)
Definition attributes_of (e : exportable) (k : kind) (u : unit_) : result (list attribute) :=
  match k with
  | Fuel => e_fuel_consumption e
  | StorageVolume => e_storage_volumes e u
  | EmissionMass => e_emissions e u
  | ElectricityGenerated => e_electricity_production e u
  | MaxUsageFromShore => e_maximum_electricity_production e u
  | PowerConsumption => e_power_consumption e u
  end.

(** 81-82, aggregated_result[period] += value, on a defaultdict(float) *)
Definition add_point (d : list (period * num)) (pv : period * num) : list (period * num) :=
  dict_set period_eqb (fst pv) (nadd (match dict_get period_eqb (fst pv) d with Some v => v | None => Some 0%Qc end) (snd pv)) d.
Definition aggregated (q : query) (l : list attribute) : list (period * num) :=
  fold_left (fun d a => if skipped q (a_meta a) then d else fold_left add_point (a_points a) d) l [].

(** 84-90, sorted by period (the periods are keys, so values never decide), then laid over zeros for the periods of the
    installation *)
Definition laid_out (ps : list period) (d : list (period * num)) : list (period * num) :=
  fold_left (fun acc pv => dict_set period_eqb (fst pv) (snd pv) acc) (sort (fun a b => period_leb (fst a) (fst b)) d)
    (fold_left (fun acc p => dict_set period_eqb p (Some 0%Qc) acc) ps []).

(** rates.py:334-335, fill_nan *)
Definition fill_nan (s : series num) (v : Qc) : series num :=
  mkSeries (s_periods s) (map (fun x => match x with Some y => Some y | None => Some v end) (s_values s)) (s_unit s).

(** {periods[i]: values[i]} *)
Definition to_dict (s : series num) : list (period * num) :=
  fold_left (fun d pv => dict_set period_eqb (fst pv) (snd pv) d) (zip (s_periods s) (s_values s)) [].

(** rates.py:181-208, TimeSeries.resample for floats: missing values and NaN are filled forward alike *)
Definition float_resample (s : series num) (f : frequency) : result (series num) :=
  match f with
  | FreqNone => Ok s
  | _ =>
      do new <- resample_periods (s_periods s) f true true;
      make_series new (ffill (map (fun v => match v with Some w => w | None => None end)
        (reindex (start_dates (s_periods s)) (s_values s) (start_dates new)))) (s_unit s)
  end.
(** rates.py:177-179, max(values): a value replaces the largest so far only if it compares greater *)
Definition max_value (l : list num) : result num :=
  match l with
  | [] => Err ValueError
  | x :: rest => Ok (fold_left (fun m v => match m, v with Some a, Some b => if Qcltb a b then v else m | _, _ => m end) rest x)
  end.

(** 84-99 and the same lines of the other classes: from the sums to the exported values.  187-188: emissions go to kilos and
    back.  259-275: the maximum usage is a series of levels instead of volumes *)
Definition as_series (d : list (period * num)) (u : unit_) : result (series num) := make_series (map fst d) (map snd d) u.
Definition resampled (k : kind) (ps : list period) (d : list (period * num)) (u : unit_) (f : frequency) : result (list (period * num)) :=
  match k with
  | MaxUsageFromShore =>
      do new <- resample_periods ps f true true;
      do rows <- mapM (fun p =>
        do s <- as_series d u; do s <- float_resample s f; do s <- series_for_period s p; do m <- max_value (s_values s);
        Ok (p, m)) new;
      Ok (fold_left (fun acc pv => dict_set period_eqb (fst pv) (snd pv) acc) rows [])
  | EmissionMass =>
      do s <- as_series d u; do s <- volumes_resample s f true true;
      do s <- series_to_unit s KILO; do s <- series_to_unit s u; Ok (to_dict (fill_nan s 0))
  | _ => do s <- as_series d u; do s <- volumes_resample s f true true; Ok (to_dict (fill_nan s 0))
  end.

(** 69-70, the installation has another category *)
Definition other_installation (q : query) (e : exportable) : bool :=
  match q_installation q with Some c => negb (text_eqb (Some c) (e_category e)) | None => false end.

(** 63-99 and the same lines of the other classes, Query.query *)
Definition run_query (q : query) (e : exportable) (u : unit_) (f : frequency) : result (option (list (period * num))) :=
  if other_installation q e then Ok None
  else
    do l <- attributes_of e (q_kind q) u;
    do r <- resampled (q_kind q) (e_periods e) (laid_out (e_periods e) (aggregated q l)) u f;
    Ok (Some r).

(** ** appliers.py *)

(** a cell of the table: a number or a text; the text of NaN is "nan", [None] here *)
Inductive cell : Type := Number (x : num) | Text (t : option text).

(** 43-62, the modifiers.  A chain (14-30) is a list, the first to be applied first. *)
Inductive modifier : Type := Null | Invert | Format.
Definition LTP_PRECISION : Z := 6.
(** formatting or negating a text does not occur: -1.0 * text is a TypeError *)
Definition modify_cell (m : modifier) (c : cell) : result cell :=
  match m, c with
  | Null, _ => Ok c
  | Invert, Number (Some x) => Ok (Number (Some (if Qceqb x 0 then 0 else - (1) * x)%Qc))
  | Invert, Number None => Ok (Number None)
  | Format, Number (Some x) => do t <- format_to_precision x LTP_PRECISION; Ok (Text (Some t))
  | Format, Number None => Ok (Text None)
  | _, Text _ => Err TypeError
  end.
Definition modify (ms : list modifier) (d : list (period * num)) : result (list (period * cell)) :=
  fold_left (fun r m => do l <- r; mapM (fun pc => do c <- modify_cell m (snd pc); Ok (fst pc, c)) l) ms
    (Ok (map (fun pv => (fst pv, Number (snd pv))) d)).

(** 65-103, Applier *)
Record applier : Type := mkApplier { ap_name : string; ap_title : string; ap_unit : unit_; ap_query : query; ap_modifiers : list modifier }.
(** dto/dtos.py:25-45, QueryResult *)
Record query_result : Type := mkQueryResult { qr_name : string; qr_title : string; qr_unit : unit_; qr_values : list (period * cell) }.
Definition apply_applier (a : applier) (e : exportable) (f : frequency) : result (option query_result) :=
  do v <- run_query (ap_query a) e (ap_unit a) f;
  match v with
  | Some ((_ :: _) as values) => do c <- modify (ap_modifiers a) values; Ok (Some (mkQueryResult (ap_name a) (ap_title a) (ap_unit a) c))
  | _ => Ok None
  end.

(** ** aggregators.py:50-86, InstallationAggregator.aggregate: the results of each installation *)
Definition aggregate (f : frequency) (appliers : list applier) (installations : list exportable) : result (list (string * list query_result)) :=
  mapM (fun e =>
    do rs <- mapM (fun a => apply_applier a e f) appliers;
    Ok (e_name e, flat_map (fun r => match r with Some x => [x] | None => [] end) rs)) installations.

(** ** dto/dtos.py:54-88, FormattableGroupedQuery: all columns must have the same periods; the rows are the periods in order *)
Definition same_keys (a b : list period) : bool :=
  forallb (fun p => existsb (period_eqb p) b) a && forallb (fun p => existsb (period_eqb p) a) b.
Definition row_periods (l : list query_result) : result (list period) :=
  match l with
  | [] => Ok []
  | r :: rest =>
      if forallb (fun r' => same_keys (map fst (qr_values r)) (map fst (qr_values r'))) rest
      then Ok (sort period_leb (map fst (qr_values r))) else Err AssertionError
  end.
(** 78-88, get_column and get_value *)
Definition get_column (l : list query_result) (c : string) : result query_result :=
  of_option OtherError (find (fun r => String.eqb (qr_name r) c) l).
Definition get_value (l : list query_result) (p : period) (c : string) : result cell :=
  do r <- get_column l c; of_option KeyError (dict_get period_eqb p (qr_values r)).

(** formatters/formatter.py:26-46, CSVFormatter.format: the column names, and a row of cells for every period.  (The texts of
    the row index, a year and a month, and the joining by separators are not modelled.) *)
Definition table (l : list query_result) : result (list string * list (period * list cell)) :=
  do rows <- row_periods l;
  let columns := map qr_name l in
  do cells <- mapM (fun p => do cs <- mapM (get_value l p) columns; Ok (p, cs)) rows;
  Ok (columns, cells).

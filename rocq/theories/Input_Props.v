(** C24, C25, C51: time series input and the periods of the model. *)
From Coq Require Import PeanoNat String Ascii.
From Verif Require Import QcTac Base BaseLemmas Time_Model Time_Spec Input_Model Input_Spec Input_Proofs Input_Proofs2.
Local Open Scope list_scope.
Local Open Scope Z_scope.

(** C24: a fitted series has the value of the rule on every date of the time vector. *)
Theorem C24_fit : forall s tv, ts_dates s <> [] -> increasing (ts_dates s) ->
  length (ts_values s) = length (ts_dates s) -> nondecreasing tv ->
  exists f, fit_to_time_vector s tv = Ok f /\ ts_dates f = tv /\ ts_reference f = ts_reference s /\
    length (ts_values f) = length tv /\
    forall k t, nth_error tv k = Some t ->
      exists v, nth_error (ts_values f) k = Some v /\
        value_rule (ts_interpolation s) (ts_extrapolate s) (combine (ts_dates s) (ts_values s)) t v.
Proof. exact fit_proof. Qed.
Print Assumptions C24_fit.

(** C24: the rule leaves no choice. *)
Theorem C24_rule_determines : forall kind ex data t v w, data <> [] -> NoDup (map fst data) ->
  value_rule kind ex data t v -> value_rule kind ex data t w -> v = w.
Proof. exact value_rule_determines_proof. Qed.
Print Assumptions C24_rule_determines.

(** C24: the order in which a resource lists its dates does not matter. *)
Theorem C24_any_order : forall c h column tv,
  get_column (tsr_resource (tc_resource c)) h = Ok column ->
  tsr_dates (tc_resource c) <> [] -> NoDup (tsr_dates (tc_resource c)) ->
  length column = length (tsr_dates (tc_resource c)) -> nondecreasing tv ->
  exists s f, collection_series c h = Ok s /\ ts_reference s = join_semicolon (tc_name c) h /\
    fit_to_time_vector s tv = Ok f /\ length (ts_values f) = length tv /\
    forall k t, nth_error tv k = Some t ->
      exists v, nth_error (ts_values f) k = Some v /\
        value_rule (tc_interpolation c) (tc_extrapolation c) (combine (tsr_dates (tc_resource c)) column) t v.
Proof. exact collection_series_proof. Qed.
Print Assumptions C24_any_order.

Definition some_series := mkTS "A;X" [10; 20; 40] [qz 1; qz 3; qz 7] true LINEAR.
Example C24_case : exists f, fit_to_time_vector some_series [5; 10; 15; 30; 40; 50] = Ok f /\
  map this (ts_values f) = map this [qz 0; qz 1; qz 2; qz 5; qz 7; qz 7] /\
  ts_dates some_series <> [] /\ increasing (ts_dates some_series) /\ nondecreasing [5; 10; 15; 30; 40; 50].
Proof.
  eexists. split; [vm_compute; reflexivity|]. split; [vm_compute; reflexivity|].
  repeat split; try discriminate; cbn; lia.
Qed.

(** C25: the global time vector is increasing, goes from the start to the end of the model and has exactly the dates
    between them that are START, END, a date of an influencing series or an additional date; without a positive
    duration it is refused. *)
Theorem C25_time_vector : forall tv stop start extra a, model_start start tv a ->
  (a < stop ->
   exists g, get_global_time_vector tv stop start extra = Ok g /\ increasing g /\
     hd_error g = Some a /\ last_opt g = Some stop /\
     forall d, In d g <-> (a <= d <= stop /\ (d = a \/ d = stop \/ In d tv \/ In d extra))) /\
  (stop <= a -> get_global_time_vector tv stop start extra = Err InvalidDateException).
Proof. exact global_time_vector_proof. Qed.
Print Assumptions C25_time_vector.

(** C25: without dates and START there is no time vector. *)
Theorem C25_no_dates : forall stop extra,
  get_global_time_vector [] stop None extra = Err ValidationError.
Proof. exact global_time_vector_none_proof. Qed.
Print Assumptions C25_no_dates.

(** C25: the dates of the series are those of the collections that influence the time vector. *)
Theorem C25_influencing : forall cs d, In d (collections_time_vector cs) <->
  exists k c, In (k, c) cs /\ tc_influence c = true /\ In d (tsr_dates (tc_resource c)).
Proof. exact influencing_dates_proof. Qed.
Print Assumptions C25_influencing.

(** C25: the periods of the model are contiguous, cover it and change exactly on those dates. *)
Theorem C25_periods : forall tv stop start extra a, model_start start tv a -> a < stop ->
  exists ps, get_model_periods tv stop start extra = Ok ps /\ contiguous ps /\ spans ps a stop /\
    forall d, is_boundary ps d <-> (a <= d <= stop /\ (d = a \/ d = stop \/ In d tv \/ In d extra)).
Proof. exact model_periods_proof. Qed.
Print Assumptions C25_periods.

Example C25_case : exists ps, get_model_periods [30; 10; 20; 20] 35 None [15; 5; 40] = Ok ps /\
  ps = [mkPeriod 10 15; mkPeriod 15 20; mkPeriod 20 30; mkPeriod 30 35] /\ model_start None [30; 10; 20; 20] 10 /\
  model_start (Some 12) [30; 10; 20; 20] 12.
Proof.
  eexists. split; [vm_compute; reflexivity|]. split; [reflexivity|].
  split; [|reflexivity]. split; [cbn; auto|]. intros d [<-|[<-|[<-|[<-|[]]]]]; lia.
Qed.

(** C51: a variable COLLECTION;HEADER has, in every period, the value of that column of that collection by the rule of
    C24, and there are variables for all columns of all collections and no others. *)
Theorem C51_reference : forall cs ps, well_named cs -> contiguous ps ->
  exists vars, series_variables cs ps = Ok vars /\
    (forall name, In name (map fst vars) <-> In name (series_references cs)) /\
    forall k c h column, In (k, c) cs -> In h (tsr_headers (tc_resource c)) ->
      get_column (tsr_resource (tc_resource c)) h = Ok column ->
      exists vs, dict_get String.eqb (join_semicolon k h) vars = Some vs /\ List.length vs = List.length ps /\
        forall i p, nth_error ps i = Some p ->
          exists v, nth_error vs i = Some v /\
            value_rule (tc_interpolation c) (tc_extrapolation c) (combine (tsr_dates (tc_resource c)) column) (p_start p) v.
Proof. exact series_variables_proof. Qed.
Print Assumptions C51_reference.

(** C51: which column holds the dates, and that the others, in order, are the series. *)
Theorem C51_date_column : forall parse r res, NoDup (map lower (mr_headers r)) -> List.length (mr_headers r) = List.length (mr_data r) ->
  make_ts_resource parse r = Ok res ->
  exists h i column, date_column (mr_headers r) h /\ nth_error (mr_headers r) i = Some h /\ nth_error (mr_data r) i = Some column /\
    parse column = Ok (tsr_dates res) /\ tsr_resource res = r /\
    tsr_headers res = filter (fun x => negb (String.eqb x h)) (mr_headers r).
Proof. exact date_column_proof. Qed.
Print Assumptions C51_date_column.

(** C51: a validated resource has dates without repetition and a value on each date in every column. *)
Theorem C51_validated : forall r, validate_ts_resource r = Ok tt ->
  tsr_dates r <> [] /\ NoDup (tsr_dates r) /\
  forall h, In h (tsr_headers r) -> exists column, get_column (tsr_resource r) h = Ok column /\ List.length column = List.length (tsr_dates r).
Proof. exact validate_ok. Qed.
Print Assumptions C51_validated.

(** C51: when headers differ by more than letter case, a header finds its own column. *)
Theorem C51_own_column : forall r i h column, NoDup (map lower (mr_headers r)) ->
  nth_error (mr_headers r) i = Some h -> nth_error (mr_data r) i = Some column -> get_column r h = Ok column.
Proof. exact get_column_proof. Qed.
Print Assumptions C51_own_column.

(** C51: headers that differ only in letter case both give the first of the columns. *)
Theorem C51_case_refuted : exists r h column, NoDup (mr_headers r) /\
  nth_error (mr_headers r) 1 = Some h /\ nth_error (mr_data r) 1 = Some column /\ get_column r h <> Ok column.
Proof. exact get_column_case_refuted_proof. Qed.
Print Assumptions C51_case_refuted.

(** C51: of several collections with one name the last whose file is there counts. *)
Theorem C51_last_counts : forall ys resources, resources <> [] ->
  let cs := collections_create ys resources in
  NoDup (map fst cs) /\ (forall k c, In (k, c) cs -> tc_name c = k) /\
  forall k c, dict_get String.eqb k cs = Some c <->
    exists l y r rest, ys = l ++ y :: rest /\ yc_name y = k /\ dict_get String.eqb (yc_file y) resources = Some r /\
      as_configured y r c /\
      forall y', In y' rest -> yc_name y' = k -> dict_get String.eqb (yc_file y') resources = None.
Proof. exact collections_create_proof. Qed.
Print Assumptions C51_last_counts.

(** C51: a reference splits into its collection and its header. *)
Theorem C51_split : forall a b, no_semicolon a -> no_semicolon b -> split_semicolon (join_semicolon a b) = [a; b].
Proof. exact split_join. Qed.
Print Assumptions C51_split.

Definition some_resource := mkTSResource (mkResource ["Date"; "OIL"; "Gas"]%string [[qz 0; qz 0]; [qz 5; qz 6]; [qz 7; qz 8]]) ["OIL"; "Gas"]%string [20; 10].
Definition some_collections := collections_create
  [mkYamlCollection "SIM" "missing.csv" true YamlDefault; mkYamlCollection "SIM" "sim.csv" true YamlDefault]%string
  [("sim.csv"%string, some_resource)].
Example C51_case : well_named some_collections /\
  exists vars, series_variables some_collections [mkPeriod 10 15; mkPeriod 15 20; mkPeriod 20 30; mkPeriod 30 40] = Ok vars /\
    map fst vars = ["SIM;OIL"; "SIM;Gas"]%string /\
    dict_get String.eqb "SIM;OIL"%string vars = Some [qz 6; qz 6; qz 5; qz 0].
Proof.
  split.
  - split; [repeat constructor; cbn; tauto|]. intros k c [[= <- <-]|[]].
    split; [reflexivity|]. split; [cbn; intuition discriminate|]. split; [vm_compute; reflexivity|].
    intros h [<-|[<-|[]]]; cbn; intuition discriminate.
  - eexists. split; [vm_compute; reflexivity|]. split; [reflexivity|]. vm_compute. reflexivity.
Qed.
Example C51_date_column_case : exists res,
  make_ts_resource (fun l => Ok (map (fun q => Qnum (this q)) l)) (mkResource ["OIL"; "DATES"; "Gas"]%string [[qz 5]; [qz 20]; [qz 7]]) = Ok res /\
  tsr_headers res = ["OIL"; "Gas"]%string /\ tsr_dates res = [20].
Proof. eexists. split; [vm_compute; reflexivity|]. split; reflexivity. Qed.

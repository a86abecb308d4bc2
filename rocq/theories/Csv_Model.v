(** Model of presentation/json_result/result/tabular_time_series.py and of the csv output of infrastructure/file_utils.py. *)
From Coq Require Import PeanoNat String Ascii.
From Verif Require Import Base Time_Model Num.
Local Open Scope list_scope.

(** ** tabular_time_series.py:40-42, results: named attributes, some of them time series, some of them lists or dicts of further results *)
(** the kinds of series told apart at 64-70 *)
Inductive rate_kind : Type := StreamDay | CalendarDay.
(** as above *)
Inductive series_kind : Type := Rate (r : rate_kind) | Cumulative | Other.
(** utils/rates.py: a time series with the text of its unit; values of a TimeSeriesBoolean are 0 and 1 here (61-62) *)
Record shown_series : Type := mkShown { sh_kind : series_kind; sh_unit : string; sh_periods : list period; sh_values : list num }.
(** Simplified: a list and a dict of results are one thing (the keys of the dict are not used for the columns); [AOther]: anything
    that is no series and no such list, among them empty and mixed lists; [ATab]: one result. *)
Inductive attribute : Type := ASeries (s : shown_series) | ATabs (items : list tabular) | ATab (item : tabular) | AOther
with tabular : Type := mkTabular (name : string) (periods : list period) (attributes : list (string * attribute)).
(** 41 *)
Definition tab_name (t : tabular) : string := match t with mkTabular n _ _ => n end.

(** str.replace(old, new): every occurrence from the left, for an old text that is not empty *)
Fixpoint replace_text (old new s : string) (skip : nat) : string :=
  match s with
  | EmptyString => EmptyString
  | String c r =>
      match skip with
      | S k => replace_text old new r k
      | O => if String.prefix old s then (new ++ replace_text old new r (String.length old - 1))%string else String c (replace_text old new r 0)
      end
  end.
(** 62-70, the unit in the name of the column *)
Definition unit_shown (kind : series_kind) (unit : string) : string :=
  match kind with
  | Rate r =>
      let extension := match r with StreamDay => "sd"%string | CalendarDay => "cd"%string end in
      if String.eqb unit "MW" then replace_text "MW" ("MW (" ++ extension ++ ")") unit 0
      else replace_text "/d" ("/" ++ extension) unit 0
  | Cumulative => replace_text unit (unit ++ " (cd)") unit 0
  | Other => unit
  end.
(** 72 *)
Definition column_name (attribute : string) (s : shown_series) : string := (attribute ++ "[" ++ unit_shown (sh_kind s) (sh_unit s) ++ "]")%string.

(** ** pandas: a frame with dates as index.  Dates are all different (those of periods are). *)
Record frame : Type := mkFrame { fr_index : list Z; fr_columns : list (string * list num) }.
(** DataFrame({name: values}, index=...) *)
Definition one_column (name : string) (values : list num) (index : list Z) : result frame :=
  if Nat.eqb (List.length values) (List.length index) then Ok (mkFrame index [(name, values)]) else Err ValueError.
(** DataFrame.join: the rows of the left frame; NaN where the right one has no such row; overlapping names are refused *)
Definition value_on (index : list Z) (values : list num) (d : Z) : num :=
  match dict_get Z.eqb d (zip index values) with Some v => v | None => None end.
(** as above: a name of both frames *)
Definition overlap (a b : frame) : bool := existsb (fun x => existsb (String.eqb x) (map fst (fr_columns a))) (map fst (fr_columns b)).
(** as above *)
Definition join (a b : frame) : result frame :=
  if overlap a b then Err ValueError
  else Ok (mkFrame (fr_index a) (fr_columns a ++ map (fun c => (fst c, map (value_on (fr_index b) (snd c)) (fr_index a))) (fr_columns b))).
(** DataFrame.add_prefix(f"{prefix}.") *)
Definition add_prefix (prefix : string) (f : frame) : frame := mkFrame (fr_index f) (map (fun c => ((prefix ++ "." ++ fst c)%string, snd c)) (fr_columns f)).

(** 45-100, to_dataframe without a prefix *)
Fixpoint to_dataframe (t : tabular) : result frame :=
  match t with
  | mkTabular _ periods attributes =>
      (fix go (l : list (string * attribute)) (f : frame) : result frame :=
         match l with
         | [] => Ok f
         | (n, a) :: r =>
             do f' <- match a with
                      | ASeries s => do c <- one_column (column_name n s) (sh_values s) (start_dates (sh_periods s)); join f c
                      | ATabs items =>
                          (fix each (items : list tabular) (f : frame) : result frame :=
                             match items with
                             | [] => Ok f
                             | it :: rest => do sub <- to_dataframe it; do f' <- join f (add_prefix (tab_name it) sub); each rest f'
                             end) items f
                      | ATab _ | AOther => Ok f
                      end;
             go r f'
         end) attributes (mkFrame (start_dates periods) [])
  end.

(** ** file_utils.py:112-127, the csv output: the table before it is written *)
(** 117-126: pd.concat(axis=1) when the names overlap.  Simplified: the frames have the same index (else OtherError). *)
Definition add_component (acc : result frame) (t : tabular) : result frame :=
  do f <- acc;
  do sub <- to_dataframe t;
  let c := add_prefix (tab_name t) sub in
  match join f c with
  | Ok f' => Ok f'
  | Err ValueError => if list_eq_dec Z.eq_dec (fr_index f) (fr_index c) then Ok (mkFrame (fr_index f) (fr_columns f ++ fr_columns c)) else Err OtherError
  | Err e => Err e
  end.
(** 112-127; Simplified: the text of the numbers and dates, and "nan" for NaN, are not modelled *)
Definition csv_table (periods : list period) (components : list tabular) : result frame :=
  fold_left add_component components (Ok (mkFrame (start_dates periods) [])).

(** ** tabular_time_series.py:102-139, resample.  [None]: Frequency.NONE; else how a series and periods are resampled. *)
Fixpoint resample_tab (series : shown_series -> result shown_series) (periods : list period -> result (list period)) (t : tabular) : result tabular :=
  match t with
  | mkTabular n ps attributes =>
      do l <- (fix go (l : list (string * attribute)) : result (list (string * attribute)) :=
                 match l with
                 | [] => Ok []
                 | (n, a) :: r =>
                     do a' <- match a with
                              | ASeries s => do s' <- series s; Ok (ASeries s')
                              | ATabs items =>
                                  do items' <- (fix each (items : list tabular) : result (list tabular) :=
                                                  match items with
                                                  | [] => Ok []
                                                  | it :: rest => do x <- resample_tab series periods it; do y <- each rest; Ok (x :: y)
                                                  end) items;
                                  Ok (ATabs items')
                              | ATab item => do x <- resample_tab series periods item; Ok (ATab x)
                              | AOther => Ok AOther
                              end;
                     do r' <- go r;
                     Ok ((n, a') :: r')
                 end) attributes;
      do ps' <- periods ps;
      Ok (mkTabular n ps' l)
  end.
(** 116-118 *)
Definition resample (how : option ((shown_series -> result shown_series) * (list period -> result (list period)))) (t : tabular) : result tabular :=
  match how with None => Ok t | Some (series, periods) => resample_tab series periods t end.

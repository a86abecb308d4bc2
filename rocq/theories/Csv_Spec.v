(** What C137 and C138 say: the columns of a result. *)
From Coq Require Import String.
From Verif Require Import Base Time_Model Num Csv_Model.
Local Open Scope list_scope.

(** The text never says "/d". *)
Definition not_per_day (s : string) : Prop := forall a b, s <> (a ++ "/d" ++ b)%string.
Definition day (r : rate_kind) : string := match r with StreamDay => "sd" | CalendarDay => "cd" end.
(** The unit a reader sees: which kind of day a rate is per, "cd" for cumulative volumes. *)
Inductive reads (kind : series_kind) (unit : string) : string -> Prop :=
| reads_power r : kind = Rate r -> unit = "MW"%string -> reads kind unit ("MW (" ++ day r ++ ")")
| reads_per_day r base : kind = Rate r -> not_per_day base -> unit = (base ++ "/d")%string -> reads kind unit (base ++ "/" ++ day r)
| reads_other_rate r : kind = Rate r -> unit <> "MW"%string -> not_per_day unit -> reads kind unit unit
| reads_cumulative : kind = Cumulative -> unit <> ""%string -> reads kind unit (unit ++ " (cd)")
| reads_other : kind = Other -> reads kind unit unit.

(** The series of a result, in the order of the attributes, each with the name of its column: that of the attribute and the unit
    [u], with the names of the nested results in front. *)
Fixpoint columns_of (u : series_kind -> string -> string) (t : tabular) : list (string * shown_series) :=
  match t with
  | mkTabular _ _ attributes =>
      flat_map (fun p : string * attribute => let (n, a) := p in
        match a with
        | ASeries s => [((n ++ "[" ++ u (sh_kind s) (sh_unit s) ++ "]")%string, s)]
        | ATabs items => flat_map (fun it => map (fun c => ((tab_name it ++ "." ++ fst c)%string, snd c)) (columns_of u it)) items
        | _ => []
        end) attributes
  end.
Definition named_columns (u : series_kind -> string -> string) (t : tabular) : list (string * shown_series) :=
  map (fun c => ((tab_name t ++ "." ++ fst c)%string, snd c)) (columns_of u t).
(** [u] gives the units as a reader sees them, for the series of the result. *)
Definition read_units (u : series_kind -> string -> string) (t : tabular) : Prop :=
  forall n s, In (n, s) (columns_of u t) -> reads (sh_kind s) (sh_unit s) (u (sh_kind s) (sh_unit s)).

(** The result itself and the results in its lists, at any depth. *)
Inductive within : tabular -> tabular -> Prop :=
| within_self t : within t t
| within_item name ps attributes n items it t :
    In (n, ATabs items) attributes -> In it items -> within it t -> within (mkTabular name ps attributes) t.
Definition periods_of (t : tabular) : list period := match t with mkTabular _ ps _ => ps end.
(** Everything in the result is about the same dates, and every series has a value for each. *)
Definition aligned (dates : list Z) (t : tabular) : Prop :=
  (forall v, within t v -> map p_start (periods_of v) = dates) /\
  (forall v n s, within t v -> match v with mkTabular _ _ attributes => In (n, ASeries s) attributes end ->
     map p_start (sh_periods s) = dates /\ List.length (sh_values s) = List.length dates).
(** The columns with their values. *)
Definition shown (l : list (string * shown_series)) : list (string * list num) := map (fun c => (fst c, sh_values (snd c))) l.

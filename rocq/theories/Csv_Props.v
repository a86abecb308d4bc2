(** Properties C137 and C138: the table of results and the resampling of results. *)
From Coq Require Import PeanoNat String Lia.
From Verif Require Import Base Time_Model Num QcTac Csv_Model Csv_Spec Csv_Proofs Csv_Proofs2.
Local Open Scope list_scope.

(** The table has a row for each date and exactly the series of the components, in order, under their names. *)
Theorem C137_columns : forall u periods components f,
  NoDup (map p_start periods) -> Forall (aligned (map p_start periods)) components -> Forall (read_units u) components ->
  (csv_table periods components = Ok f <->
   Forall (fun t => NoDup (map fst (columns_of u t))) components /\
   fr_index f = map p_start periods /\ fr_columns f = shown (flat_map (named_columns u) components)).
Proof. exact table_columns. Qed.
Print Assumptions C137_columns.

(** It is refused exactly when one component has two columns of one name. *)
Theorem C137_refused : forall u periods components,
  NoDup (map p_start periods) -> Forall (aligned (map p_start periods)) components -> Forall (read_units u) components ->
  (csv_table periods components = Err ValueError <-> ~ Forall (fun t => NoDup (map fst (columns_of u t))) components).
Proof. exact table_refused. Qed.
Print Assumptions C137_refused.

(** Components of different names without dots: all columns have different names. *)
Theorem C137_distinct : forall u periods components f,
  NoDup (map p_start periods) -> Forall (aligned (map p_start periods)) components -> Forall (read_units u) components ->
  NoDup (map tab_name components) -> Forall (fun t => forall a b, tab_name t <> (a ++ "." ++ b)%string) components ->
  csv_table periods components = Ok f -> NoDup (map fst (fr_columns f)).
Proof. exact table_distinct. Qed.
Print Assumptions C137_distinct.

(** With dots in the names, different components can give columns of the same name; both are written. *)
Theorem C137_distinct_refuted : exists periods components f,
  NoDup (map p_start periods) /\ Forall (aligned (map p_start periods)) components /\
  NoDup (map tab_name components) /\ csv_table periods components = Ok f /\ ~ NoDup (map fst (fr_columns f)).
Proof. exact table_distinct_refuted. Qed.
Print Assumptions C137_distinct_refuted.

(** Resampling keeps the names of all columns and resamples every series shown, at any depth, and the periods. *)
Theorem C138_columns : forall u series periods t t',
  (forall s s', series s = Ok s' -> sh_kind s' = sh_kind s /\ sh_unit s' = sh_unit s) ->
  resample (Some (series, periods)) t = Ok t' ->
  tab_name t' = tab_name t /\ periods (periods_of t) = Ok (periods_of t') /\
  Forall2 (fun c c' => fst c' = fst c /\ series (snd c) = Ok (snd c')) (columns_of u t) (columns_of u t').
Proof. exact resample_columns. Qed.
Print Assumptions C138_columns.

(** A resampled result is about the dates of the resampled periods, so that the table of it is as in C137. *)
Theorem C138_aligned : forall series periods dates dates' t t',
  (forall ps ps', map p_start ps = dates -> periods ps = Ok ps' -> map p_start ps' = dates') ->
  (forall s s', map p_start (sh_periods s) = dates -> List.length (sh_values s) = List.length dates -> series s = Ok s' ->
     map p_start (sh_periods s') = dates' /\ List.length (sh_values s') = List.length dates') ->
  aligned dates t -> resample (Some (series, periods)) t = Ok t' -> aligned dates' t'.
Proof. exact resample_aligned. Qed.
Print Assumptions C138_aligned.

(** The table of a resampled result has the same columns in the same order, with the values resampled. *)
Theorem C138_table : forall u series periods ps ps' components components' f,
  (forall s s', series s = Ok s' -> sh_kind s' = sh_kind s /\ sh_unit s' = sh_unit s) ->
  (forall qs qs', map p_start qs = map p_start ps -> periods qs = Ok qs' -> map p_start qs' = map p_start ps') ->
  (forall s s', map p_start (sh_periods s) = map p_start ps -> List.length (sh_values s) = List.length ps -> series s = Ok s' ->
     map p_start (sh_periods s') = map p_start ps' /\ List.length (sh_values s') = List.length ps') ->
  NoDup (map p_start ps) -> NoDup (map p_start ps') ->
  Forall (aligned (map p_start ps)) components -> Forall (read_units u) components ->
  Forall2 (fun t t' => resample (Some (series, periods)) t = Ok t') components components' ->
  csv_table ps components = Ok f ->
  exists f', csv_table ps' components' = Ok f' /\ fr_index f' = map p_start ps' /\ map fst (fr_columns f') = map fst (fr_columns f) /\
    Forall2 (fun c v' => exists s', series (snd c) = Ok s' /\ v' = sh_values s')
            (flat_map (named_columns u) components) (map snd (fr_columns f')).
Proof. exact resample_table. Qed.
Print Assumptions C138_table.

(** ** A case: an installation with power and an emission, and an asset *)
Definition C137_periods : list period := [mkPeriod 0%Z 10%Z; mkPeriod 10%Z 20%Z].
Definition C137_emission : tabular :=
  mkTabular "co2" C137_periods [("rate"%string, ASeries (mkShown (Rate StreamDay) "t/d" C137_periods [Some (qz 1); None]))].
Definition C137_installation : tabular :=
  mkTabular "A" C137_periods
    [("is_valid"%string, ASeries (mkShown Other "N/A" C137_periods [Some (qz 1); Some (qz 0)]));
     ("power"%string, ASeries (mkShown (Rate CalendarDay) "MW" C137_periods [Some (qz 5); Some (qz 6)]));
     ("parent"%string, AOther);
     ("power_cumulative"%string, ASeries (mkShown Cumulative "GWh" C137_periods [Some (qz 7); Some (qz 8)]));
     ("emissions"%string, ATabs [C137_emission])].
Definition C137_asset : tabular :=
  mkTabular "all" C137_periods [("power"%string, ASeries (mkShown (Rate CalendarDay) "MW" C137_periods [Some (qz 5); Some (qz 6)]))].
Example C137_case_table : csv_table C137_periods [C137_asset; C137_installation] = Ok (mkFrame [0%Z; 10%Z]
  [("all.power[MW (cd)]"%string, [Some (qz 5); Some (qz 6)]);
   ("A.is_valid[N/A]"%string, [Some (qz 1); Some (qz 0)]);
   ("A.power[MW (cd)]"%string, [Some (qz 5); Some (qz 6)]);
   ("A.power_cumulative[GWh (cd)]"%string, [Some (qz 7); Some (qz 8)]);
   ("A.co2.rate[t/sd]"%string, [Some (qz 1); None])]).
Proof. reflexivity. Qed.
Example C137_case_units : Forall (read_units unit_shown) [C137_asset; C137_installation].
Proof.
  assert (D : not_per_day "t").
  { intros [|c [|d a]] b E; cbn in E; discriminate E. }
  constructor; [|constructor; [|constructor]]; intros n s J; cbn in J.
  - destruct J as [J|[]]. injection J as <- <-. exact (reads_power _ _ CalendarDay eq_refl eq_refl).
  - destruct J as [J|[J|[J|[J|[]]]]]; injection J as <- <-.
    + exact (reads_other _ _ eq_refl).
    + exact (reads_power _ _ CalendarDay eq_refl eq_refl).
    + apply (reads_cumulative Cumulative "GWh" eq_refl). discriminate.
    + exact (reads_per_day _ _ StreamDay "t" eq_refl D eq_refl).
Qed.
Example C137_case_aligned : NoDup (map p_start C137_periods) /\ Forall (aligned (map p_start C137_periods)) [C137_asset; C137_installation].
Proof.
  split; [repeat constructor; cbn; intuition discriminate|].
  constructor; [|constructor; [|constructor]]; split.
  - intros v W. inversion W as [|? ? ? ? ? ? ? J]; subst; [reflexivity|]. destruct J as [J|[]]. discriminate J.
  - intros v n q W J. inversion W as [|? ? ? ? ? ? ? K]; subst; [|destruct K as [K|[]]; discriminate K].
    destruct J as [J|[]]. injection J as <- <-. split; reflexivity.
  - intros v W. inversion W as [|? ? ? ? ? ? ? J K V]; subst; [reflexivity|]. destruct J as [J|[J|[J|[J|[J|[]]]]]]; try discriminate J.
    injection J as <- <-. destruct K as [<-|[]]. inversion V as [|? ? ? ? ? ? ? J]; subst; [reflexivity|]. destruct J as [J|[]]. discriminate J.
  - intros v n q W J. inversion W as [|? ? ? ? ? ? ? L K V]; subst.
    + destruct J as [J|[J|[J|[J|[J|[]]]]]]; try discriminate J; injection J as <- <-; split; reflexivity.
    + destruct L as [L|[L|[L|[L|[L|[]]]]]]; try discriminate L. injection L as <- <-. destruct K as [<-|[]].
      inversion V as [|? ? ? ? ? ? ? L]; subst; [|destruct L as [L|[]]; discriminate L].
      destruct J as [J|[]]. injection J as <- <-. split; reflexivity.
Qed.
(** resampling to the first period of two *)
Definition C138_series (s : shown_series) : result shown_series := Ok (mkShown (sh_kind s) (sh_unit s) (firstn 1 (sh_periods s)) (firstn 1 (sh_values s))).
Definition C138_periods (ps : list period) : result (list period) := Ok (firstn 1 ps).
Example C138_case_keeps : forall s s', C138_series s = Ok s' -> sh_kind s' = sh_kind s /\ sh_unit s' = sh_unit s.
Proof. intros s s' E. injection E as <-. split; reflexivity. Qed.
Example C138_case : match resample (Some (C138_series, C138_periods)) C137_installation with
  | Ok t => csv_table (firstn 1 C137_periods) [t] = Ok (mkFrame [0%Z]
      [("A.is_valid[N/A]"%string, [Some (qz 1)]);
       ("A.power[MW (cd)]"%string, [Some (qz 5)]);
       ("A.power_cumulative[GWh (cd)]"%string, [Some (qz 7)]);
       ("A.co2.rate[t/sd]"%string, [Some (qz 1)])])
  | Err _ => False
  end.
Proof. reflexivity. Qed.

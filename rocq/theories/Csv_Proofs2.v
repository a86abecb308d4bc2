(** What C137 and C138 say, proved. *)
From Coq Require Import String Ascii PeanoNat Lia.
From Verif Require Import Base BaseLemmas Time_Model Num QcTac Csv_Model Csv_Spec Flow_Proofs Csv_Proofs.
Local Open Scope list_scope.

Lemma named_units : forall u l, Forall (read_units u) l -> flat_map (named_columns u) l = flat_map (named_columns unit_shown) l.
Proof.
  intros u l H. induction H as [|t l R H IH]; [reflexivity|]. cbn [flat_map]. rewrite IH. f_equal.
  unfold named_columns. rewrite (columns_units _ _ R). reflexivity.
Qed.
Lemma distinct_units : forall u l, Forall (read_units u) l ->
  (Forall (fun t => NoDup (map fst (columns_of u t))) l <-> Forall (distinct_columns unit_shown) l).
Proof.
  intros u l H. rewrite !Forall_forall in *. unfold distinct_columns. split; intros D t J; specialize (D t J); rewrite (columns_units u t (H t J)) in *; exact D.
Qed.
(** The table: the dates, and every series of every component under its name. *)
Theorem table_columns : forall u periods components f,
  NoDup (map p_start periods) -> Forall (aligned (map p_start periods)) components -> Forall (read_units u) components ->
  (csv_table periods components = Ok f <->
   Forall (fun t => NoDup (map fst (columns_of u t))) components /\
   fr_index f = map p_start periods /\ fr_columns f = shown (flat_map (named_columns u) components)).
Proof.
  intros u periods components f N A R. rewrite (distinct_units _ _ R), (named_units _ _ R). unfold csv_table, start_dates.
  change (mkFrame (map p_start periods) []) with (on (map p_start periods) []).
  destruct (csv_fold (map p_start periods) components [] N A) as [[D E]|[D E]]; rewrite E.
  - split; [intros X; injection X as <-; split; [exact D|split; reflexivity]|].
    intros (_ & I1 & C). destruct f as [i c]. cbn in I1, C. rewrite I1, C. reflexivity.
  - split; [intros X; discriminate X|]. intros (D' & _). destruct (D D').
Qed.
(** A component with two columns of one name is refused. *)
Theorem table_refused : forall u periods components,
  NoDup (map p_start periods) -> Forall (aligned (map p_start periods)) components -> Forall (read_units u) components ->
  (csv_table periods components = Err ValueError <-> ~ Forall (fun t => NoDup (map fst (columns_of u t))) components).
Proof.
  intros u periods components N A R. rewrite (distinct_units _ _ R). unfold csv_table, start_dates.
  change (mkFrame (map p_start periods) []) with (on (map p_start periods) []).
  destruct (csv_fold (map p_start periods) components [] N A) as [[D E]|[D E]]; rewrite E.
  - split; [intros X; discriminate X|intros D'; destruct (D' D)].
  - split; [intros _; exact D|intros _; reflexivity].
Qed.
(** Names of different components without dots keep the columns apart. *)
Definition no_dot (s : string) : Prop := forall a b, s <> (a ++ "." ++ b)%string.
Lemma before_dot : forall a b x y, no_dot a -> no_dot b -> (a ++ "." ++ x)%string = (b ++ "." ++ y)%string -> a = b.
Proof.
  induction a as [|c a IH]; intros [|d b] x y Na Nb E; [reflexivity| | |].
  - cbn in E. injection E as <- E. destruct (Nb ""%string b eq_refl).
  - cbn in E. injection E as -> E. destruct (Na ""%string a eq_refl).
  - cbn in E. injection E as <- E. f_equal. apply (IH b x y); [| |exact E].
    + intros p q F. apply (Na (String c p) q). rewrite F. reflexivity.
    + intros p q F. apply (Nb (String c p) q). rewrite F. reflexivity.
Qed.
Theorem table_distinct : forall u periods components f,
  NoDup (map p_start periods) -> Forall (aligned (map p_start periods)) components -> Forall (read_units u) components ->
  NoDup (map tab_name components) -> Forall (fun t => forall a b, tab_name t <> (a ++ "." ++ b)%string) components ->
  csv_table periods components = Ok f -> NoDup (map fst (fr_columns f)).
Proof.
  intros u periods components f N A R D Dots E. apply (table_columns u) in E; try assumption. destruct E as (C & _ & ->). rewrite shown_names.
  clear A R N f periods. induction components as [|t rest IH]; [constructor|]. cbn [flat_map]. rewrite map_app, NoDup_app_iff.
  cbn [map] in D. apply NoDup_cons_iff in D. destruct D as [NI D]. inversion Dots as [|? ? Dt Dr]; subst. inversion C as [|? ? Ct Cr]; subst.
  split; [apply prefixed_nodup; exact Ct|]. split; [exact (IH D Dr Cr)|]. intros x J K.
  apply in_map_iff in J. destruct J as ([x1 s1] & E1 & J). apply in_map_iff in J. destruct J as ([y1 z1] & E2 & _).
  apply in_map_iff in K. destruct K as ([x2 s2] & E3 & K). apply in_flat_map in K. destruct K as (t2 & T & K).
  apply in_map_iff in K. destruct K as ([y2 z2] & E4 & _). cbn in E1, E2, E3, E4. injection E2 as E2 _. injection E4 as E4 _.
  apply NI. apply in_map_iff. exists t2. split; [|exact T]. symmetry.
  rewrite Forall_forall in Dr. apply (before_dot (tab_name t) (tab_name t2) y1 y2); [exact Dt|exact (Dr t2 T)|]. cbn. congruence.
Qed.
(** Two components of one name (or a.b beside an item b of a): two columns of one name. *)
Theorem table_distinct_refuted : exists periods components f,
  NoDup (map p_start periods) /\ Forall (aligned (map p_start periods)) components /\
  NoDup (map tab_name components) /\ csv_table periods components = Ok f /\ ~ NoDup (map fst (fr_columns f)).
Proof.
  set (ps := [mkPeriod 0%Z 1%Z]). set (s := mkShown (Rate CalendarDay) "MW" ps [Some (qz 1)]).
  set (inner := mkTabular "b" ps [("rate"%string, ASeries s)]).
  exists ps, [mkTabular "a" ps [("x"%string, ATabs [inner])]; mkTabular "a.b" ps [("rate"%string, ASeries s)]].
  eexists. split; [constructor; [intros []|constructor]|]. split; [|split; [|split]].
  - assert (A : aligned [0%Z] inner).
    { split.
      - intros v W. inversion W as [|? ? ? ? ? ? ? J]; subst; [reflexivity|]. destruct J as [J|[]]. discriminate J.
      - intros v n q W J. inversion W as [|? ? ? ? ? ? ? K]; subst; [|destruct K as [K|[]]; discriminate K].
        destruct J as [J|[]]. injection J as <- <-. split; reflexivity. }
    constructor; [|constructor; [|constructor]].
    + split.
      * intros v W. inversion W as [|? ? ? ? ? ? ? J K]; subst; [reflexivity|]. destruct J as [J|[]]. injection J as <- <-.
        destruct K as [<-|[]]. apply (proj1 A). assumption.
      * intros v n q W J. inversion W as [|? ? ? ? ? ? ? L K]; subst; [destruct J as [J|[]]; discriminate J|].
        destruct L as [L|[]]. injection L as <- <-. destruct K as [<-|[]]. revert J. apply (proj2 A). assumption.
    + split.
      * intros v W. inversion W as [|? ? ? ? ? ? ? J]; subst; [reflexivity|]. destruct J as [J|[]]. discriminate J.
      * intros v n q W J. inversion W as [|? ? ? ? ? ? ? K]; subst; [|destruct K as [K|[]]; discriminate K].
        destruct J as [J|[]]. injection J as <- <-. split; reflexivity.
  - cbn. repeat constructor; cbn; intuition discriminate.
  - reflexivity.
  - cbn. intros X. inversion X as [|? ? NI _]; subst. apply NI. left. reflexivity.
Qed.

(** ** Resampling *)
Definition keeps (series : shown_series -> result shown_series) : Prop :=
  forall s s', series s = Ok s' -> sh_kind s' = sh_kind s /\ sh_unit s' = sh_unit s.
Definition resampled_columns (series : shown_series -> result shown_series) (l l' : list (string * shown_series)) : Prop :=
  Forall2 (fun c c' => fst c' = fst c /\ series (snd c) = Ok (snd c')) l l'.
Definition items_resampled (series : shown_series -> result shown_series) (periods : list period -> result (list period)) :=
  fix each (items : list tabular) : result (list tabular) :=
    match items with
    | [] => Ok []
    | it :: rest => do x <- resample_tab series periods it; do y <- each rest; Ok (x :: y)
    end.
Definition attribute_resampled (series : shown_series -> result shown_series) (periods : list period -> result (list period)) (a : attribute) : result attribute :=
  match a with
  | ASeries s => do s' <- series s; Ok (ASeries s')
  | ATabs items => do items' <- items_resampled series periods items; Ok (ATabs items')
  | ATab item => do x <- resample_tab series periods item; Ok (ATab x)
  | AOther => Ok AOther
  end.
Definition attributes_resampled (series : shown_series -> result shown_series) (periods : list period -> result (list period)) :=
  fix go (l : list (string * attribute)) : result (list (string * attribute)) :=
    match l with
    | [] => Ok []
    | (n, a) :: r => do a' <- attribute_resampled series periods a; do r' <- go r; Ok ((n, a') :: r')
    end.
Lemma resample_loop : forall series periods n ps l, resample_tab series periods (mkTabular n ps l)
  = (do l' <- attributes_resampled series periods l; do ps' <- periods ps; Ok (mkTabular n ps' l')).
Proof. reflexivity. Qed.
Lemma resampled_app : forall series a a' b b', resampled_columns series a a' -> resampled_columns series b b' -> resampled_columns series (a ++ b) (a' ++ b').
Proof. intros. apply Forall2_app; assumption. Qed.
Lemma resample_columns_step : forall u series periods t t', keeps series -> resample_tab series periods t = Ok t' ->
  tab_name t' = tab_name t /\ periods (periods_of t) = Ok (periods_of t') /\ resampled_columns series (columns_of u t) (columns_of u t').
Proof.
  intros u series periods t. induction t as [n ps l IH] using tab_induct. intros t' K E. rewrite resample_loop in E.
  apply bind_Ok in E. destruct E as (l' & E1 & E). apply bind_Ok in E. destruct E as (ps' & E2 & E). injection E as <-.
  split; [reflexivity|]. split; [exact E2|]. clear E2. rewrite !columns_flat.
  revert l' E1. induction l as [|[m a] r IHr]; intros l' E1; [injection E1 as <-; constructor|]. destruct IH as [IHa IHl].
  cbn [attributes_resampled] in E1. apply bind_Ok in E1. destruct E1 as (a' & Ea & E1). apply bind_Ok in E1. destruct E1 as (r' & Er & E1). injection E1 as <-.
  cbn [flat_map]. apply resampled_app; [|exact (IHr IHl r' Er)]. clear IHr IHl Er.
  destruct a as [s|items|t|]; cbn [attribute_resampled] in Ea.
  - apply bind_Ok in Ea. destruct Ea as (s' & Es & Ea). injection Ea as <-. destruct (K s s' Es) as [-> ->].
    constructor; [split; [reflexivity|exact Es]|constructor].
  - apply bind_Ok in Ea. destruct Ea as (items' & Ei & Ea). injection Ea as <-.
    revert items' Ei. induction items as [|it rest IHi]; intros items' Ei; [injection Ei as <-; constructor|]. destruct IHa as [IHit IHrest].
    cbn [items_resampled] in Ei. apply bind_Ok in Ei. destruct Ei as (x & Ex & Ei). apply bind_Ok in Ei. destruct Ei as (y & Ey & Ei). injection Ei as <-.
    cbn [flat_map]. apply resampled_app; [|exact (IHi IHrest y Ey)]. destruct (IHit x K Ex) as (En & _ & F). unfold named_columns. rewrite En.
    clear - F. induction F as [|c c' a b [H1 H2] F IHF]; [constructor|]. cbn [map]. constructor; [cbn; rewrite H1; split; [reflexivity|exact H2]|exact IHF].
  - apply bind_Ok in Ea. destruct Ea as (x & _ & Ea). injection Ea as <-. constructor.
  - injection Ea as <-. constructor.
Qed.
(** Resampling keeps the names and columns, and resamples the periods and every series shown. *)
Theorem resample_columns : forall u series periods t t',
  (forall s s', series s = Ok s' -> sh_kind s' = sh_kind s /\ sh_unit s' = sh_unit s) ->
  resample (Some (series, periods)) t = Ok t' ->
  tab_name t' = tab_name t /\ periods (periods_of t) = Ok (periods_of t') /\
  Forall2 (fun c c' => fst c' = fst c /\ series (snd c) = Ok (snd c')) (columns_of u t) (columns_of u t').
Proof. intros u series periods t t' K E. exact (resample_columns_step u series periods t t' K E). Qed.
(** Every result inside is resampled in place. *)
Lemma items_in : forall series periods items items' it', items_resampled series periods items = Ok items' -> In it' items' ->
  exists it, In it items /\ resample_tab series periods it = Ok it'.
Proof.
  intros series periods items. induction items as [|it rest IH]; intros items' it' E J; cbn [items_resampled] in E.
  - injection E as <-. destruct J.
  - apply bind_Ok in E. destruct E as (x & Ex & E). apply bind_Ok in E. destruct E as (y & Ey & E). injection E as <-.
    destruct J as [<-|J]; [exists it; split; [left; reflexivity|exact Ex]|]. destruct (IH y it' Ey J) as (i & Ji & Ei). exists i. split; [right; exact Ji|exact Ei].
Qed.
Lemma attributes_in : forall series periods l l' n a', attributes_resampled series periods l = Ok l' -> In (n, a') l' ->
  exists a, In (n, a) l /\ attribute_resampled series periods a = Ok a'.
Proof.
  intros series periods l. induction l as [|[m a] r IH]; intros l' n a' E J; cbn [attributes_resampled] in E.
  - injection E as <-. destruct J.
  - apply bind_Ok in E. destruct E as (x & Ex & E). apply bind_Ok in E. destruct E as (y & Ey & E). injection E as <-.
    destruct J as [J|J]; [injection J as <- <-; exists a; split; [left; reflexivity|exact Ex]|].
    destruct (IH y n a' Ey J) as (i & Ji & Ei). exists i. split; [right; exact Ji|exact Ei].
Qed.
Lemma resample_inside : forall series periods t' v', within t' v' -> forall t, resample_tab series periods t = Ok t' ->
  exists v, within t v /\ resample_tab series periods v = Ok v'.
Proof.
  intros series periods t' v' W. induction W as [t'|n ps' l' m items' it' v' J K W IH]; intros t E.
  - exists t. split; [constructor|exact E].
  - destruct t as [n0 ps l]. rewrite resample_loop in E. apply bind_Ok in E. destruct E as (l2 & E1 & E). apply bind_Ok in E. destruct E as (ps2 & E2 & E).
    injection E as -> -> ->. destruct (attributes_in _ _ _ _ _ _ E1 J) as (a & Ja & Ea).
    destruct a as [s|items|t|]; cbn [attribute_resampled] in Ea.
    + apply bind_Ok in Ea. destruct Ea as (s' & _ & Ea). discriminate Ea.
    + apply bind_Ok in Ea. destruct Ea as (it2 & Ei & Ea). injection Ea as ->. destruct (items_in _ _ _ _ _ Ei K) as (it & Ji & Er).
      destruct (IH it Er) as (v & Wv & Ev). exists v. split; [exact (within_item _ _ _ _ _ _ _ Ja Ji Wv)|exact Ev].
    + apply bind_Ok in Ea. destruct Ea as (s' & _ & Ea). discriminate Ea.
    + discriminate Ea.
Qed.
(** When the periods and the series of a result come to the same dates, so does the resampled result. *)
Theorem resample_aligned : forall series periods dates dates' t t',
  (forall ps ps', map p_start ps = dates -> periods ps = Ok ps' -> map p_start ps' = dates') ->
  (forall s s', map p_start (sh_periods s) = dates -> List.length (sh_values s) = List.length dates -> series s = Ok s' ->
     map p_start (sh_periods s') = dates' /\ List.length (sh_values s') = List.length dates') ->
  aligned dates t -> resample (Some (series, periods)) t = Ok t' -> aligned dates' t'.
Proof.
  intros series periods dates dates' t t' HP HS [A1 A2] E. cbn [resample] in E. split.
  - intros v' W. destruct (resample_inside _ _ _ _ W t E) as (v & Wv & Ev). destruct v as [n ps l]. rewrite resample_loop in Ev.
    apply bind_Ok in Ev. destruct Ev as (l' & _ & Ev). apply bind_Ok in Ev. destruct Ev as (ps' & Ep & Ev). injection Ev as <-.
    exact (HP ps ps' (A1 _ Wv) Ep).
  - intros v' n s' W J. destruct (resample_inside _ _ _ _ W t E) as (v & Wv & Ev). destruct v as [m ps l]. rewrite resample_loop in Ev.
    apply bind_Ok in Ev. destruct Ev as (l' & El & Ev). apply bind_Ok in Ev. destruct Ev as (ps' & Ep & Ev). injection Ev as <-.
    destruct (attributes_in _ _ _ _ _ _ El J) as (a & Ja & Ea). destruct a as [s|items|t0|]; cbn [attribute_resampled] in Ea.
    + apply bind_Ok in Ea. destruct Ea as (s2 & Es & Ea). injection Ea as ->. destruct (A2 _ n s Wv Ja) as [B1 B2]. exact (HS s s' B1 B2 Es).
    + apply bind_Ok in Ea. destruct Ea as (x & _ & Ea). discriminate Ea.
    + apply bind_Ok in Ea. destruct Ea as (x & _ & Ea). discriminate Ea.
    + discriminate Ea.
Qed.
(** The table of resampled components: the same columns in the same order, the values of each resampled. *)
Lemma resampled_names : forall series l l', resampled_columns series l l' -> map fst l' = map fst l.
Proof. intros series l l' F. induction F as [|c c' l l' [E _] F IH]; [reflexivity|]. cbn. rewrite E, IH. reflexivity. Qed.
Lemma resampled_read : forall u series t t', keeps series -> resampled_columns series (columns_of u t) (columns_of u t') -> read_units u t -> read_units u t'.
Proof.
  intros u series t t' K F R n s' J. unfold read_units in R. revert J R. induction F as [|[x s] [x' s2] l l' [E1 E2] F IH]; intros J R; [destruct J|].
  destruct J as [J|J]; [|apply IH; [exact J|intros m q H; apply (R m q); right; exact H]].
  injection J as <- <-. cbn in E2. destruct (K s s2 E2) as [-> ->]. apply (R x s). left. reflexivity.
Qed.
Theorem resample_table : forall u series periods ps ps' components components' f,
  (forall s s', series s = Ok s' -> sh_kind s' = sh_kind s /\ sh_unit s' = sh_unit s) ->
  (forall qs qs', map p_start qs = map p_start ps -> periods qs = Ok qs' -> map p_start qs' = map p_start ps') ->
  (forall s s', map p_start (sh_periods s) = map p_start ps -> List.length (sh_values s) = List.length ps -> series s = Ok s' ->
     map p_start (sh_periods s') = map p_start ps' /\ List.length (sh_values s') = List.length ps') ->
  NoDup (map p_start ps) -> NoDup (map p_start ps') ->
  Forall (aligned (map p_start ps)) components -> Forall (read_units u) components ->
  Forall2 (fun t t' => resample (Some (series, periods)) t = Ok t') components components' ->
  csv_table ps components = Ok f ->
  exists f', csv_table ps' components' = Ok f' /\ fr_index f' = map p_start ps' /\ map fst (fr_columns f') = map fst (fr_columns f) /\
    Forall2 (fun c v' => exists s', series (snd c) = Ok s' /\ v' = sh_values s')
            (flat_map (named_columns u) components) (map snd (fr_columns f')).
Proof.
  intros u series periods ps ps' components components' f K HP HS N N' A R F E.
  apply (table_columns u) in E; try assumption. destruct E as (D & _ & C).
  assert (G : Forall (aligned (map p_start ps')) components' /\ Forall (read_units u) components' /\
    Forall (fun t => NoDup (map fst (columns_of u t))) components' /\
    resampled_columns series (flat_map (named_columns u) components) (flat_map (named_columns u) components')).
  { clear C f. induction F as [|t t' l l' E F IH]; [split; [|split; [|split]]; constructor|].
    inversion A as [|? ? At Al]; subst. inversion R as [|? ? Rt Rl]; subst. inversion D as [|? ? Dt Dl]; subst.
    destruct (IH Al Rl Dl) as (I1 & I2 & I3 & I4). destruct (resample_columns u series periods t t' K E) as (En & _ & Fc).
    split; [constructor; [|exact I1]|split; [constructor; [|exact I2]|split; [constructor; [|exact I3]|]]].
    - apply (resample_aligned series periods (map p_start ps) (map p_start ps') t t' HP); [|exact At|exact E].
      intros s s' S1 S2 S3. rewrite map_length in *. exact (HS s s' S1 S2 S3).
    - exact (resampled_read u series t t' K Fc Rt).
    - rewrite (resampled_names _ _ _ Fc). exact Dt.
    - cbn [flat_map]. apply resampled_app; [|exact I4]. unfold named_columns. rewrite En. clear - Fc.
      induction Fc as [|c c' a b [H1 H2] Fc IHF]; [constructor|]. cbn [map]. constructor; [cbn; rewrite H1; split; [reflexivity|exact H2]|exact IHF]. }
  destruct G as (A' & R' & D' & F').
  exists (mkFrame (map p_start ps') (shown (flat_map (named_columns u) components'))).
  split; [apply (table_columns u); try assumption; split; [exact D'|split; reflexivity]|]. split; [reflexivity|]. cbn [fr_columns].
  rewrite C, !shown_names. split; [exact (resampled_names _ _ _ F')|].
  unfold shown. rewrite map_map. cbn. clear - F'. induction F' as [|c c' l l' [_ E] F IH]; [constructor|]. cbn [map].
  constructor; [exists (snd c'); split; [exact E|reflexivity]|exact IH].
Qed.

(** Proofs about the csv output. *)
From Coq Require Import String Ascii PeanoNat Lia ListDec.
From Verif Require Import Base BaseLemmas Time_Model Num Csv_Model Csv_Spec Archive_Proofs Flow_Proofs.
Local Open Scope list_scope.

(** ** Induction over results *)
Fixpoint all_items (P : tabular -> Prop) (l : list tabular) : Prop := match l with [] => True | t :: r => P t /\ all_items P r end.
Fixpoint all_attributes (P : tabular -> Prop) (l : list (string * attribute)) : Prop :=
  match l with
  | [] => True
  | (_, a) :: r => match a with ATabs items => all_items P items | ATab t => P t | _ => True end /\ all_attributes P r
  end.
Lemma tab_induct : forall P : tabular -> Prop,
  (forall n ps l, all_attributes P l -> P (mkTabular n ps l)) -> forall t, P t.
Proof.
  intros P H. fix IH 1. intros [n ps l]. apply H.
  induction l as [|[m a] r IHr]; [exact I|]. split; [|exact IHr].
  destruct a as [s|items|t|]; [exact I| |apply IH|exact I].
  induction items as [|t rest IHi]; [exact I|]. split; [apply IH|exact IHi].
Qed.

(** ** Units *)
Lemma replace_skip : forall old new a b, replace_text old new (a ++ b) (String.length a) = replace_text old new b 0.
Proof. intros old new a b. induction a as [|c a IH]; cbn; [reflexivity|exact IH]. Qed.
Lemma prefix_self : forall a b, String.prefix a (a ++ b) = true.
Proof. induction a as [|c a IH]; intros b; cbn; [destruct b; reflexivity|]. destruct (ascii_dec c c) as [_|N]; [apply IH|destruct (N eq_refl)]. Qed.
Lemma replace_whole : forall old new, old <> ""%string -> replace_text old new old 0 = new.
Proof.
  intros [|c r] new N; [destruct (N eq_refl)|]. cbn [replace_text].
  assert (String.prefix (String c r) (String c r) = true) as ->.
  { pose proof (prefix_self (String c r) "") as P. rewrite app_nil_s in P. exact P. }
  assert (String.length (String c r) - 1 = String.length r)%nat as -> by (cbn; lia).
  pose proof (replace_skip (String c r) new r "") as R. rewrite app_nil_s in R. rewrite R. cbn. apply app_nil_s.
Qed.
Lemma prefix_slash : forall s, String.prefix "/d" s = true -> exists r, s = String "/" (String "d" r).
Proof.
  intros [|c [|d r]] H; cbn [String.prefix] in H; try discriminate H.
  - destruct (ascii_dec "/" c); discriminate H.
  - destruct (ascii_dec "/" c) as [<-|]; [|discriminate H]. destruct (ascii_dec "d" d) as [<-|]; [|discriminate H]. exists r. reflexivity.
Qed.
Lemma not_per_day_tail : forall c s, not_per_day (String c s) -> not_per_day s.
Proof. intros c s N a b E. apply (N (String c a) b). rewrite E. reflexivity. Qed.
Lemma replace_none : forall new s, not_per_day s -> replace_text "/d" new s 0 = s.
Proof.
  intros new s. induction s as [|c s IH]; intros N; [reflexivity|]. cbn [replace_text].
  destruct (String.prefix "/d" (String c s)) eqn:P.
  - destruct (prefix_slash _ P) as [r E]. destruct (N ""%string r E).
  - rewrite IH by exact (not_per_day_tail _ _ N). reflexivity.
Qed.
Lemma replace_last : forall new s, not_per_day s -> replace_text "/d" new (s ++ "/d") 0 = (s ++ new)%string.
Proof.
  intros new s. induction s as [|c s IH]; intros N; [cbn; apply app_nil_s|].
  change ((String c s ++ "/d")%string) with (String c (s ++ "/d")). cbn [replace_text].
  destruct (String.prefix "/d" (String c (s ++ "/d"))) eqn:P.
  - exfalso. destruct (prefix_slash _ P) as [r E]. injection E as -> E. destruct s as [|d s]; [discriminate E|].
    injection E as -> E. exact (N ""%string s eq_refl).
  - rewrite IH by exact (not_per_day_tail _ _ N). reflexivity.
Qed.
Lemma mw_no_day : forall base, (base ++ "/d")%string <> "MW"%string.
Proof. intros [|a [|b [|c r]]] E; cbn in E; discriminate E. Qed.
Lemma unit_reads : forall kind un text, reads kind un text -> unit_shown kind un = text.
Proof.
  intros k un text H. unfold unit_shown. destruct H as [r -> ->|r base -> N ->|r -> NM N| -> N| ->].
  - destruct r; reflexivity.
  - destruct (String.eqb_spec (base ++ "/d") "MW") as [E|_]; [destruct (mw_no_day base E)|]. rewrite replace_last by exact N. destruct r; reflexivity.
  - destruct (String.eqb_spec un "MW") as [E|_]; [destruct (NM E)|]. apply replace_none. exact N.
  - apply replace_whole. exact N.
  - reflexivity.
Qed.
Lemma columns_flat : forall u n ps l, columns_of u (mkTabular n ps l)
  = flat_map (fun p : string * attribute => let (n, a) := p in
        match a with
        | ASeries s => [((n ++ "[" ++ u (sh_kind s) (sh_unit s) ++ "]")%string, s)]
        | ATabs items => flat_map (named_columns u) items
        | _ => []
        end) l.
Proof. reflexivity. Qed.
Lemma columns_units : forall u t, read_units u t -> columns_of u t = columns_of unit_shown t.
Proof.
  intros u t. induction t as [n ps l IH] using tab_induct. intros R. unfold read_units in R. rewrite columns_flat in *. rewrite columns_flat.
  induction l as [|[m a] r IHr]; [reflexivity|]. destruct IH as [IHa IHl]. cbn [flat_map] in *.
  rewrite IHr; [|exact IHl|intros x s J; apply (R x s); apply in_or_app; right; exact J]. f_equal.
  destruct a as [s|items|t|]; try reflexivity.
  - rewrite (unit_reads (sh_kind s) (sh_unit s) (u (sh_kind s) (sh_unit s))); [reflexivity|]. apply (R (m ++ "[" ++ u (sh_kind s) (sh_unit s) ++ "]")%string). left. reflexivity.
  - assert (R' : forall x s, In (x, s) (flat_map (named_columns u) items) -> reads (sh_kind s) (sh_unit s) (u (sh_kind s) (sh_unit s))).
    { intros x s J. apply (R x s). apply in_or_app. left. exact J. }
    clear R IHr. induction items as [|it rest IHi]; [reflexivity|]. destruct IHa as [IHit IHrest]. cbn [flat_map] in *.
    rewrite IHi; [|exact IHrest|intros x s J; apply (R' x s); apply in_or_app; right; exact J]. f_equal.
    unfold named_columns. rewrite IHit; [reflexivity|]. intros x s J. apply (R' (tab_name it ++ "." ++ x)%string s).
    apply in_or_app. left. apply in_map_iff. exists (x, s). split; [reflexivity|exact J].
Qed.

(** ** Joining frames about the same dates *)
Lemma value_on_same : forall dates values, NoDup dates -> List.length values = List.length dates -> map (value_on dates values) dates = values.
Proof.
  intros dates values N L. unfold value_on. revert values L. induction N as [|d dates NI N IH]; intros [|v values] L; try discriminate L; [reflexivity|].
  cbn [map zip combine dict_get]. cbn. rewrite Z.eqb_refl. f_equal.
  etransitivity; [|apply (IH values); cbn in L; lia]. apply map_ext_in. intros x J.
  destruct (Z.eqb_spec x d) as [E|_]; [subst x; destruct (NI J)|].
  destruct (Z.eqb_spec d x) as [E|_]; [subst x; destruct (NI J)|]. reflexivity.
Qed.
Lemma overlap_iff : forall a b, overlap a b = true <-> exists x, In x (map fst (fr_columns a)) /\ In x (map fst (fr_columns b)).
Proof.
  intros a b. unfold overlap. rewrite existsb_exists. split.
  - intros (x & J & H). apply existsb_exists in H. destruct H as (y & K & E). apply String.eqb_eq in E. subst y. exists x. split; assumption.
  - intros (x & J & K). exists x. split; [exact K|]. apply existsb_exists. exists x. split; [exact J|apply String.eqb_refl].
Qed.
Definition on (dates : list Z) (l : list (string * shown_series)) : frame := mkFrame dates (shown l).
Definition fits (dates : list Z) (l : list (string * shown_series)) : Prop := Forall (fun c => List.length (sh_values (snd c)) = List.length dates) l.
Lemma join_on : forall dates a b, NoDup dates -> fits dates b ->
  join (on dates a) (on dates b) = if overlap (on dates a) (on dates b) then Err ValueError else Ok (on dates (a ++ b)).
Proof.
  intros dates a b N F. unfold join. destruct (overlap (on dates a) (on dates b)); [reflexivity|]. f_equal. unfold on. cbn [fr_index fr_columns]. f_equal.
  unfold shown. rewrite (map_app (fun c : string * shown_series => (fst c, sh_values (snd c)))). f_equal. rewrite map_map. cbn. induction F as [|c l L F IH]; [reflexivity|].
  cbn [map]. rewrite IH. f_equal. f_equal. exact (value_on_same _ _ N L).
Qed.
Lemma shown_names : forall l, map fst (shown l) = map fst l.
Proof. intros l. unfold shown. rewrite map_map. reflexivity. Qed.
Lemma NoDup_app_iff : forall (A : Type) (a b : list A), NoDup (a ++ b) <-> NoDup a /\ NoDup b /\ forall x, In x a -> ~ In x b.
Proof.
  intros A a b. induction a as [|x a IH]; cbn.
  - split; [intros N; split; [constructor|split; [exact N|intros x []]]|intros (_ & N & _); exact N].
  - rewrite !NoDup_cons_iff, IH, in_app_iff. split.
    + intros (NI & Na & Nb & D). split; [split; [tauto|exact Na]|]. split; [exact Nb|]. intros y [<-|J]; [tauto|exact (D y J)].
    + intros ((NI & Na) & Nb & D). split; [intros [J|J]; [exact (NI J)|exact (D x (or_introl eq_refl) J)]|].
      split; [exact Na|]. split; [exact Nb|]. intros y J. exact (D y (or_intror J)).
Qed.
(** joining is accepted when the names stay different *)
Lemma join_result : forall dates a b, NoDup dates -> fits dates b -> NoDup (map fst a) -> NoDup (map fst b) ->
  (NoDup (map fst (a ++ b)) /\ join (on dates a) (on dates b) = Ok (on dates (a ++ b))) \/
  (~ NoDup (map fst (a ++ b)) /\ join (on dates a) (on dates b) = Err ValueError).
Proof.
  intros dates a b N F Na Nb. rewrite (join_on _ _ _ N F). destruct (overlap (on dates a) (on dates b)) eqn:O.
  - right. split; [|reflexivity]. apply overlap_iff in O. destruct O as (x & J & K). cbn in J, K. rewrite shown_names in J, K.
    rewrite map_app, NoDup_app_iff. intros (_ & _ & D). exact (D x J K).
  - left. split; [|reflexivity]. rewrite map_app, NoDup_app_iff. split; [exact Na|]. split; [exact Nb|]. intros x J K.
    assert (overlap (on dates a) (on dates b) = true) as T by (apply overlap_iff; exists x; cbn; rewrite !shown_names; split; assumption).
    rewrite T in O. discriminate O.
Qed.
Lemma prefix_on : forall p dates l, add_prefix p (on dates l) = on dates (map (fun c => ((p ++ "." ++ fst c)%string, snd c)) l).
Proof. intros p dates l. unfold add_prefix, on, shown. cbn. rewrite !map_map. reflexivity. Qed.
Lemma append_inj : forall p a b : string, (p ++ a)%string = (p ++ b)%string -> a = b.
Proof. induction p as [|c p IH]; intros a b E; [exact E|]. cbn in E. injection E as E. exact (IH _ _ E). Qed.
Lemma prefixed_nodup : forall p (l : list (string * shown_series)), NoDup (map fst (map (fun c => ((p ++ "." ++ fst c)%string, snd c)) l)) <-> NoDup (map fst l).
Proof.
  intros p l. induction l as [|c l IH]; cbn [map]; [tauto|]. rewrite !NoDup_cons_iff, IH.
  assert (In (fst ((p ++ "." ++ fst c)%string, snd c)) (map fst (map (fun c => ((p ++ "." ++ fst c)%string, snd c)) l)) <-> In (fst c) (map fst l)) as ->; [|tauto].
  rewrite map_map. cbn [fst]. rewrite !in_map_iff. split.
  - intros (d & E & J). exists d. split; [|exact J]. apply append_inj in E. cbn in E. injection E as E. exact E.
  - intros (d & E & J). exists d. split; [|exact J]. rewrite E. reflexivity.
Qed.

(** ** One result *)
Definition frame_result (dates : list Z) (l : list (string * shown_series)) (r : result frame) : Prop :=
  (NoDup (map fst l) /\ r = Ok (on dates l)) \/ (~ NoDup (map fst l) /\ r = Err ValueError).
Lemma nodup_left : forall (a b : list (string * shown_series)), NoDup (map fst (a ++ b)) -> NoDup (map fst a) /\ NoDup (map fst b).
Proof. intros a b. rewrite map_app, NoDup_app_iff. tauto. Qed.
Lemma aligned_fits : forall dates t, aligned dates t -> fits dates (columns_of unit_shown t).
Proof.
  intros dates t. induction t as [n ps l IH] using tab_induct. intros A. unfold fits. rewrite columns_flat. apply Forall_flat_map. apply Forall_forall. intros [m a] J.
  assert (IH' : match a with ATabs items => all_items (fun t => aligned dates t -> fits dates (columns_of unit_shown t)) items | _ => True end).
  { clear A. induction l as [|[m' a'] r IHr]; [destruct J|]. destruct IH as [H1 H2]. destruct J as [E|J]; [|exact (IHr H2 J)].
    injection E as -> ->. destruct a; try exact H1; exact I. }
  clear IH. destruct a as [s|items|t|]; try (constructor; fail).
  - constructor; [|constructor]. cbn. destruct A as [_ A]. exact (proj2 (A _ m s (within_self _) J)).
  - apply Forall_flat_map. apply Forall_forall. intros it K.
    assert (fits dates (columns_of unit_shown it)) as F.
    { assert (aligned dates it) as Ai.
      { destruct A as [A1 A2]. split; [intros v W; apply A1; exact (within_item _ _ _ _ _ _ _ J K W)|].
        intros v x s W. apply A2. exact (within_item _ _ _ _ _ _ _ J K W). }
      clear J A. induction items as [|i rest IHi]; [destruct K|]. destruct IH' as [H1 H2]. destruct K as [->|K]; [exact (H1 Ai)|exact (IHi H2 K)]. }
    unfold named_columns. apply Forall_map. exact F.
Qed.
Lemma aligned_item : forall dates n ps l m items it, aligned dates (mkTabular n ps l) -> In (m, ATabs items) l -> In it items -> aligned dates it.
Proof.
  intros dates n ps l m items it [A1 A2] J K. split; [intros v W; apply A1; exact (within_item _ _ _ _ _ _ _ J K W)|].
  intros v x s W. apply A2. exact (within_item _ _ _ _ _ _ _ J K W).
Qed.

Definition items_loop : list tabular -> frame -> result frame :=
  fix each (items : list tabular) (f : frame) : result frame :=
    match items with
    | [] => Ok f
    | it :: rest => do sub <- to_dataframe it; do f' <- join f (add_prefix (tab_name it) sub); each rest f'
    end.
Definition attribute_step (n : string) (a : attribute) (f : frame) : result frame :=
  match a with
  | ASeries s => do c <- one_column (column_name n s) (sh_values s) (start_dates (sh_periods s)); join f c
  | ATabs items => items_loop items f
  | ATab _ | AOther => Ok f
  end.
Definition attributes_loop : list (string * attribute) -> frame -> result frame :=
  fix go (l : list (string * attribute)) (f : frame) : result frame :=
    match l with
    | [] => Ok f
    | (n, a) :: r => do f' <- attribute_step n a f; go r f'
    end.
Lemma to_dataframe_loop : forall n ps l, to_dataframe (mkTabular n ps l) = attributes_loop l (mkFrame (start_dates ps) []).
Proof. reflexivity. Qed.

Lemma items_result : forall dates items base, NoDup dates -> NoDup (map fst base) ->
  all_items (fun t => aligned dates t -> frame_result dates (columns_of unit_shown t) (to_dataframe t)) items ->
  (forall it, In it items -> aligned dates it) ->
  frame_result dates (base ++ flat_map (named_columns unit_shown) items) (items_loop items (on dates base)).
Proof.
  intros dates items. induction items as [|it rest IH]; intros base N Nb H A.
  - cbn. rewrite app_nil_r. left. split; [exact Nb|reflexivity].
  - destruct H as [Hit Hrest]. cbn [items_loop flat_map].
    assert (Ai : aligned dates it) by (apply A; left; reflexivity).
    destruct (Hit Ai) as [[Nt E]|[Nt E]]; rewrite E; cbn [Base.bind].
    + rewrite prefix_on. fold (named_columns unit_shown it).
      assert (NoDup (map fst (named_columns unit_shown it))) as Nn by (apply prefixed_nodup; exact Nt).
      assert (fits dates (named_columns unit_shown it)) as F by (apply Forall_map; exact (aligned_fits _ _ Ai)).
      destruct (join_result dates base (named_columns unit_shown it) N F Nb Nn) as [[Nj J]|[Nj J]]; rewrite J; cbn [Base.bind].
      * rewrite app_assoc. apply IH; [exact N|exact Nj|exact Hrest|intros x K; apply A; right; exact K].
      * right. split; [|reflexivity]. rewrite app_assoc. intros D. exact (Nj (proj1 (nodup_left _ _ D))).
    + right. split; [|reflexivity]. intros D. apply Nt. apply (prefixed_nodup (tab_name it)).
      exact (proj1 (nodup_left _ _ (proj2 (nodup_left _ _ D)))).
Qed.
Definition attribute_columns (p : string * attribute) : list (string * shown_series) :=
  let (n, a) := p in
  match a with
  | ASeries s => [((n ++ "[" ++ unit_shown (sh_kind s) (sh_unit s) ++ "]")%string, s)]
  | ATabs items => flat_map (named_columns unit_shown) items
  | _ => []
  end.
Lemma dataframe_result : forall dates t, NoDup dates -> aligned dates t -> frame_result dates (columns_of unit_shown t) (to_dataframe t).
Proof.
  intros dates t N. induction t as [n ps l IH] using tab_induct. intros A. rewrite to_dataframe_loop, columns_flat.
  assert (start_dates ps = dates) as -> by exact (proj1 A _ (within_self _)).
  change (mkFrame dates []) with (on dates []).
  assert (S : forall m a, In (m, a) l -> match a with
     | ASeries s => map p_start (sh_periods s) = dates /\ List.length (sh_values s) = List.length dates
     | ATabs items => forall it, In it items -> aligned dates it | _ => True end).
  { intros m a J. destruct a; try exact I; [exact (proj2 A _ m _ (within_self _) J)|]. intros it K. exact (aligned_item _ _ _ _ _ _ _ A J K). }
  clear A.
  change (frame_result dates ([] ++ flat_map attribute_columns l) (attributes_loop l (on dates []))).
  assert (Nb : NoDup (map fst (@nil (string * shown_series)))) by constructor.
  revert Nb. generalize (@nil (string * shown_series)) as base. induction l as [|[m a] r IHr]; intros base Nb.
  - cbn. rewrite app_nil_r. left. split; [exact Nb|reflexivity].
  - destruct IH as [IHa IHl]. cbn [attributes_loop flat_map]. rewrite app_assoc.
    assert (H : frame_result dates (base ++ attribute_columns (m, a)) (attribute_step m a (on dates base))).
    { pose proof (S m a (or_introl eq_refl)) as Sa. destruct a as [s|items|t|]; cbn [attribute_step attribute_columns].
      - destruct Sa as [E L]. unfold one_column, start_dates. rewrite E, L, Nat.eqb_refl. cbn [Base.bind].
        change (mkFrame dates [(column_name m s, sh_values s)]) with (on dates [((m ++ "[" ++ unit_shown (sh_kind s) (sh_unit s) ++ "]")%string, s)]).
        apply join_result; [exact N|constructor; [exact L|constructor]|exact Nb|constructor; [intros []|constructor]].
      - apply items_result; [exact N|exact Nb|exact IHa|exact Sa].
      - rewrite app_nil_r. left. split; [exact Nb|reflexivity].
      - rewrite app_nil_r. left. split; [exact Nb|reflexivity]. }
    destruct H as [[Nj J]|[Nj J]]; rewrite J; cbn [Base.bind].
    + apply IHr; [exact IHl|intros x y K; exact (S x y (or_intror K))|exact Nj].
    + right. split; [|reflexivity]. intros D. exact (Nj (proj1 (nodup_left _ _ D))).
Qed.

(** ** All components *)
Definition distinct_columns (u : series_kind -> string -> string) (t : tabular) : Prop := NoDup (map fst (columns_of u t)).
Lemma component_result : forall dates base t, NoDup dates -> aligned dates t ->
  (distinct_columns unit_shown t -> add_component (Ok (on dates base)) t = Ok (on dates (base ++ named_columns unit_shown t))) /\
  (~ distinct_columns unit_shown t -> add_component (Ok (on dates base)) t = Err ValueError).
Proof.
  intros dates base t N A. unfold add_component. cbn [Base.bind].
  destruct (dataframe_result dates t N A) as [[D E]|[D E]]; rewrite E; cbn [Base.bind].
  - split; [intros _|intros ND; destruct (ND D)]. rewrite prefix_on. fold (named_columns unit_shown t).
    assert (fits dates (named_columns unit_shown t)) as F by (apply Forall_map; exact (aligned_fits _ _ A)).
    rewrite (join_on _ _ _ N F). destruct (overlap (on dates base) (on dates (named_columns unit_shown t))); [|reflexivity].
    destruct (list_eq_dec Z.eq_dec (fr_index (on dates base)) (fr_index (on dates (named_columns unit_shown t)))) as [_|X]; [|destruct (X eq_refl)].
    unfold on, shown. cbn. rewrite map_app. reflexivity.
  - split; [intros DD; destruct (D DD)|]. intros _. reflexivity.
Qed.
Lemma fold_error : forall components e, fold_left add_component components (Err e) = Err e.
Proof. induction components as [|c l IH]; intros e; cbn; [reflexivity|apply IH]. Qed.
Lemma csv_fold : forall dates components base, NoDup dates -> Forall (aligned dates) components ->
  (Forall (distinct_columns unit_shown) components /\ fold_left add_component components (Ok (on dates base)) = Ok (on dates (base ++ flat_map (named_columns unit_shown) components))) \/
  (~ Forall (distinct_columns unit_shown) components /\ fold_left add_component components (Ok (on dates base)) = Err ValueError).
Proof.
  intros dates components. induction components as [|t rest IH]; intros base N A; cbn [fold_left flat_map].
  - left. rewrite app_nil_r. split; [constructor|reflexivity].
  - inversion A as [|? ? At Ar]; subst.
    destruct (component_result dates base t N At) as [Y NY].
    destruct (ListDec.NoDup_dec string_dec (map fst (columns_of unit_shown t))) as [D|D].
    + rewrite (Y D). rewrite app_assoc. destruct (IH (base ++ named_columns unit_shown t) N Ar) as [[F E]|[F E]].
      * left. split; [constructor; assumption|exact E].
      * right. split; [|exact E]. intros G. inversion G; subst. exact (F H2).
    + rewrite (NY D). rewrite fold_error. right. split; [|reflexivity]. intros G. inversion G; subst. exact (D H1).
Qed.

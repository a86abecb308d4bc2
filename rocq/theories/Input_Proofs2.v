From Coq Require Import PeanoNat String Ascii.
From Verif Require Import QcTac Base BaseLemmas Time_Model Time_Spec Time_Proofs Time_Proofs2 Time_Proofs3 Input_Model Input_Spec Input_Proofs.
Local Open Scope list_scope.
Local Open Scope Z_scope.

(** ** C25: the global time vector *)
Lemma fold_min_spec : forall l d, In (fold_left Z.min l d) (d :: l) /\ forall x, In x (d :: l) -> fold_left Z.min l d <= x.
Proof.
  induction l as [|y l IH]; intros d; cbn [fold_left].
  - split; [now left|]. intros x [<-|[]]. lia.
  - destruct (IH (Z.min d y)) as [I1 I2]. split.
    + destruct I1 as [E|I1]; [|right; now right]. rewrite <- E. destruct (Z.min_spec d y) as [[_ ->]|[_ ->]]; cbn; auto.
    + intros x [<-|[<-|Hx]].
      * specialize (I2 _ (or_introl eq_refl)). lia.
      * specialize (I2 _ (or_introl eq_refl)). lia.
      * apply I2. now right.
Qed.
Lemma earliest_unique : forall a b l, earliest a l -> earliest b l -> a = b.
Proof. intros a b l [A1 A2] [B1 B2]. apply A2 in B1. apply B2 in A1. lia. Qed.

Theorem global_time_vector_proof : forall tv stop start extra a, model_start start tv a ->
  (a < stop ->
   exists g, get_global_time_vector tv stop start extra = Ok g /\ increasing g /\
     hd_error g = Some a /\ last_opt g = Some stop /\
     forall d, In d g <-> (a <= d <= stop /\ (d = a \/ d = stop \/ In d tv \/ In d extra))) /\
  (stop <= a -> get_global_time_vector tv stop start extra = Err InvalidDateException).
Proof.
  intros tv stop start extra a Ha.
  assert ((match start, tv with
           | None, [] => Err ValidationError
           | Some s, _ => Ok s
           | None, _ => min_date tv end) = Ok a) as Es.
  { destruct start as [s|]; cbn in Ha; [now subst|].
    destruct tv as [|d ds]; [destruct Ha as [[] _]|]. cbn. f_equal.
    eapply earliest_unique; [|exact Ha]. split; apply fold_min_spec. }
  unfold get_global_time_vector. rewrite Es. cbn [bind]. split; intros Hs.
  2:{ now apply Z.leb_le in Hs as ->. }
  replace (stop <=? a) with false by (symmetry; apply Z.leb_gt; lia).
  set (l := filter _ _). exists (sorted_set l). split; [reflexivity|].
  assert (forall d, In d (sorted_set l) <-> (a <= d <= stop /\ (d = a \/ d = stop \/ In d tv \/ In d extra))) as HI.
  { intros d. rewrite sorted_set_In. unfold l. rewrite filter_In, andb_true_iff, Z.leb_le, Z.leb_le, !in_app_iff. cbn [In].
    intuition (subst; auto). }
  pose proof (sorted_set_increasing l) as Hi. split; [exact Hi|].
  assert (In a (sorted_set l)) as Ia by (apply HI; lia). assert (In stop (sorted_set l)) as Ib by (apply HI; lia).
  destruct (sorted_set l) as [|d ds]; [destruct Ia|]. cbn [hd_error last_opt].
  split; [|split; [|exact HI]]; f_equal.
  - assert (In d (d :: ds)) as Hd by now left. apply HI in Hd as [Hd _].
    destruct Ia as [->|Ia]; auto. apply increasing_cons in Hi as [_ Hl]. apply Hl in Ia. lia.
  - pose proof (last_ge _ _ _ Hi Ib). pose proof (last_In' _ ds d) as Hl. apply HI in Hl as [Hl _]. lia.
Qed.

Theorem global_time_vector_none_proof : forall stop extra,
  get_global_time_vector [] stop None extra = Err ValidationError.
Proof. reflexivity. Qed.

Theorem model_periods_proof : forall tv stop start extra a, model_start start tv a -> a < stop ->
  exists ps, get_model_periods tv stop start extra = Ok ps /\ contiguous ps /\ spans ps a stop /\
    forall d, is_boundary ps d <-> (a <= d <= stop /\ (d = a \/ d = stop \/ In d tv \/ In d extra)).
Proof.
  intros tv stop start extra a Ha Hlt.
  destruct (global_time_vector_proof tv stop start extra a Ha) as [H _].
  destruct (H Hlt) as (g & Eg & Hi & Hh & Hl & HI). unfold get_model_periods. rewrite Eg. cbn [bind].
  destruct g as [|d [|e g]]; [discriminate| |].
  - cbn in *. assert (d = a /\ d = stop) by (split; congruence). lia.
  - rewrite create_periods_consecutive. unfold extended. rewrite app_nil_r. cbn [app].
    eexists. split; [reflexivity|]. pose proof (consecutive_contiguous _ Hi) as Hc. split; [exact Hc|].
    assert (d = a) as -> by (cbn in Hh; congruence).
    split.
    + assert (last g e = stop) as <-. { cbn [last_opt] in Hl. rewrite last_shift in Hl. congruence. }
      exists (mkPeriod a e). eexists. eexists. split; [apply consecutive_cons2|]. split; [reflexivity|]. split; [reflexivity|].
      rewrite <- consecutive_cons2. apply consecutive_last.
    + intros t. rewrite <- dates_of_In by exact Hc. rewrite consecutive_dates. apply HI.
Qed.

(** ** C51: references to time series *)
Lemma split_join : forall a b, no_semicolon a -> no_semicolon b -> split_semicolon (join_semicolon a b) = [a; b].
Proof.
  assert (forall b, no_semicolon b -> split_semicolon b = [b]) as Hone.
  { induction b as [|c b IH]; intros H; [reflexivity|]. destruct H as [Hc Hb]. cbn [split_semicolon]. rewrite IH by exact Hb.
    replace (Ascii.eqb c semicolon) with false; auto. symmetry. now apply Ascii.eqb_neq. }
  induction a as [|c a IH]; intros b Ha Hb.
  - unfold join_semicolon. cbn [append split_semicolon]. rewrite Hone by exact Hb. now rewrite Ascii.eqb_refl.
  - destruct Ha as [Hc Ha]. change (join_semicolon (String c a) b) with (String c (join_semicolon a b)).
    cbn [split_semicolon]. rewrite IH by assumption. replace (Ascii.eqb c semicolon) with false; auto.
    symmetry. now apply Ascii.eqb_neq.
Qed.

Lemma get_duplicates_nil : forall l, get_duplicates l = [] -> NoDup l.
Proof.
  unfold get_duplicates.
  assert (forall l seen dup, snd (fold_left (fun sd x => if existsb (Z.eqb x) (fst sd) then (fst sd, snd sd ++ [x]) else (fst sd ++ [x], snd sd)) l (seen, dup)) = [] ->
    dup = [] /\ (NoDup seen -> NoDup (seen ++ l))) as H.
  { induction l as [|x l IH]; intros seen dup E; cbn [fold_left fst snd] in E.
    - split; auto. now rewrite app_nil_r.
    - destruct (existsb (Z.eqb x) seen) eqn:Ex.
      + apply IH in E as [E _]. now destruct dup.
      + apply IH in E as [E HN]. split; auto. intros Hs. rewrite <- app_assoc in HN. apply HN.
        apply Permutation_NoDup with (x :: seen); [apply Permutation_cons_append|]. constructor; auto.
        intros Hx. assert (existsb (Z.eqb x) seen = true) by (apply existsb_exists; exists x; split; auto; apply Z.eqb_refl). congruence. }
  intros l E. apply H in E as [_ E]. apply E. constructor.
Qed.

Lemma validate_ok : forall r, validate_ts_resource r = Ok tt ->
  tsr_dates r <> [] /\ NoDup (tsr_dates r) /\
  forall h, In h (tsr_headers r) -> exists column, get_column (tsr_resource r) h = Ok column /\ List.length column = List.length (tsr_dates r).
Proof.
  intros r H. unfold validate_ts_resource in H. destruct (tsr_dates r) as [|d ds] eqn:Ed; [discriminate|]. rewrite <- Ed in *.
  split; [rewrite Ed; discriminate|].
  destruct (get_duplicates (tsr_dates r)) eqn:Eg; [|discriminate].
  split; [now apply get_duplicates_nil|].
  destruct (mapM (get_column (tsr_resource r)) (tsr_headers r)) as [columns|] eqn:Ec; [|discriminate]. cbn [bind] in H.
  destruct columns as [|first rest]; [discriminate|]. destruct (Nat.eqb (List.length first) 0); [discriminate|].
  destruct (forallb _ (first :: rest)) eqn:Ef; [|discriminate]. rewrite forallb_forall in Ef.
  apply mapM_Ok in Ec. intros h Hh.
  assert (forall l m, Forall2 (fun x y => get_column (tsr_resource r) x = Ok y) l m -> In h l -> exists y, In y m /\ get_column (tsr_resource r) h = Ok y) as HF.
  { induction 1 as [|x y l m E H' IH]; intros [].
    - subst. exists y. split; auto. now left.
    - destruct (IH H0) as (z & Hz & Ez). exists z. split; auto. now right. }
  destruct (HF _ _ Ec Hh) as (column & Hc & Eh). exists column. split; auto. apply Ef in Hc. now apply Nat.eqb_eq in Hc.
Qed.

Lemma dict_of_function : forall (V : Type) (F : string -> V -> Prop) (l : list (string * V)) acc,
  (forall k v, In (k, v) l -> F k v) -> (forall k v, dict_get String.eqb k acc = Some v -> F k v) ->
  let d := fold_left (fun d kv => dict_set String.eqb (fst kv) (snd kv) d) l acc in
  (forall k v, dict_get String.eqb k d = Some v -> F k v) /\
  (forall k, In k (map fst d) <-> In k (map fst acc) \/ In k (map fst l)).
Proof.
  intros V F l; induction l as [|[k0 v0] l IH]; intros acc Hl Ha; cbv zeta; cbn [fold_left fst snd].
  - split; auto. cbn. tauto.
  - destruct (IH (dict_set String.eqb k0 v0 acc)) as [I1 I2].
    + intros; apply Hl; now right.
    + intros k v. rewrite dict_get_set by apply String.eqb_eq. destruct (String.eqb k k0) eqn:E.
      * intros [= <-]. apply String.eqb_eq in E. subst. apply Hl. now left.
      * apply Ha.
    + split; [exact I1|]. intros k. rewrite I2. cbn [map fst In].
      destruct (in_dec string_dec k0 (map fst acc)) as [Hin|Hin].
      * rewrite dict_set_keys_in by (auto; apply String.eqb_eq). intuition (subst; auto).
      * rewrite dict_set_keys_notin by (auto; apply String.eqb_eq). rewrite map_app, in_app_iff. cbn. tauto.
Qed.

Theorem series_variables_proof : forall cs ps, well_named cs -> contiguous ps ->
  exists vars, series_variables cs ps = Ok vars /\
    (forall name, In name (map fst vars) <-> In name (series_references cs)) /\
    forall k c h column, In (k, c) cs -> In h (tsr_headers (tc_resource c)) ->
      get_column (tsr_resource (tc_resource c)) h = Ok column ->
      exists vs, dict_get String.eqb (join_semicolon k h) vars = Some vs /\ List.length vs = List.length ps /\
        forall i p, nth_error ps i = Some p ->
          exists v, nth_error vs i = Some v /\
            value_rule (tc_interpolation c) (tc_extrapolation c) (combine (tsr_dates (tc_resource c)) column) (p_start p) v.
Proof.
  intros cs ps [Hnd Hw] Hc.
  assert (nondecreasing (start_dates ps)) as Hs.
  { clear -Hc. induction ps as [|p ps IH]; cbn; auto. destruct Hc as (Hn & Hl & Hc). split; [|now apply IH].
    destruct ps as [|q ps]; cbn; auto. unfold nonempty in Hn. lia. }
  pose (good := fun (name : string) (vs : list Qc) => exists k c h column, In (k, c) cs /\ In h (tsr_headers (tc_resource c)) /\
      get_column (tsr_resource (tc_resource c)) h = Ok column /\ name = join_semicolon k h /\ List.length vs = List.length ps /\
      forall i p, nth_error ps i = Some p ->
          exists v, nth_error vs i = Some v /\
            value_rule (tc_interpolation c) (tc_extrapolation c) (combine (tsr_dates (tc_resource c)) column) (p_start p) v).
  assert (forall name, In name (series_references cs) -> exists s, collections_series cs name = Ok s /\
     (ts_reference s = name /\ exists f, fit_to_time_vector s (start_dates ps) = Ok f /\ good name (ts_values f))) as Href.
  { intros name Hn. unfold series_references in Hn. apply in_flat_map in Hn as ([k c] & Hkc & Hn). cbn [snd] in Hn.
    apply in_map_iff in Hn as (h & <- & Hh). destruct (Hw k c Hkc) as (En & Nk & Hv & Hns).
    destruct (validate_ok _ Hv) as (Hne & Hndd & Hcol). destruct (Hcol h Hh) as (column & Ecol & Lcol).
    destruct (collection_series_proof c h column (start_dates ps) Ecol Hne Hndd Lcol Hs) as (s & f & Es & Er & Ef & Lf & Hf).
    exists s. split; [|split; [exact Er|]].
    - unfold collections_series. rewrite split_join; [|now rewrite En|now apply Hns].
      rewrite (dict_get_NoDup _ _ String.eqb (tc_name c) c cs); auto; [apply String.eqb_eq|now rewrite En].
    - exists f. split; [exact Ef|]. exists k, c, h, column. rewrite En. do 4 (split; [auto|]). split.
      + rewrite Lf. unfold start_dates. apply map_length.
      + intros i p Hp. apply Hf. unfold start_dates. now rewrite nth_error_map, Hp. }
  destruct (mapM_exists _ _ (collections_series cs) (fun name s => ts_reference s = name /\ exists f, fit_to_time_vector s (start_dates ps) = Ok f /\ good name (ts_values f)) (series_references cs)) as (series & Em & HF).
  { intros name Hn. destruct (Href name Hn) as (s & E & H1 & H2). now exists s. }
  destruct (mapM_exists _ _ (fun s => do f <- fit_to_time_vector s (start_dates ps); Ok (ts_reference s, ts_values f))
     (fun s kv => fst kv = ts_reference s /\ good (fst kv) (snd kv)) series) as (fitted & Ef & HF2).
  { intros s Hsn. assert (exists name, ts_reference s = name /\ exists f, fit_to_time_vector s (start_dates ps) = Ok f /\ good name (ts_values f)) as (name & E & f & Efit & G).
    { clear - HF Hsn. induction HF as [|n s' l m H HF IH]; [destruct Hsn|]. destruct Hsn as [->|Hsn]; [now exists n|now apply IH]. }
    exists (ts_reference s, ts_values f). rewrite Efit. cbn [bind fst snd]. rewrite E. auto. }
  unfold series_variables. rewrite Em. cbn [bind]. rewrite Ef. cbn [bind]. eexists. split; [reflexivity|].
  assert (map fst fitted = series_references cs) as Ek.
  { clear - HF HF2. revert fitted HF2. induction HF as [|n s l m [H _] HF IH]; intros fitted HF2; inversion HF2 as [|? [k v] ? ? [E _] H2]; subst; auto.
    cbn in *. f_equal; auto. }
  destruct (dict_of_function _ good fitted []) as [D1 D2].
  { intros k v Hkv. clear - HF2 Hkv. induction HF2 as [|s kv l m [_ G] H IH]; [destruct Hkv|].
    destruct Hkv as [->|Hkv]; [exact G|now apply IH]. }
  { discriminate. }
  cbv zeta in D1, D2. rewrite Ek in D2. split; [intros name; rewrite D2; cbn; tauto|].
  intros k c h column Hkc Hh Ecol. destruct (Hw k c Hkc) as (En & Nk & Hv & Hns).
  set (d := fold_left _ _ _) in *.
  destruct (dict_get String.eqb (join_semicolon k h) d) as [vs|] eqn:Eg.
  - exists vs. split; [reflexivity|]. destruct (D1 _ _ Eg) as (k' & c' & h' & column' & Hkc' & Hh' & Ecol' & Ejoin & Lv & Hvs).
    destruct (Hw k' c' Hkc') as (En' & Nk' & Hv' & Hns').
    assert ([k; h] = [k'; h']) as Ekh. { rewrite <- (split_join k h), <- (split_join k' h'); auto. now rewrite Ejoin. }
    injection Ekh as <- <-.
    assert (c = c') as <-.
    { apply (dict_get_NoDup _ _ String.eqb k c cs String.eqb_eq Hnd) in Hkc.
      apply (dict_get_NoDup _ _ String.eqb k c' cs String.eqb_eq Hnd) in Hkc'. congruence. }
    assert (column = column') as <- by congruence. split; auto.
  - apply dict_get_None in Eg; [|apply String.eqb_eq]. elim Eg. apply D2. right. unfold series_references.
    apply in_flat_map. exists (k, c). split; auto. apply in_map_iff. exists h. split; auto. cbn. now rewrite En.
Qed.

(** the column of a header *)
Theorem get_column_proof : forall r i h column, NoDup (map lower (mr_headers r)) ->
  nth_error (mr_headers r) i = Some h -> nth_error (mr_data r) i = Some column -> get_column r h = Ok column.
Proof.
  intros r i h column Hnd Hh Hc. unfold get_column.
  rewrite (index_of_nth _ String.eqb (lower h) _ i String.eqb_eq Hnd); [now rewrite Hc|]. now rewrite nth_error_map, Hh.
Qed.

Theorem get_column_case_refuted_proof : exists r h column, NoDup (mr_headers r) /\
  nth_error (mr_headers r) 1 = Some h /\ nth_error (mr_data r) 1 = Some column /\ get_column r h <> Ok column.
Proof.
  exists (mkResource ["Gas"; "GAS"]%string [[1%Qc]; [0%Qc]]), "GAS"%string, [0%Qc].
  split; [repeat constructor; cbn; intuition discriminate|]. repeat split. vm_compute. discriminate.
Qed.

(** collections from the configuration: the last one of a name counts *)
Lemma collections_create_core : forall ys resources, resources <> [] ->
  let cs := collections_create ys resources in
  NoDup (map fst cs) /\ (forall k c, In (k, c) cs -> tc_name c = k) /\
  forall k c, dict_get String.eqb k cs = Some c <->
    exists l y r rest, ys = l ++ y :: rest /\ yc_name y = k /\ dict_get String.eqb (yc_file y) resources = Some r /\
      c = collection_from_yaml r y /\
      forall y', In y' rest -> yc_name y' = k -> dict_get String.eqb (yc_file y') resources = None.
Proof.
  intros ys resources Hne. unfold collections_create. destruct resources as [|r0 rs] eqn:Er; [congruence|]. rewrite <- Er in *. clear Hne Er r0 rs.
  assert (forall r y, tc_name (collection_from_yaml r y) = yc_name y) as Hname
    by (intros r y; unfold collection_from_yaml; destruct (yc_type y); reflexivity).
  induction ys as [|y ys IH] using rev_ind; cbv zeta in *.
  - cbn. split; [constructor|]. split; [intros k c []|]. intros k c. split; [discriminate|]. intros (l & y & r & rest & E & _). now destruct l.
  - rewrite fold_left_app. cbn [fold_left]. destruct IH as (I1 & I2 & I3). set (d := fold_left _ ys []) in *.
    destruct (dict_get String.eqb (yc_file y) resources) as [r|] eqn:Ef.
    + assert (map fst (dict_set String.eqb (yc_name y) (collection_from_yaml r y) d) =
              if in_dec string_dec (yc_name y) (map fst d) then map fst d else map fst d ++ [yc_name y]) as Ek.
      { destruct (in_dec string_dec (yc_name y) (map fst d)).
        - now apply dict_set_keys_in; [apply String.eqb_eq|].
        - rewrite dict_set_keys_notin by (auto; apply String.eqb_eq). now rewrite map_app. }
      assert (NoDup (map fst (dict_set String.eqb (yc_name y) (collection_from_yaml r y) d))) as Hnd.
      { rewrite Ek. destruct (in_dec string_dec (yc_name y) (map fst d)); auto.
        apply Permutation_NoDup with (yc_name y :: map fst d); [apply Permutation_cons_append|now constructor]. }
      split; [exact Hnd|]. split.
      * intros k c Hkc. apply (dict_get_NoDup _ _ String.eqb) in Hkc; auto; [|apply String.eqb_eq].
        rewrite dict_get_set in Hkc by apply String.eqb_eq. destruct (String.eqb k (yc_name y)) eqn:E.
        -- apply String.eqb_eq in E. injection Hkc as <-. now rewrite Hname.
        -- apply dict_get_In in Hkc; [|apply String.eqb_eq]. now apply I2.
      * intros k c. rewrite dict_get_set by apply String.eqb_eq. destruct (String.eqb k (yc_name y)) eqn:E.
        -- apply String.eqb_eq in E. subst k. split.
           ++ intros [= <-]. exists ys, y, r, []. repeat split; auto. intros y' [].
           ++ intros (l & y' & r' & rest & E & En & Ef' & -> & Hrest).
              destruct rest as [|z rest] using rev_ind.
              ** apply app_inj_tail in E as [_ ->]. congruence.
              ** clear IHrest. rewrite app_comm_cons, app_assoc in E. apply app_inj_tail in E as [_ ->].
                 rewrite Hrest in Ef; [discriminate|apply in_or_app; right; now left|reflexivity].
        -- rewrite I3. apply String.eqb_neq in E. split.
           ++ intros (l & y' & r' & rest & -> & En & Ef' & -> & Hrest). exists l, y', r', (rest ++ [y]). rewrite <- app_assoc. repeat split; auto.
              intros z Hz Ez. apply in_app_or in Hz as [Hz|[<-|[]]]; [now apply Hrest|]. congruence.
           ++ intros (l & y' & r' & rest & E' & En & Ef' & -> & Hrest).
              destruct rest as [|z rest] using rev_ind.
              ** apply app_inj_tail in E' as [_ ->]. congruence.
              ** clear IHrest. rewrite app_comm_cons, app_assoc in E'. apply app_inj_tail in E' as [-> ->].
                 exists l, y', r', rest. repeat split; auto. intros w Hw. apply Hrest. apply in_or_app. now left.
    + split; [exact I1|]. split; [exact I2|]. intros k c. rewrite I3. split.
      * intros (l & y' & r' & rest & -> & En & Ef' & -> & Hrest). exists l, y', r', (rest ++ [y]). rewrite <- app_assoc. repeat split; auto.
        intros z Hz Ez. apply in_app_or in Hz as [Hz|[<-|[]]]; [now apply Hrest|exact Ef].
      * intros (l & y' & r' & rest & E' & En & Ef' & -> & Hrest).
        destruct rest as [|z rest] using rev_ind.
        -- apply app_inj_tail in E' as [_ ->]. congruence.
        -- clear IHrest. rewrite app_comm_cons, app_assoc in E'. apply app_inj_tail in E' as [-> ->].
           exists l, y', r', rest. repeat split; auto. intros w Hw. apply Hrest. apply in_or_app. now left.
Qed.

(** the dates that collections give to the model *)
Theorem influencing_dates_proof : forall cs d, In d (collections_time_vector cs) <->
  exists k c, In (k, c) cs /\ tc_influence c = true /\ In d (tsr_dates (tc_resource c)).
Proof.
  intros cs d. unfold collections_time_vector. rewrite in_flat_map. split.
  - intros ([k c] & H & Hd). cbn [snd] in Hd. destruct (tc_influence c) eqn:E; [|destruct Hd]. now exists k, c.
  - intros (k & c & H & E & Hd). exists (k, c). split; auto. cbn [snd]. now rewrite E.
Qed.

Lemma configured_iff : forall y r c, c = collection_from_yaml r y <-> as_configured y r c.
Proof.
  intros y r c. unfold as_configured, collection_from_yaml. split.
  - intros ->. destruct (yc_type y); cbn; auto.
  - destruct c as [n r' i e f]. cbn. intros (-> & -> & -> & H). destruct (yc_type y); destruct H as [-> ->]; reflexivity.
Qed.
Theorem collections_create_proof : forall ys resources, resources <> [] ->
  let cs := collections_create ys resources in
  NoDup (map fst cs) /\ (forall k c, In (k, c) cs -> tc_name c = k) /\
  forall k c, dict_get String.eqb k cs = Some c <->
    exists l y r rest, ys = l ++ y :: rest /\ yc_name y = k /\ dict_get String.eqb (yc_file y) resources = Some r /\
      as_configured y r c /\
      forall y', In y' rest -> yc_name y' = k -> dict_get String.eqb (yc_file y') resources = None.
Proof.
  intros ys resources Hne cs. destruct (collections_create_core ys resources Hne) as (H1 & H2 & H3). fold cs in H1, H2, H3.
  split; [assumption|]. split; [assumption|]. intros k c. rewrite H3.
  split; intros (l & y & r & rest & E1 & E2 & E3 & E4 & E5); exists l, y, r, rest;
    (split; [assumption|]); (split; [assumption|]); (split; [assumption|]); (split; [now apply configured_iff|assumption]).
Qed.

Lemma filter_other : forall h l, ~ In h l -> filter (fun x => negb (String.eqb x h)) l = l.
Proof.
  intros h l. induction l as [|x l IH]; intros H; cbn; [reflexivity|]. rewrite (proj2 (String.eqb_neq x h)) by (intros ->; apply H; now left).
  cbn. f_equal. apply IH. intros Hl. apply H. now right.
Qed.
Lemma NoDup_of_map : forall A B (f : A -> B) l, NoDup (map f l) -> NoDup l.
Proof.
  intros A B f l. induction l as [|x l IH]; intros H; [constructor|]. inversion H; subst. constructor; auto. intros Hx. apply H2. now apply in_map.
Qed.
Theorem date_column_proof : forall parse r res, NoDup (map lower (mr_headers r)) -> List.length (mr_headers r) = List.length (mr_data r) ->
  make_ts_resource parse r = Ok res ->
  exists h i column, date_column (mr_headers r) h /\ nth_error (mr_headers r) i = Some h /\ nth_error (mr_data r) i = Some column /\
    parse column = Ok (tsr_dates res) /\ tsr_resource res = r /\
    tsr_headers res = filter (fun x => negb (String.eqb x h)) (mr_headers r).
Proof.
  intros parse r res Hnd Hlen H. unfold make_ts_resource in H.
  assert (Hcol : forall h, In h (mr_headers r) -> exists i column, nth_error (mr_headers r) i = Some h /\ nth_error (mr_data r) i = Some column /\ get_column r h = Ok column).
  { intros h Hh. apply In_nth_error in Hh as [i Hi]. destruct (nth_error (mr_data r) i) as [column|] eqn:E.
    - exists i, column. repeat split; auto. now apply (get_column_proof r i).
    - apply nth_error_None in E. assert (i < List.length (mr_headers r))%nat by (apply nth_error_Some; congruence). lia. }
  assert (Hex : forall h, existsb (String.eqb h) (mr_headers r) = true <-> In h (mr_headers r)).
  { intros h. rewrite existsb_exists. split; [intros (x & Hx & E); apply String.eqb_eq in E; now subst|]. intros Hx. exists h. split; auto. apply String.eqb_refl. }
  assert (Hgo : forall h, date_column (mr_headers r) h -> In h (mr_headers r) ->
     (do tv <- (do c <- get_column r h; parse c); Ok (mkTSResource r (filter (fun x => negb (String.eqb x h)) (mr_headers r)) tv)) = Ok res ->
     exists h i column, date_column (mr_headers r) h /\ nth_error (mr_headers r) i = Some h /\ nth_error (mr_data r) i = Some column /\
       parse column = Ok (tsr_dates res) /\ tsr_resource res = r /\ tsr_headers res = filter (fun x => negb (String.eqb x h)) (mr_headers r)).
  { intros h Hd Hh Hr. destruct (Hcol h Hh) as (i & column & H1 & H2 & H3). rewrite H3 in Hr. cbn [bind] in Hr.
    destruct (parse column) as [tv|e] eqn:Ep; [|discriminate]. cbn [bind] in Hr. injection Hr as <-. exists h, i, column. repeat split; auto. }
  destruct (mr_headers r) as [|first rest] eqn:Eh; [discriminate|]. rewrite <- Eh in *.
  destruct (existsb (String.eqb "DATE") (mr_headers r)) eqn:E1.
  - apply Hex in E1. apply (Hgo "DATE"%string); [left; auto|assumption|]. destruct (get_column r "DATE"); [|discriminate]. cbn [bind fst snd] in *. exact H.
  - assert (N1 : ~ In "DATE"%string (mr_headers r)) by (rewrite <- Hex; congruence).
    destruct (existsb (String.eqb "DATES") (mr_headers r)) eqn:E2.
    + apply Hex in E2. apply (Hgo "DATES"%string); [right; left; auto|assumption|]. destruct (get_column r "DATES"); [|discriminate]. cbn [bind fst snd] in *. exact H.
    + assert (N2 : ~ In "DATES"%string (mr_headers r)) by (rewrite <- Hex; congruence).
      apply (Hgo first); [right; right; rewrite Eh in *; auto|rewrite Eh; now left|].
      destruct (get_column r first); [|discriminate]. cbn [bind fst snd] in *.
      replace (filter (fun x => negb (String.eqb x first)) (mr_headers r)) with rest; [exact H|].
      rewrite Eh in Hnd |- *. apply NoDup_of_map in Hnd. inversion Hnd; subst. cbn [filter]. rewrite String.eqb_refl. cbn [negb]. now rewrite filter_other.
Qed.

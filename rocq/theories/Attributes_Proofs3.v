(** Proofs about exported attributes: sums over windows and components. *)
From Coq Require Import String PeanoNat Sorted.
From Verif Require Import QcTac Num Time_Model Time_Spec Time_Proofs Time_Proofs2 Time_Proofs3 Units_Model Rates_Model Rates_Spec Rates_Proofs Rates_Proofs3 Rates_Proofs4 Numbers_Model Base BaseLemmas Export_Model Export_Spec Export_Proofs Export_Proofs2 Export_Proofs3 Attributes_Model Attributes_Spec Attributes_Proofs Attributes_Proofs2.
Local Open Scope list_scope.

Lemma contains_spec : forall w d, contains_date w d = true <-> In_period d w.
Proof. intros w d. unfold contains_date, In_period. lia. Qed.
Lemma wants_meta : forall q a, matches q a <-> wants q (a_meta a).
Proof. intros q a. unfold wants, matches. cbn. tauto. Qed.
Lemma wants_dec : forall q m, {wants q m} + {~ wants q m}.
Proof. intros q m. destruct (skipped q m) eqn:E; [right; apply (skipped_out q (mkAttribute m [])); exact E|left; apply (skipped_spec q (mkAttribute m [])); exact E]. Qed.

Lemma windows_total : forall M (F : period * M -> result attribute) (g : period * M -> meta) (V : period -> Qc -> Prop) ws, ordered ws ->
  (forall e, In e ws -> exists a, F e = Ok a /\ a_meta a = g e /\ forall p x, V p x -> points_in p (a_points a) = if contains_date (fst e) (p_start p) then x else 0%Qc) ->
  exists l, mapM F ws = Ok l /\ forall q p x, V p x ->
    ((exists e, In e ws /\ In_period (p_start p) (fst e) /\ wants q (g e)) /\ total_in (matches q) p l x) \/
    (~ (exists e, In e ws /\ In_period (p_start p) (fst e) /\ wants q (g e)) /\ total_in (matches q) p l 0%Qc).
Proof.
  intros M F g V ws. induction ws as [|e ws IH]; intros [S NE] H.
  - exists []. split; [reflexivity|]. intros q p x _. right. split; [intros (e & [] & _)|constructor].
  - inversion S as [|? ? S' SH]; subst. inversion NE as [|? ? N1 NE']; subst. destruct IH as (l & E & T); [split; auto|intros e' I; apply H; now right|].
    destruct (H e (or_introl eq_refl)) as (a & Ea & Ma & Pa). exists (a :: l). split; [cbn [mapM]; rewrite Ea; cbn [Base.bind]; now rewrite E|].
    intros q p x Vx. specialize (Pa p x Vx). specialize (T q p x Vx). destruct (wants_dec q (g e)) as [Y|Y].
    + assert (matches q a) as Ym by (apply wants_meta; now rewrite Ma). destruct (contains_date (fst e) (p_start p)) eqn:D.
      * apply contains_spec in D. left. split; [exists e; split; [now left|split; [exact D|exact Y]]|].
        assert (total_in (matches q) p l 0%Qc) as T0.
        { destruct T as [[(e' & I' & D' & _) _]|[_ T]]; auto. exfalso. rewrite Forall_forall in SH, NE'. specialize (SH e' I'). unfold In_period in *. lia. }
        replace x with (points_in p (a_points a) + 0)%Qc by (rewrite Pa; ring). now constructor.
      * assert (~ In_period (p_start p) (fst e)) as D'. { intros X. apply contains_spec in X. congruence. }
        destruct T as [[(e' & I' & X) T]|[T0 T]].
        -- left. split; [exists e'; split; [now right|exact X]|]. replace x with (points_in p (a_points a) + x)%Qc by (rewrite Pa; ring). now constructor.
        -- right. split; [intros (e' & [<-|I'] & X); [tauto|apply T0; eauto]|]. replace 0%Qc with (points_in p (a_points a) + 0)%Qc by (rewrite Pa; ring). now constructor.
    + assert (~ matches q a) as Ym by (rewrite wants_meta, Ma; exact Y). destruct T as [[(e' & I' & X) T]|[T0 T]].
      * left. split; [exists e'; split; [now right|exact X]|]. now constructor.
      * right. split; [intros (e' & [<-|I'] & X); [tauto|apply T0; eauto]|]. now constructor.
Qed.

Lemma total_app : forall P p l m x y, total_in P p l x -> total_in P p m y -> total_in P p (l ++ m) (x + y)%Qc.
Proof.
  intros P p l m x y T U. induction T as [|a l x Pa T IH|a l x Pa T IH]; cbn [app].
  - replace (0 + y)%Qc with y by ring. exact U.
  - replace (points_in p (a_points a) + x + y)%Qc with (points_in p (a_points a) + (x + y))%Qc by ring. now constructor.
  - now constructor.
Qed.
Lemma components_total : forall C (G : C -> result (list attribute)) (ps : list period) (P : query -> period -> C -> Prop) (V : C -> period -> Qc -> Prop) cs,
  (forall c, In c cs -> exists l, G c = Ok l /\ forall q p, In p ps -> exists x, V c p x /\ ((P q p c /\ total_in (matches q) p l x) \/ (~ P q p c /\ total_in (matches q) p l 0%Qc))) ->
  exists l, (do ls <- mapM G cs; Ok (concat ls)) = Ok l /\ forall q p, In p ps -> exists x, sum_over (P q p) (fun c => V c p) cs x /\ total_in (matches q) p l x.
Proof.
  intros C G ps P V cs. induction cs as [|c cs IH]; intros H.
  - exists []. split; [reflexivity|]. intros q p _. exists 0%Qc. split; constructor.
  - destruct IH as (l & E & T); [intros; apply H; now right|]. destruct (H c (or_introl eq_refl)) as (l0 & E0 & T0). destruct (mapM G cs) as [ls|] eqn:M; cbn [Base.bind] in E; [|discriminate].
    exists (l0 ++ l). split; [cbn [mapM]; rewrite E0; cbn [Base.bind]; rewrite M; cbn [Base.bind concat]; congruence|]. intros q p I. destruct (T q p I) as (x & Sx & Tx). destruct (T0 q p I) as (y & Vy & [[Py Ty]|[Py Ty]]).
    + exists (y + x)%Qc. split; [now constructor|now apply total_app].
    + exists x. split; [now constructor|]. replace x with (0 + x)%Qc by ring. now apply total_app.
Qed.

(** the volume of every period of a series is defined *)
Lemma volume_exists : forall s u p, rate_well_formed s -> to_volume_unit s u -> In p (r_periods s) -> exists x, volume_at s u p x.
Proof.
  intros s u p W (vu & f & U & F) I. apply In_nth_error in I as (k & P). pose proof (calendar_rates_length _ W) as L.
  assert (k < List.length (calendar_rates s))%nat as K by (rewrite L; apply nth_error_Some; congruence). apply nth_error_Some in K. destruct (nth_error (calendar_rates s) k) as [r|] eqn:R; [|congruence].
  eexists. exists k, r, vu, f. repeat split; eauto.
Qed.
Lemma level_exists : forall s u f p, rate_well_formed s -> unit_to (r_unit s) u = Ok f -> In p (r_periods s) -> exists x, level_at s u p x.
Proof.
  intros s u f p (_ & _ & L & _) F I. apply In_nth_error in I as (k & P).
  assert (k < List.length (r_values s))%nat as K by (rewrite L; apply nth_error_Some; congruence). apply nth_error_Some in K. destruct (nth_error (r_values s) k) as [r|] eqn:R; [|congruence].
  eexists. exists k, r, f. repeat split; eauto.
Qed.
Lemma grid_window : forall M ps (ws : list (period * M)) e, ordered ws -> on_grid ps ws -> In e ws -> window_ok ps (fst e).
Proof. intros M ps ws e [_ N] G I. rewrite Forall_forall in N. destruct (G e I). split; [now apply N|]. auto. Qed.
Lemma force_entry : forall M (tm : list (period * M)) d (Q : M -> Prop), (exists e, In e tm /\ In_period d (fst e) /\ Q (snd e)) <-> exists m, in_force tm d m /\ Q m.
Proof.
  intros M tm d Q. split.
  - intros ([w m] & I & D & X). exists m. split; [exists w; auto|exact X].
  - intros (m & (w & I & D) & X). exists (w, m). auto.
Qed.

(** ** C66 Producers and storage *)
Theorem production_proof : forall i u ps,
  (forall x, In x (in_producers i) -> exists c, pr_category x = Some c /\ ordered c /\ on_grid ps c /\ rate_well_formed (pr_production x) /\ r_periods (pr_production x) = ps /\ to_volume_unit (pr_production x) u) ->
  exists l, electricity_production i u = Ok l /\ forall q p, In p ps -> exists x,
    sum_over (fun c => exists m, producer_labels (pr_category c) p m /\ wants q m) (fun c => volume_at (pr_production c) u p) (in_producers i) x /\
    total_in (matches q) p l x.
Proof.
  intros i u ps H. unfold electricity_production. apply components_total. intros c I. destruct (H c I) as (cs & Ec & O & G & W & Eps & U). rewrite Ec. cbn [items of_option Base.bind].
  destruct (windows_total string (fun pc => do v <- volumes_for (pr_production c) (fst pc) u; Ok (attribute_of (mkMeta None None (Some (snd pc)) None) v)) (fun pc => mkMeta None None (Some (snd pc)) None) (volume_at (pr_production c) u) cs O) as (l & E & T).
  { intros e Ie. destruct (volumes_window (pr_production c) (fst e) u W) as (v & Ev & P); [rewrite Eps; now apply (grid_window _ _ _ _ O G)|exact U|]. eexists. split; [rewrite Ev; reflexivity|]. split; [reflexivity|exact P]. }
  exists l. split; [exact E|]. intros q p Ip. destruct (volume_exists (pr_production c) u p W U) as (x & Vx); [now rewrite Eps|]. exists x. split; [exact Vx|].
  specialize (T q p x Vx). rewrite (force_entry _ cs (p_start p) (fun k => wants q (mkMeta None None (Some k) None))) in T.
  destruct T as [[(k & A) T]|[A T]]; [left|right]; (split; [|exact T]).
  - destruct A as [A B]. eexists. split; [exists cs, k; eauto|exact B].
  - intros (m' & (cs' & k & E' & B & ->) & B'). apply A. assert (cs' = cs) as -> by congruence. eauto.
Qed.
Theorem maximum_proof : forall i u ps,
  (forall x m, In x (in_producers i) -> pr_maximum x = Some m -> exists c f, pr_category x = Some c /\ ordered c /\ on_grid ps c /\ rate_well_formed m /\ r_periods m = ps /\ unit_to (r_unit m) u = Ok f) ->
  exists l, maximum_electricity_production i u = Ok l /\ forall q p, In p ps -> exists x,
    sum_over (fun c => pr_maximum c <> None /\ exists m, producer_labels (pr_category c) p m /\ wants q m)
      (fun c y => forall m, pr_maximum c = Some m -> level_at m u p y) (in_producers i) x /\
    total_in (matches q) p l x.
Proof.
  intros i u ps H. unfold maximum_electricity_production. apply components_total. intros c I. destruct (pr_maximum c) as [m|] eqn:Em.
  - destruct (H c m I Em) as (cs & f & Ec & O & G & W & Eps & U). rewrite Ec. cbn [items of_option Base.bind].
    destruct (windows_total string (fun pc => do r <- rate_for_period m (fst pc); do r <- rate_to_unit r u; Ok (mkAttribute (mkMeta None None (Some (snd pc)) None) (zip (r_periods r) (r_values r))))
      (fun pc => mkMeta None None (Some (snd pc)) None) (level_at m u) cs O) as (l & E & T).
    { intros e Ie. destruct (level_window m (fst e) u f W) as (r & v & Er & Ev & P); [rewrite Eps; now apply (grid_window _ _ _ _ O G)|exact U|]. eexists. split; [rewrite Er; cbn [Base.bind]; rewrite Ev; reflexivity|]. split; [reflexivity|exact P]. }
    exists l. split; [exact E|]. intros q p Ip. destruct (level_exists m u f p W U) as (x & Vx); [now rewrite Eps|]. exists x. split; [intros m' Em'; assert (m' = m) as -> by congruence; exact Vx|].
    specialize (T q p x Vx). rewrite (force_entry _ cs (p_start p) (fun k => wants q (mkMeta None None (Some k) None))) in T.
    destruct T as [[(k & A) T]|[A T]]; [left|right]; (split; [|exact T]).
    + split; [congruence|]. destruct A as [A B]. eexists. split; [exists cs, k; eauto|exact B].
    + intros (_ & m' & (cs' & k & E' & B & ->) & B'). apply A. assert (cs' = cs) as -> by congruence. eauto.
  - exists []. split; [reflexivity|]. intros q p _. exists 0%Qc. split; [intros m; discriminate|]. right. split; [intros [X _]; congruence|constructor].
Qed.
Theorem storage_proof : forall i u ps,
  (forall x, In x (in_containers i) -> exists c, co_category x = Some c /\ ordered c /\ inside_grid ps c /\ rate_well_formed (co_rates x) /\ r_periods (co_rates x) = ps /\ to_volume_unit (co_rates x) u) ->
  exists l, storage_volumes i u = Ok l /\ forall q p, In p ps -> exists x,
    sum_over (fun c => exists m, storage_labels (co_category c) p m /\ wants q m) (fun c => volume_at (co_rates c) u p) (in_containers i) x /\
    total_in (matches q) p l x.
Proof.
  intros i u ps H. unfold storage_volumes. apply components_total. intros c I. destruct (H c I) as (cs & Ec & O & G & W & Eps & U). rewrite Ec. cbn [items of_option].
  pose proof U as (vu & f & U1 & U2). destruct (volumes_either_proof (co_rates c) vu W U1) as [V _]. rewrite V. cbn [Base.bind].
  destruct (unit_conversion (r_periods (co_rates c)) (map2 rate_volume (calendar_rates (co_rates c)) (r_periods (co_rates c))) vu u f U2) as (g & S & _). rewrite S. cbn [Base.bind].
  destruct (windows_total string (fun pc => do s <- series_for_period (mkSeries (r_periods (co_rates c)) (map (option_map g) (map2 rate_volume (calendar_rates (co_rates c)) (r_periods (co_rates c)))) u) (fst pc);
     Ok (attribute_of (mkMeta None (Some (snd pc)) None None) s)) (fun pc => mkMeta None (Some (snd pc)) None None) (volume_at (co_rates c) u) cs O) as (l & E & T).
  { intros e Ie. destruct (G e Ie) as [G1 G2]. destruct (storage_window (co_rates c) (fst e) u W) as (v & v' & x & Ev & Ev' & Ex & P).
    - rewrite Eps. destruct O as [_ N]. rewrite Forall_forall in N. split; [now apply N|]. split; left; assumption.
    - exact U.
    - now rewrite Eps.
    - now rewrite Eps.
    - rewrite V in Ev. injection Ev as <-. rewrite S in Ev'. injection Ev' as <-. eexists. split; [rewrite Ex; reflexivity|]. split; [reflexivity|exact P]. }
  exists l. split; [exact E|]. intros q p Ip. destruct (volume_exists (co_rates c) u p W U) as (x & Vx); [now rewrite Eps|]. exists x. split; [exact Vx|].
  specialize (T q p x Vx). rewrite (force_entry _ cs (p_start p) (fun k => wants q (mkMeta None (Some k) None None))) in T.
  destruct T as [[(k & A) T]|[A T]]; [left|right]; (split; [|exact T]).
  - destruct A as [A B]. eexists. split; [exists cs, k; eauto|exact B].
  - intros (m' & (cs' & k & E' & B & ->) & B'). apply A. assert (cs' = cs) as -> by congruence. eauto.
Qed.

(** Proofs about exported attributes: fuel, power and emissions. *)
From Coq Require Import String PeanoNat Sorted.
From Verif Require Import QcTac Num Time_Model Time_Spec Time_Proofs Time_Proofs2 Time_Proofs3 Units_Model Units_Proofs Rates_Model Rates_Spec Numbers_Model Base BaseLemmas Export_Model Export_Spec Export_Proofs Attributes_Model Attributes_Spec Attributes_Proofs2 Attributes_Proofs3 Attributes_Proofs4 Attributes_Proofs5.
Local Open Scope list_scope.

Lemma scope_ext : forall P Q p, (forall d, P d <-> Q d) -> (in_scope P p <-> in_scope Q p).
Proof. intros P Q p H. unfold in_scope. split; intros [(a & L1 & A) (b & L2 & B)]; (split; [exists a|exists b]; (split; [assumption|])); now apply H. Qed.
Lemma defined_none : forall M d, ~ defined (@None (list (period * M))) d.
Proof. intros M d (l & m & E & _). discriminate. Qed.
Lemma defined_some : forall M (tm : list (period * M)) d, defined (Some tm) d <-> exists m, in_force tm d m.
Proof. intros M tm d. split; [intros (l & m & E & F); injection E as <-; eauto|intros (m & F); exists tm, m; auto]. Qed.

(** the windows of a component that burns a fuel *)
Lemma fuel_windows : forall ps fuel (c : categories), fuel_ok fuel -> fuel_on_grid ps fuel -> ordered c -> on_grid ps c ->
  exists f ws, fuel_category fuel = Ok f /\ combine_categories (Some f) (Some c) None = Ok ws /\ ordered ws /\ on_grid ps ws /\
    forall p (Q : meta -> Prop), (exists e, In e ws /\ In_period (p_start p) (fst e) /\ Q (snd e)) <->
      in_scope (fun d => fuel_defined fuel d \/ exists k, in_force c d k) p /\ exists f k, fuel_category_at fuel p f /\ category_at c p k /\ Q (mkMeta f k None None).
Proof.
  intros ps fuel c F G O Gc. exists (flat_map pieces fuel).
  destruct (combine_ok ps (Some (flat_map pieces fuel)) (Some c) None) as (ws & E & Ow & Gw & X).
  - cbn. auto.
  - intros l El. injection El as <-. split; [now apply pieces_ordered|now apply pieces_grid].
  - intros l El. injection El as <-. auto.
  - intros l El. discriminate.
  - exists ws. split; [now apply fuel_category_ok|]. split; [exact E|]. split; [exact Ow|]. split; [exact Gw|]. intros p Q. rewrite X.
    rewrite (scope_ext _ (fun d => fuel_defined fuel d \/ exists k, in_force c d k)).
    2:{ intros d. rewrite (fuel_defined_iff fuel d F), (defined_some _ c d). pose proof (defined_none string d). tauto. }
    split; intros [A B]; (split; [exact A|]).
    + eexists. eexists. split; [apply (fuel_lookup fuel p F)|]. split; [apply (lookup_category _ c p _ O); reflexivity|]. exact B.
    + destruct B as (f & k & B1 & B2 & B3). unfold meta_at. apply (lookup_category _ c p _ O) in B2. pose proof (fuel_at_unique fuel p _ f F (fuel_lookup fuel p F) B1) as B4. unfold categories in *. rewrite B2, B4. exact B3.
Qed.
Lemma producer_windows : forall ps (c r : categories), ordered c -> on_grid ps c -> ordered r -> on_grid ps r ->
  exists ws, combine_categories None (Some c) (Some r) = Ok ws /\ ordered ws /\ on_grid ps ws /\
    forall p (Q : meta -> Prop), (exists e, In e ws /\ In_period (p_start p) (fst e) /\ Q (snd e)) <->
      in_scope (fun d => (exists k, in_force c d k) \/ exists k, in_force r d k) p /\ exists k x, category_at c p k /\ category_at r p x /\ Q (mkMeta None k x None).
Proof.
  intros ps c r O Gc Or Gr.
  destruct (combine_ok ps None (Some c) (Some r)) as (ws & E & Ow & Gw & X).
  - cbn. auto.
  - intros l El. discriminate.
  - intros l El. injection El as <-. auto.
  - intros l El. injection El as <-. auto.
  - exists ws. split; [exact E|]. split; [exact Ow|]. split; [exact Gw|]. intros p Q. rewrite X.
    rewrite (scope_ext _ (fun d => (exists k, in_force c d k) \/ exists k, in_force r d k)).
    2:{ intros d. rewrite (defined_some _ c d), (defined_some _ r d). pose proof (defined_none (option string) d). tauto. }
    split; intros [A B]; (split; [exact A|]).
    + eexists. eexists. split; [apply (lookup_category _ c p _ O); reflexivity|]. split; [apply (lookup_category _ r p _ Or); reflexivity|]. exact B.
    + destruct B as (k & x & B1 & B2 & B3). unfold meta_at. apply (lookup_category _ c p _ O) in B1. apply (lookup_category _ r p _ Or) in B2. unfold categories in *. rewrite B1, B2. exact B3.
Qed.

Theorem fuel_proof : forall i ps vu,
  (forall x, In x (in_fuel_consumers i) -> exists c, fc_category x = Some c /\ ordered c /\ on_grid ps c /\ fuel_ok (fc_fuel x) /\ fuel_on_grid ps (fc_fuel x) /\
    rate_well_formed (fc_rate x) /\ r_periods (fc_rate x) = ps /\ rate_to_volume (r_unit (fc_rate x)) = Ok vu) ->
  exists l, fuel_consumption i = Ok l /\ forall q p, In p ps -> exists x,
    sum_over (fun c => exists m, fuel_labels c p m /\ wants q m) (fun c => volume_at (fc_rate c) vu p) (in_fuel_consumers i) x /\
    total_in (matches q) p l x.
Proof.
  intros i ps vu H. unfold fuel_consumption. apply components_total. intros c I. destruct (H c I) as (cs & Ec & O & G & F & Gf & W & Eps & U).
  destruct (fuel_windows ps (fc_fuel c) cs F Gf O G) as (f & ws & Ef & Ew & Ow & Gw & X). rewrite Ef. cbn [Base.bind]. rewrite Ec, Ew. cbn [Base.bind].
  destruct (windows_total meta (fun pm => do r <- rate_for_period (fc_rate c) (fst pm); do v <- rate_to_volumes r; Ok (attribute_of (snd pm) v)) snd (volume_at (fc_rate c) vu) ws Ow) as (l & E & T).
  { intros e Ie. destruct (fuel_window (fc_rate c) (fst e) vu W) as (r & v & Er & Ev & P); [rewrite Eps; now apply (grid_window _ _ _ _ Ow Gw)|exact U|]. eexists. split; [rewrite Er; cbn [Base.bind]; rewrite Ev; reflexivity|]. split; [reflexivity|exact P]. }
  exists l. split; [exact E|]. intros q p Ip.
  destruct (volume_exists (fc_rate c) vu p W) as (x & Vx); [exists vu; eexists; split; [exact U|apply unit_to_refl_proof]|now rewrite Eps|]. exists x. split; [exact Vx|].
  specialize (T q p x Vx). rewrite (X p (wants q)) in T.
  destruct T as [[(A & f0 & k & B1 & B2 & B3) T]|[A T]]; [left|right]; (split; [|exact T]).
  - eexists. split; [exists cs, f0, k; eauto 6|exact B3].
  - intros (m & (cs' & f0 & k & E' & B0 & B1 & B2 & ->) & B3). apply A. assert (cs' = cs) as -> by congruence. split; [exact B0|]. eauto.
Qed.

Theorem power_proof : forall i u ps,
  (forall x, In x (in_power_consumers i) -> exists c, pc_category x = Some c /\ ordered c /\ on_grid ps c /\
    (forall pr, pc_producer x = Some pr -> exists r, pr = Some r /\ ordered r /\ on_grid ps r) /\
    rate_well_formed (pc_rate x) /\ r_periods (pc_rate x) = ps /\ to_volume_unit (pc_rate x) u) ->
  exists l, power_consumption i u = Ok l /\ forall q p, In p ps -> exists x,
    sum_over (fun c => exists m, power_labels c p m /\ wants q m) (fun c => volume_at (pc_rate c) u p) (in_power_consumers i) x /\
    total_in (matches q) p l x.
Proof.
  intros i u ps H. unfold power_consumption. apply components_total. intros c I. destruct (H c I) as (cs & Ec & O & G & Pr & W & Eps & U).
  assert (exists ws, power_windows c = Ok ws /\ ordered ws /\ on_grid ps ws /\ (forall e, In e ws -> snd e = mkMeta None (m_consumer (snd e)) (m_producer (snd e)) None) /\
    forall p (Q : meta -> Prop), (exists e, In e ws /\ In_period (p_start p) (fst e) /\ Q (snd e)) <-> exists m, power_labels c p m /\ Q m) as (ws & Ew & Ow & Gw & Sh & X).
  { unfold power_windows, power_labels. rewrite Ec. cbn [of_option Base.bind]. destruct (pc_producer c) as [pr|].
    - destruct (Pr pr eq_refl) as (r & -> & Or & Gr). cbn [of_option Base.bind]. destruct (producer_windows ps cs r O G Or Gr) as (ws & Ew & Ow & Gw & X). exists ws. split; [exact Ew|]. split; [exact Ow|]. split; [exact Gw|]. split.
      + intros e Ie. unfold combine_categories in Ew. cbn in Ew. injection Ew as <-. apply in_map_iff in Ie as (w & <- & _). reflexivity.
      + intros p Q. rewrite X. split.
        * intros (A & k & x & B1 & B2 & B3). eexists. split; [|exact B3]. exists cs. split; [reflexivity|]. exists r, k, x. auto.
        * intros (m & (cs' & E' & rs & k & x & Er & A & B1 & B2 & ->) & B3). injection E' as <-. injection Er as <-. split; [exact A|]. eauto.
    - eexists. split; [reflexivity|]. split; [|split; [|split]].
      + destruct O as [S N]. split.
        * clear - S. induction S as [|a l S IH F]; cbn [map]; constructor; auto. apply Forall_forall. intros e J. apply in_map_iff in J as (y & <- & J). rewrite Forall_forall in F. now apply F.
        * apply Forall_forall. intros e J. apply in_map_iff in J as (y & <- & J). rewrite Forall_forall in N. now apply N.
      + intros e J. apply in_map_iff in J as (y & <- & J). now apply (G y).
      + intros e J. apply in_map_iff in J as (y & <- & J). reflexivity.
      + intros p Q. split.
        * intros (e & J & D & K). apply in_map_iff in J as ([w m] & <- & J). cbn [fst snd] in *. eexists. split; [|exact K]. exists cs. split; [reflexivity|]. exists m. split; [exists w; auto|reflexivity].
        * intros (m & (cs' & E' & k & (w & J & D) & ->) & K). injection E' as <-. eexists. split; [apply in_map_iff; exists (w, k); split; [reflexivity|exact J]|]. auto. }
  rewrite Ew. cbn [Base.bind].
  destruct (windows_total meta (fun pm => do v <- volumes_for (pc_rate c) (fst pm) u; Ok (attribute_of (mkMeta None (m_consumer (snd pm)) (m_producer (snd pm)) None) v)) snd (volume_at (pc_rate c) u) ws Ow) as (l & E & T).
  { intros e Ie. destruct (volumes_window (pc_rate c) (fst e) u W) as (v & Ev & P); [rewrite Eps; now apply (grid_window _ _ _ _ Ow Gw)|exact U|]. eexists. split; [rewrite Ev; reflexivity|]. split; [cbn [attribute_of a_meta]; symmetry; now apply Sh|exact P]. }
  exists l. split; [exact E|]. intros q p Ip. destruct (volume_exists (pc_rate c) u p W U) as (x & Vx); [now rewrite Eps|]. exists x. split; [exact Vx|].
  specialize (T q p x Vx). rewrite (X p (wants q)) in T. tauto.
Qed.

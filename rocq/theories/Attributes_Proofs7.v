(** Proofs about exported attributes: emissions. *)
From Coq Require Import String PeanoNat Sorted.
From Verif Require Import QcTac Num Time_Model Time_Spec Time_Proofs Time_Proofs2 Time_Proofs3 Units_Model Units_Proofs Rates_Model Rates_Spec Numbers_Model Base BaseLemmas Export_Model Export_Spec Export_Proofs Attributes_Model Attributes_Spec Attributes_Proofs2 Attributes_Proofs3 Attributes_Proofs4 Attributes_Proofs5 Attributes_Proofs6.
Local Open Scope list_scope.

Lemma sum_over_ext : forall C (P Q : C -> Prop) v l x, (forall c, In c l -> (P c <-> Q c)) -> sum_over P v l x -> sum_over Q v l x.
Proof.
  intros C P Q v l x H S. induction S as [|c l y x Pc V S IH|c l x Pc S IH]; [constructor| |].
  - constructor; auto; [apply H; auto; now left|apply IH; intros; apply H; now right].
  - apply O_out; [|apply IH; intros; apply H; now right]. intros X. apply Pc. apply H; auto. now left.
Qed.
Lemma sum_over_none : forall C (P : C -> Prop) v l, (forall c, In c l -> ~ P c) -> sum_over P v l 0%Qc.
Proof. intros C P v l H. induction l as [|c l IH]; [constructor|]. apply O_out; [apply H; now left|apply IH; intros; apply H; now right]. Qed.

(** the emissions of one window *)
Lemma window_emissions : forall ps u w (g : string -> meta) (ems : list (string * rate_series)), window_ok ps w ->
  (forall ne, In ne ems -> rate_well_formed (snd ne) /\ r_periods (snd ne) = ps /\ to_volume_unit (snd ne) u) ->
  exists l, mapM (fun ne => do v <- volumes_for (snd ne) w u; Ok (attribute_of (g (fst ne)) v)) ems = Ok l /\
    forall q p, In p ps -> if contains_date w (p_start p) then exists x, sum_over (fun ne => wants q (g (fst ne))) (fun ne => volume_at (snd ne) u p) ems x /\ total_in (matches q) p l x else total_in (matches q) p l 0%Qc.
Proof.
  intros ps u w g ems Ww. induction ems as [|ne ems IH]; intros H.
  - exists []. split; [reflexivity|]. intros q p _. destruct (contains_date w (p_start p)); [exists 0%Qc; split; constructor|constructor].
  - destruct IH as (l & E & T); [intros; apply H; now right|]. destruct (H ne (or_introl eq_refl)) as (W & Eps & U). destruct (volumes_window (snd ne) w u W) as (v & Ev & P); [now rewrite Eps|exact U|].
    eexists. split; [cbn [mapM]; rewrite Ev; cbn [Base.bind]; rewrite E; reflexivity|]. intros q p Ip. specialize (T q p Ip). destruct (volume_exists (snd ne) u p W U) as (y & Vy); [now rewrite Eps|]. specialize (P p y Vy).
    change (zip (s_periods v) (s_values v)) with (a_points (attribute_of (g (fst ne)) v)) in P. destruct (wants_dec q (g (fst ne))) as [Y|Y].
    + assert (matches q (attribute_of (g (fst ne)) v)) as Ym by (apply wants_meta; exact Y). destruct (contains_date w (p_start p)).
      * destruct T as (x & S & T). exists (y + x)%Qc. split; [now constructor|]. rewrite <- P. now constructor.
      * replace 0%Qc with (points_in p (a_points (attribute_of (g (fst ne)) v)) + 0)%Qc by (rewrite P; ring). now constructor.
    + assert (~ matches q (attribute_of (g (fst ne)) v)) as Ym by (rewrite wants_meta; exact Y). destruct (contains_date w (p_start p)).
      * destruct T as (x & S & T). exists x. split; now constructor.
      * now constructor.
Qed.

(** the windows together: the only window that contains the start of the period counts *)
Lemma windows_lists : forall M (F : period * M -> result (list attribute)) (ps : list period) (V : query -> period -> period * M -> Qc -> Prop) ws, ordered ws ->
  (forall e, In e ws -> exists l, F e = Ok l /\ forall q p, In p ps -> if contains_date (fst e) (p_start p) then exists x, V q p e x /\ total_in (matches q) p l x else total_in (matches q) p l 0%Qc) ->
  exists ls, mapM F ws = Ok ls /\ forall q p, In p ps ->
    (exists e x, In e ws /\ In_period (p_start p) (fst e) /\ V q p e x /\ total_in (matches q) p (concat ls) x) \/
    ((forall e, In e ws -> ~ In_period (p_start p) (fst e)) /\ total_in (matches q) p (concat ls) 0%Qc).
Proof.
  intros M F ps V ws. induction ws as [|e ws IH]; intros [S N] H.
  - exists []. split; [reflexivity|]. intros q p _. right. split; [intros e []|constructor].
  - inversion S as [|? ? S' SH]; subst. inversion N as [|? ? N1 N']; subst. destruct IH as (ls & E & T); [split; auto|intros; apply H; now right|].
    destruct (H e (or_introl eq_refl)) as (l & El & Tl). exists (l :: ls). split; [cbn [mapM]; rewrite El; cbn [Base.bind]; now rewrite E|]. intros q p Ip. specialize (T q p Ip). specialize (Tl q p Ip). cbn [concat].
    destruct (contains_date (fst e) (p_start p)) eqn:D.
    + apply contains_spec in D. destruct Tl as (x & Vx & Tx). left. exists e, x. split; [now left|]. split; [exact D|]. split; [exact Vx|]. replace x with (x + 0)%Qc by ring. apply total_app; [exact Tx|].
      destruct T as [(e' & y & I' & D' & _)|[_ T]]; [|exact T]. exfalso. rewrite Forall_forall in SH. specialize (SH e' I'). unfold In_period in *. lia.
    + destruct T as [(e' & y & I' & D' & Vy & Ty)|[T0 T]].
      * left. exists e', y. split; [now right|]. split; [exact D'|]. split; [exact Vy|]. replace y with (0 + y)%Qc by ring. now apply total_app.
      * right. split; [intros e' [<-|I']; [intros X; apply contains_spec in X; congruence|now apply T0]|]. replace 0%Qc with (0 + 0)%Qc by ring. now apply total_app.
Qed.

Definition base_labels (x : emitter) (p : period) (m : meta) : Prop :=
  exists cs, em_category x = Some cs /\
  match em_fuel x with
  | None => exists k, in_force cs (p_start p) k /\ m = mkMeta None (Some k) None None
  | Some fuel => exists f k, in_scope (fun d => fuel_defined fuel d \/ exists c, in_force cs d c) p /\ fuel_category_at fuel p f /\ category_at cs p k /\ m = mkMeta f k None None
  end.
Lemma base_emission : forall x p name m, emission_labels x p name m <-> exists b, base_labels x p b /\ m = mkMeta (m_fuel b) (m_consumer b) None (Some name).
Proof.
  intros x p name m. unfold emission_labels, base_labels. split.
  - intros (cs & E & X). destruct (em_fuel x) as [fuel|].
    + destruct X as (f & k & A & B & C & ->). eexists. split; [exists cs; split; [exact E|]; exists f, k; eauto|reflexivity].
    + destruct X as (k & A & ->). eexists. split; [exists cs; split; [exact E|]; exists k; eauto|reflexivity].
  - intros (b & (cs & E & X) & ->). exists cs. split; [exact E|]. destruct (em_fuel x) as [fuel|].
    + destruct X as (f & k & A & B & C & ->). exists f, k. auto.
    + destruct X as (k & A & ->). exists k. auto.
Qed.
Lemma emission_windows_ok : forall ps x c, em_category x = Some c -> ordered c -> on_grid ps c -> (forall fuel, em_fuel x = Some fuel -> fuel_ok fuel /\ fuel_on_grid ps fuel) ->
  exists ws, emission_windows x = Ok ws /\ ordered ws /\ on_grid ps ws /\
    forall p (Q : meta -> Prop), (exists e, In e ws /\ In_period (p_start p) (fst e) /\ Q (snd e)) <-> exists m, base_labels x p m /\ Q m.
Proof.
  intros ps x c Ec O G Fu. unfold emission_windows, base_labels. rewrite Ec. cbn [of_option Base.bind]. destruct (em_fuel x) as [fuel|].
  - destruct (Fu fuel eq_refl) as [F Gf]. destruct (fuel_windows ps fuel c F Gf O G) as (f & ws & Ef & Ew & Ow & Gw & X). exists ws. split; [rewrite Ef; exact Ew|]. split; [exact Ow|]. split; [exact Gw|]. intros p Q. rewrite X. split.
    + intros (A & f0 & k & B1 & B2 & B3). eexists. split; [|exact B3]. exists c. split; [reflexivity|]. exists f0, k. auto.
    + intros (m & (cs' & E' & f0 & k & A & B1 & B2 & ->) & B3). injection E' as <-. split; [exact A|]. eauto.
  - eexists. split; [reflexivity|]. split; [|split].
    + destruct O as [S N]. split.
      * clear - S. induction S as [|a l S IH F]; cbn [map]; constructor; auto. apply Forall_forall. intros e J. apply in_map_iff in J as (y & <- & J). rewrite Forall_forall in F. now apply F.
      * apply Forall_forall. intros e J. apply in_map_iff in J as (y & <- & J). rewrite Forall_forall in N. now apply N.
    + intros e J. apply in_map_iff in J as (y & <- & J). now apply (G y).
    + intros p Q. split.
      * intros (e & J & D & K). apply in_map_iff in J as ([w m] & <- & J). cbn [fst snd] in *. eexists. split; [|exact K]. exists c. split; [reflexivity|]. exists m. split; [exists w; auto|reflexivity].
      * intros (m & (cs' & E' & k & (w & J & D) & ->) & K). injection E' as <-. eexists. split; [apply in_map_iff; exists (w, k); split; [reflexivity|exact J]|]. auto.
Qed.
Lemma window_unique : forall M (ws : list (period * M)) e f d, ordered ws -> In e ws -> In f ws -> In_period d (fst e) -> In_period d (fst f) -> snd e = snd f.
Proof.
  intros M ws [w m] [v n] d O I J D E. cbn in *. assert (in_force ws d m) as A by (exists w; auto). assert (in_force ws d n) as B by (exists v; auto).
  apply (get_model_force _ ws d m O) in A. apply (get_model_force _ ws d n O) in B. congruence.
Qed.

(** one emitter *)
Lemma emitter_total : forall ps u x, (exists c, em_category x = Some c /\ ordered c /\ on_grid ps c) -> (forall fuel, em_fuel x = Some fuel -> fuel_ok fuel /\ fuel_on_grid ps fuel) ->
  (forall ne, In ne (em_emissions x) -> rate_well_formed (snd ne) /\ r_periods (snd ne) = ps /\ to_volume_unit (snd ne) u) ->
  exists l, (do ws <- emission_windows x;
    do rs <- mapM (fun pm => mapM (fun ne => do v <- volumes_for (snd ne) (fst pm) u;
      Ok (attribute_of (mkMeta (m_fuel (snd pm)) (m_consumer (snd pm)) None (Some (fst ne))) v)) (em_emissions x)) ws;
    Ok (concat rs)) = Ok l /\
    forall q p, In p ps -> exists y, sum_over (fun ne => exists m, emission_labels x p (fst ne) m /\ wants q m) (fun ne => volume_at (snd ne) u p) (em_emissions x) y /\ total_in (matches q) p l y.
Proof.
  intros ps u x (c & Ec & O & G) Fu H. destruct (emission_windows_ok ps x c Ec O G Fu) as (ws & Ew & Ow & Gw & X). rewrite Ew. cbn [Base.bind].
  destruct (windows_lists meta (fun pm => mapM (fun ne => do v <- volumes_for (snd ne) (fst pm) u;
      Ok (attribute_of (mkMeta (m_fuel (snd pm)) (m_consumer (snd pm)) None (Some (fst ne))) v)) (em_emissions x)) ps
      (fun q p e y => sum_over (fun ne => wants q (mkMeta (m_fuel (snd e)) (m_consumer (snd e)) None (Some (fst ne)))) (fun ne => volume_at (snd ne) u p) (em_emissions x) y) ws Ow) as (ls & E & T).
  { intros e Ie. exact (window_emissions ps u (fst e) (fun name => mkMeta (m_fuel (snd e)) (m_consumer (snd e)) None (Some name)) (em_emissions x) (grid_window _ _ _ _ Ow Gw Ie) H). }
  rewrite E. cbn [Base.bind]. exists (concat ls). split; [reflexivity|]. intros q p Ip. destruct (T q p Ip) as [(e & y & Ie & D & V & Ty)|[D Ty]].
  - exists y. split; [|exact Ty]. revert V. apply sum_over_ext. intros ne _. split.
    + intros Wq. assert (exists m, base_labels x p m /\ m = snd e) as (m & B & ->) by (apply (X p (fun m => m = snd e)); exists e; auto). eexists. split; [apply base_emission; eauto|exact Wq].
    + intros (m & L & Wq). apply base_emission in L as (b & B & ->). assert (exists e', In e' ws /\ In_period (p_start p) (fst e') /\ snd e' = b) as (e' & I' & D' & E') by (apply (X p (fun m => m = b)); eauto).
      rewrite (window_unique _ ws e e' (p_start p) Ow Ie I' D D'), E'. exact Wq.
  - exists 0%Qc. split; [|exact Ty]. apply sum_over_none. intros ne _ (m & L & Wq). apply base_emission in L as (b & B & ->).
    assert (exists e', In e' ws /\ In_period (p_start p) (fst e') /\ snd e' = b) as (e' & I' & D' & E') by (apply (X p (fun m => m = b)); eauto). exact (D e' I' D').
Qed.
Theorem emission_proof : forall i u ps,
  (forall x, In x (in_emitters i) -> (exists c, em_category x = Some c /\ ordered c /\ on_grid ps c) /\ (forall fuel, em_fuel x = Some fuel -> fuel_ok fuel /\ fuel_on_grid ps fuel) /\
    forall ne, In ne (em_emissions x) -> rate_well_formed (snd ne) /\ r_periods (snd ne) = ps /\ to_volume_unit (snd ne) u) ->
  exists l, emissions i u = Ok l /\ forall q p, In p ps -> exists x,
    sum_over (fun _ => True) (fun c => sum_over (fun ne => exists m, emission_labels c p (fst ne) m /\ wants q m) (fun ne => volume_at (snd ne) u p) (em_emissions c)) (in_emitters i) x /\
    total_in (matches q) p l x.
Proof.
  intros i u ps H. unfold emissions. induction (in_emitters i) as [|c cs IH].
  - exists []. split; [reflexivity|]. intros q p _. exists 0%Qc. split; constructor.
  - destruct IH as (l & E & T); [intros; apply H; now right|]. destruct (H c (or_introl eq_refl)) as (H1 & H2 & H3). destruct (emitter_total ps u c H1 H2 H3) as (l0 & E0 & T0).
    cbn [mapM]. rewrite E0. cbn [Base.bind]. destruct (mapM _ cs) as [ls|]; cbn [Base.bind] in *; [|discriminate]. exists (l0 ++ l). split; [cbn [concat]; congruence|].
    intros q p Ip. destruct (T q p Ip) as (x & S & Tx). destruct (T0 q p Ip) as (y & Sy & Ty). exists (y + x)%Qc. split; [now constructor|now apply total_app].
Qed.

(** What is made of a process simulation, and which ones are accepted. *)
From Coq Require Import PeanoNat String Lia.
From Verif Require Import QcTac Base BaseLemmas Num Time_Model Units_Model Rates_Model Expr_Model Expr_Spec Input_Model Energy_Model Stream_Model Process_Model Process_Spec
  Sections_Model Sections_Spec Sections_Proofs Sections_Proofs2 Sections_Proofs3 Sections_Proofs4 Sections_Proofs5 Sections_Proofs6
  Consumer_Model Consumer_Spec Duty_Proofs2 Simulations_Model Simulations_Spec Simulations_Proofs Simulations_Proofs2.
Local Open Scope list_scope.
Local Open Scope nat_scope.

Lemma resolve_iff : forall A (d : list (string * A)) x y, NoDup (map fst d) -> (resolve d x = Ok y <-> stands_for d x y).
Proof.
  intros A d [r|z] y N; cbn [resolve stands_for]; [|split; congruence].
  destruct (dict_get String.eqb r d) as [w|] eqn:E; cbn [of_option].
  - pose proof (dict_get_In _ _ _ _ _ _ str_eqb E) as I. split; [intros H; injection H as <-; exact I|]. intros I'.
    pose proof (dict_get_NoDup _ _ _ _ _ _ str_eqb N I'). congruence.
  - split; [discriminate|]. intros I'. pose proof (dict_get_NoDup _ _ _ _ _ _ str_eqb N I'). congruence.
Qed.
Lemma stands_for_once : forall A (d : list (string * A)) x y z, NoDup (map fst d) -> stands_for d x y -> stands_for d x z -> y = z.
Proof. intros A d x y z N H1 H2. pose proof (proj2 (resolve_iff _ d x y N) H1) as E1. pose proof (proj2 (resolve_iff _ d x z N) H2) as E2. congruence. Qed.
Lemma kind_once : forall w u v, kind_of w u -> kind_of w v -> u = v.
Proof. intros [] u v; cbn; congruence. Qed.
Lemma mapM_each : forall A B (f : A -> result B) l, (exists ys, mapM f l = Ok ys) <-> forall x, In x l -> exists y, f x = Ok y.
Proof.
  intros A B f l. induction l as [|x l IH]; cbn [mapM].
  - split; [intros _ x []|eauto].
  - destruct (f x) as [y|e] eqn:E; cbn [bind].
    + split.
      * intros [ys H]. destruct (mapM f l) as [zs|e] eqn:M; [|discriminate]. intros x' [<-|I]; [eauto|]. apply IH; eauto.
      * intros H. destruct (proj2 IH) as [ys M]; [intros x' I; apply H; now right|]. rewrite M. cbn [bind]. eauto.
    + split; [intros [ys H]; discriminate H|]. intros H. destruct (H x (or_introl eq_refl)) as [y E']. congruence.
Qed.
Lemma Forall2_weaken : forall A B (P Q : A -> B -> Prop) l m, (forall x y, In x l -> P x y -> Q x y) -> Forall2 P l m -> Forall2 Q l m.
Proof. intros A B P Q l m H F. induction F as [|x y l m Hx F IH]; constructor; [apply H; [now left|exact Hx]|]. apply IH. intros a b I. apply H. now right. Qed.

Section Facts.
  Variable pow : Qc -> Qc -> Qc.
  Variables (vars : variables_dict) (n : nat) (lib : library) (events : list ecalc_event).
  Variable rate_of : written_rate -> result (list Qc).
  Hypothesis Hr : forall r, rate_evaluable pow vars n r ->
    (forall l, rate_of r = Ok l -> rate_series pow vars n r l) /\ ((exists l, rate_of r = Ok l) <-> rate_not_negative pow vars n r).
  Hypothesis Lok : library_ok lib.
  Hypothesis Hs : forall name w, In (name, w) (lib_streams lib) -> rate_evaluable pow vars n (ws_rate w).
  Hypothesis Hu : forall name w r, In (name, w) (lib_units lib) -> in_unit w r -> rate_evaluable pow vars n r.
  Hypothesis Hp : forall name p o w r, In (name, p) (lib_pipelines lib) -> In (o, inr w) (wl_units p) -> in_unit w r -> rate_evaluable pow vars n r.

  Lemma stream_facts : forall x, (forall r, in_stream x r -> rate_evaluable pow vars n r) ->
    (forall s, map_stream rate_of lib x = Ok s -> stream_made pow vars n lib x s) /\
    ((exists s, map_stream rate_of lib x = Ok s) <-> stream_known pow vars n lib x).
  Proof.
    intros x He. destruct Lok as (_ & Ns & Nf & _).
    assert (forall w, stands_for (lib_streams lib) x w -> rate_evaluable pow vars n (ws_rate w)) as Hw.
    { intros w H. destruct x as [r|y]; cbn in H; [now apply (Hs r)|]. subst. apply He. exists y. auto. }
    unfold map_stream. split.
    - intros s E. destruct (resolve (lib_streams lib) x) as [w|] eqn:E1; [|discriminate]. apply resolve_iff in E1; [|exact Ns]. cbn [bind] in E.
      destruct (resolve (lib_fluids lib) (ws_fluid w)) as [f|] eqn:E2; [|discriminate]. apply resolve_iff in E2; [|exact Nf]. cbn [bind] in E.
      destruct (rate_of (ws_rate w)) as [l|] eqn:E3; [|discriminate]. cbn [bind] in E. injection E as <-. exists w, f. cbn.
      repeat (split; [auto; fail|]). now apply (proj1 (Hr _ (Hw w E1))).
    - split.
      + intros [s E]. destruct (resolve (lib_streams lib) x) as [w|] eqn:E1; [|discriminate]. apply resolve_iff in E1; [|exact Ns]. cbn [bind] in E.
        destruct (resolve (lib_fluids lib) (ws_fluid w)) as [f|] eqn:E2; [|discriminate]. apply resolve_iff in E2; [|exact Nf]. cbn [bind] in E.
        destruct (rate_of (ws_rate w)) as [l|] eqn:E3; [|discriminate]. exists w, f. split; [exact E1|]. split; [exact E2|]. apply (proj2 (Hr _ (Hw w E1))). eauto.
      + intros (w & f & H1 & H2 & H3). rewrite (proj2 (resolve_iff _ _ _ _ Ns) H1). cbn [bind]. rewrite (proj2 (resolve_iff _ _ _ _ Nf) H2). cbn [bind].
        apply (proj2 (Hr _ (Hw w H1))) in H3 as [l ->]. cbn [bind]. eauto.
  Qed.

  Definition no_setting (w : written_unit) : Prop := (exists c, w = WCompressor c) \/ w = WLiquidRemover.
  Lemma unit_facts : forall x, (forall w r, x = inr w -> in_unit w r -> rate_evaluable pow vars n r) ->
    (forall u so, map_unit rate_of lib x = Ok (u, so) -> exists w, stands_for (lib_units lib) x w /\ kind_of w u /\
       match so with Some s => setting_of pow vars n lib w s | None => no_setting w end) /\
    ((exists m, map_unit rate_of lib x = Ok m) <-> unit_known pow vars n lib x).
  Proof.
    intros x He. destruct Lok as (Nu & _).
    assert (forall w r, stands_for (lib_units lib) x w -> in_unit w r -> rate_evaluable pow vars n r) as Hw.
    { intros w r H I. destruct x as [q|y]; cbn in H; [now apply (Hu q w)|]. subst. now apply (He y). }
    unfold map_unit, unit_known. destruct (resolve (lib_units lib) x) as [w|] eqn:E; cbn [bind].
    - pose proof (proj1 (resolve_iff _ _ _ _ Nu) E) as W. specialize (Hw w).
      assert (forall P : written_unit -> Prop, (exists v, stands_for (lib_units lib) x v /\ P v) <-> P w) as Q.
      { intros P. split; [|eauto]. intros (v & V & H). now rewrite (stands_for_once _ _ _ _ _ Nu W V). }
      destruct w as [c|d|t| |s|r].
      + split; [intros u so H; injection H as <- <-; exists (WCompressor c); repeat split; auto; left; eauto|]. rewrite Q. split; eauto.
      + split; [intros u so H; injection H as <- <-; exists (WPressureDropper d); repeat split; auto|]. rewrite Q. split; eauto.
      + split; [intros u so H; injection H as <- <-; exists (WTemperatureSetter t); repeat split; auto|]. rewrite Q. split; eauto.
      + split; [intros u so H; injection H as <- <-; exists WLiquidRemover; repeat split; auto; now right|]. rewrite Q. split; eauto.
      + destruct (stream_facts s) as [S1 S2]; [intros r I; now apply Hw|]. split.
        * intros u so H. destruct (map_stream rate_of lib s) as [m|] eqn:M; [|discriminate]. cbn [bind] in H. injection H as <- <-.
          exists (WMixer s). split; [exact W|]. split; [reflexivity|]. now apply S1.
        * rewrite Q, <- S2. destruct (map_stream rate_of lib s) as [m|]; cbn [bind]; split; intros [z Z]; try discriminate Z; eauto.
      + destruct (Hr r) as [S1 S2]; [now apply Hw|]. split.
        * intros u so H. destruct (rate_of r) as [m|] eqn:M; [|discriminate]. cbn [bind] in H. injection H as <- <-.
          exists (WSplitter r). split; [exact W|]. split; [reflexivity|]. now apply S1.
        * rewrite Q, <- S2. destruct (rate_of r) as [m|]; cbn [bind]; split; intros [z Z]; try discriminate Z; eauto.
    - split; [discriminate|]. split; [intros [m H]; discriminate H|]. intros (w & W & _). rewrite (proj2 (resolve_iff _ _ _ _ Nu) W) in E. discriminate E.
  Qed.

  Definition units_evaluable (units : list (option string * (string + written_unit))) : Prop :=
    forall o w r, In (o, inr w) units -> in_unit w r -> rate_evaluable pow vars n r.
  Lemma units_facts : forall units next, units_evaluable units ->
    (forall items settings, map_units rate_of lib next units = Ok (items, settings) ->
       List.length items = List.length units /\
       (forall i name x, nth_error units i = Some (name, x) -> exists w u, stands_for (lib_units lib) x w /\ kind_of w u /\ nth_error items i = Some (name, (next + i, u))) /\
       NoDup (map fst settings) /\
       (forall i s, In (i, s) settings -> exists j name x w, i = next + j /\ nth_error units j = Some (name, x) /\ stands_for (lib_units lib) x w /\ setting_of pow vars n lib w s) /\
       (forall j name x w, nth_error units j = Some (name, x) -> stands_for (lib_units lib) x w -> (exists s, In (next + j, s) settings) \/ no_setting w)) /\
    ((exists m, map_units rate_of lib next units = Ok m) <-> forall o x, In (o, x) units -> unit_known pow vars n lib x).
  Proof.
    destruct Lok as (Nu & _).
    induction units as [|[name x] units IH]; intros next He; cbn [map_units].
    - split.
      + intros items settings E. injection E as <- <-. split; [reflexivity|]. split; [intros [|i] ? ? D; discriminate D|]. split; [constructor|]. split; [intros i s []|]. intros [|j] ? ? ? D; discriminate D.
      + split; [intros _ o x []|eauto].
    - destruct (unit_facts x) as [U1 U2]. { intros w r -> I. apply (He name w); [now left|exact I]. }
      assert (units_evaluable units) as He' by (intros o w r I; apply (He o); now right).
      destruct (IH (S next) He') as [R1 R2]. clear IH. split.
      + intros items settings E. destruct (map_unit rate_of lib x) as [[u so]|] eqn:M; [|discriminate]. cbn [bind fst snd] in E.
        destruct (map_units rate_of lib (S next) units) as [[its sts]|] eqn:R; [|discriminate]. cbn [bind] in E.
        destruct (U1 u so eq_refl) as (w & W & K & T). destruct (R1 its sts eq_refl) as (A1 & A2 & A3 & A4 & A5).
        injection E as <- <-.
        split; [cbn; congruence|]. split; [|split; [|split]].
        * intros [|i] nm y Hi; cbn in Hi.
          -- injection Hi as <- <-. exists w, u. rewrite Nat.add_0_r. auto.
          -- destruct (A2 i nm y Hi) as (w' & u' & B). exists w', u'. cbn [nth_error]. replace (next + S i) with (S next + i) by lia. exact B.
        * destruct so as [s|]; [|exact A3]. cbn. constructor; [|exact A3]. intros I. apply in_map_iff in I as ([i s'] & Q & I). cbn in Q. subst i.
          apply A4 in I as (j & ? & ? & ? & Q & _). lia.
        * intros i s I. assert ((exists s0, so = Some s0 /\ (i, s) = (next, s0)) \/ In (i, s) sts) as [(s0 & -> & Q)|I'].
          { destruct so as [s0|]; [destruct I as [I|I]; [left; exists s0; auto|now right]|now right]. }
          -- injection Q as -> ->. exists 0, name, x, w. split; [lia|]. auto.
          -- apply A4 in I' as (j & nm & y & w' & Q & B). exists (S j), nm, y, w'. split; [lia|]. exact B.
        * intros [|j] nm y w' Hj V; cbn in Hj.
          -- injection Hj as <- <-. rewrite (stands_for_once _ _ _ _ _ Nu V W). destruct so as [s|]; [left; exists s; rewrite Nat.add_0_r; now left|now right].
          -- destruct (A5 j nm y w' Hj V) as [[s I]|B]; [left|now right]. exists s. replace (next + S j) with (S next + j) by lia. destruct so; [now right|exact I].
      + split.
        * intros [m E]. destruct (map_unit rate_of lib x) as [u|] eqn:M; [|discriminate]. cbn [bind] in E.
          destruct (map_units rate_of lib (S next) units) as [its|] eqn:R; [|discriminate]. intros o y [I|I]; [injection I as <- <-; apply U2; eauto|]. apply (proj1 R2) with (o := o); eauto.
        * intros H. destruct (proj2 U2) as [u ->]; [apply (H name); now left|]. cbn [bind]. destruct (proj2 R2) as [[its sts] ->]; [intros o y I; apply (H o); now right|]. cbn [bind]. eauto.
  Qed.

  Lemma items_once : forall units a b, items_made lib units a -> items_made lib units b -> a = b.
  Proof.
    intros units a b [L1 A] [L2 B]. destruct Lok as (Nu & _). apply nth_same; [congruence|]. intros k x K.
    destruct (nth_error units k) as [[nm y]|] eqn:U; [|apply nth_error_None in U; assert (k < List.length a) by (apply nth_error_Some; congruence); lia].
    destruct (A k nm y U) as (w & u & W & Ku & Ka). destruct (B k nm y U) as (w' & u' & W' & Ku' & Kb).
    rewrite (stands_for_once _ _ _ _ _ Nu W' W) in Ku'. rewrite (kind_once _ _ _ Ku' Ku) in Kb. rewrite <- K. transitivity (Some (nm, (k, u))); [exact Kb|symmetry; exact Ka].
  Qed.
  Lemma items_ids : forall units items, items_made lib units items -> ids (listed items) = seq 0 (List.length units).
  Proof.
    intros units items [L A]. symmetry. apply nth_same; [unfold ids, listed; now rewrite seq_length, !map_length|]. intros k x K0.
    assert (@nth_error nat (seq 0 (List.length units)) k = Some x) as K by exact K0. clear K0.
    assert (k < List.length units) as Lk by (rewrite <- (seq_length (List.length units) 0); apply nth_error_Some; congruence).
    assert (x = k) as ->. { apply nth_error_nth with (d := 0) in K. rewrite seq_nth in K by exact Lk. lia. }
    destruct (nth_error units k) as [[nm y]|] eqn:U; [|apply nth_error_None in U; lia]. destruct (A k nm y U) as (w & u & _ & _ & Ka).
    unfold ids, listed. rewrite map_map. erewrite map_nth_error by exact Ka. reflexivity.
  Qed.
  Lemma items_distinct : forall units items, items_made lib units items -> distinct_units items.
  Proof. intros units items M. unfold distinct_units. rewrite (items_ids _ _ M). apply seq_NoDup. Qed.
  Lemma items_listable : forall units items, items_made lib units items -> Forall listable (listed items).
  Proof.
    intros units items [L A]. apply Forall_forall. intros u I. apply in_map_iff in I as ([nm u'] & <- & I). cbn. apply In_nth_error in I as [k K0]. assert (@nth_error item items k = Some (nm, u')) as K by exact K0. clear K0.
    destruct (nth_error units k) as [[o y]|] eqn:U; [|apply nth_error_None in U; assert (k < List.length items) by (apply nth_error_Some; congruence); lia].
    destruct (A k o y U) as (w & u & _ & Kd & Ka). assert (Some (nm, u') = Some (o, (k, u))) as Q by (transitivity (nth_error items k); [symmetry; exact K|exact Ka]). injection Q as _ ->. unfold listable. cbn. destruct w; cbn in Kd; subst u; exact Logic.I.
  Qed.

  Lemma process_event_found : forall name e, get_event_by_process_name events name = Some e -> happens_at events name (ev_start e).
  Proof.
    intros name e H. apply find_some in H as [I H]. apply existsb_exists in H as (p & Ip & E). apply String.eqb_eq in E. exists e, p. auto.
  Qed.
  Lemma process_event_exists : forall name t, happens_at events name t -> exists e, get_event_by_process_name events name = Some e.
  Proof.
    intros name t (e & p & I & Ip & E & _). unfold get_event_by_process_name. destruct (find _ events) as [e'|] eqn:F; [eauto|].
    pose proof (find_none _ _ F e I) as D. cbn beta in D. rewrite (proj2 (existsb_exists _ _)) in D; [discriminate D|]. exists p. split; [exact Ip|]. now apply String.eqb_eq.
  Qed.
  Lemma change_facts : forall items w, distinct_names items ->
    (forall c, map_change lib events (entries items) w = Ok c -> change_made lib events items w c) /\
    ((exists c, map_change lib events (entries items) w = Ok c) <-> change_accepted lib events items w).
  Proof.
    intros items w D. destruct Lok as (Nu & _). unfold map_change. split.
    - intros c E. destruct (get_event_by_process_name events (wc_ref w)) as [e|] eqn:Ee; [|discriminate]. cbn [of_option bind] in E.
      destruct (resolve (lib_units lib) (inl (wc_to w))) as [u|] eqn:Eu; [|discriminate]. apply resolve_iff in Eu; [|exact Nu]. cbn [bind] in E.
      destruct u as [ch| | | | |]; try discriminate E. cbn [bind] in E. destruct (dict_get String.eqb (wc_target w) (entries items)) as [i|] eqn:Ei; [|discriminate]. cbn [of_option bind] in E. injection E as <-.
      split; [now apply process_event_found|]. split; [exact Eu|]. split; [reflexivity|]. apply entries_found in Ei as (u & U & <-). exists u. auto.
    - split.
      + intros [c E]. destruct (get_event_by_process_name events (wc_ref w)) as [e|] eqn:Ee; [|discriminate]. cbn [of_option bind] in E.
        destruct (resolve (lib_units lib) (inl (wc_to w))) as [u|] eqn:Eu; [|discriminate]. apply resolve_iff in Eu; [|exact Nu]. cbn [bind] in E.
        destruct u as [ch| | | | |]; try discriminate E. cbn [bind] in E. destruct (dict_get String.eqb (wc_target w) (entries items)) as [i|] eqn:Ei; [|discriminate].
        split; [exists (ev_start e); now apply process_event_found|]. split; [exists ch; exact Eu|]. apply entries_found in Ei as (u & U & _). eauto.
      + intros ([t T] & [ch Ch] & u & U). destruct (process_event_exists _ _ T) as [e ->]. cbn [of_option bind].
        rewrite (proj2 (resolve_iff _ (lib_units lib) (inl (wc_to w)) (WCompressor ch) Nu) Ch). cbn [bind]. rewrite (entries_get items _ u D U). cbn [of_option bind]. eauto.
  Qed.

  Lemma pipeline_facts : forall items cs, distinct_units items -> Forall listable (listed items) ->
    (forall p, map_pipeline items cs = Ok p -> pipeline_made items cs p) /\
    ((exists p, map_pipeline items cs = Ok p) <-> fitting items cs /\ exists ss, division items cs ss /\ Forall acceptable_section ss).
  Proof.
    intros items cs D L. split.
    - intros p E. destruct (pipeline_proof items cs p D L E) as (ss & inlet & body & outlet & B & P1 & P2 & P3 & P4 & _ & P5).
      pose proof (proj1 (build_proof items cs ss) B) as [Pa Ac]. destruct (division_ok items cs ss D Pa) as [Ft Dv].
      exists ss, inlet, body, outlet. do 8 (split; [assumption|]). split; [|exact (proj1 (protected_proof items cs p D E))].
      intros k s K. exact (shaped_proof items cs ss p k s D E B K).
    - rewrite (pipeline_accepted_proof items cs D). split.
      + intros [ss B]. pose proof (proj1 (build_proof items cs ss) B) as [Pa Ac]. destruct (division_ok items cs ss D Pa) as [Ft Dv]. eauto.
      + intros (Ft & ss & Dv & Ac). destruct (proj2 (accepted_proof items cs D) Ft) as [ss' Pa]. destruct (division_ok items cs ss' D Pa) as [_ Dv'].
        rewrite (unique_proof items cs ss ss' D Ft Dv Dv') in Ac. exists ss'. apply build_proof. auto.
  Qed.

  Lemma shaft_facts : forall items, distinct_units items -> let shaft := map fst (filter is_compressor (map snd items)) in
    NoDup shaft /\ forall i, In i shaft <-> exists u, In u (listed items) /\ compresses u /\ fst u = i.
  Proof.
    intros items D shaft. subst shaft. fold (listed items). split.
    - unfold distinct_units, ids in D. induction (listed items) as [|u us IH]; [constructor|]. cbn in D. inversion D as [|? ? N1 N2]; subst. cbn [filter].
      destruct (is_compressor u); [|now apply IH]. cbn. constructor; [|now apply IH]. intros I. apply N1. apply in_map_iff in I as (w & Q & I). apply filter_In in I as [I _]. rewrite <- Q. now apply in_map.
    - intros i. rewrite in_map_iff. split.
      + intros (u & Q & I). apply filter_In in I as [I B]. apply compressor_iff in B. eauto.
      + intros (u & I & B & Q). exists u. split; [exact Q|]. apply filter_In. split; [exact I|]. now apply compressor_iff.
  Qed.

  Lemma target_facts : forall constraints name, NoDup (map fst constraints) ->
    (forall m, map_target rate_of lib events constraints name = Ok m -> target_made pow vars n lib events constraints name m) /\
    ((exists m, map_target rate_of lib events constraints name = Ok m) <-> target_accepted pow vars n lib events constraints name).
  Proof.
    intros constraints name Nc. pose proof Lok as (Nu & _ & _ & Np). unfold map_target.
    assert (forall w, In (name, w) (lib_pipelines lib) -> units_evaluable (wl_units w)) as He by (intros w I o u r Io Ir; exact (Hp name w o u r I Io Ir)).
    assert (forall w items settings, In (name, w) (lib_pipelines lib) -> map_units rate_of lib 0 (wl_units w) = Ok (items, settings) ->
      items_made lib (wl_units w) items /\ settings_made pow vars n lib (wl_units w) settings) as Hm.
    { intros w items settings I E. destruct (units_facts (wl_units w) 0 (He w I)) as [U1 _]. destruct (U1 items settings E) as (A1 & A2 & A3 & A4 & A5).
      split; [split; [exact A1|exact A2]|]. split; [exact A3|]. split.
      - intros i s Is. apply A4 in Is as (j & nm & x & u & -> & B). exists nm, x, u. exact B.
      - intros i nm x u K S. destruct (A5 i nm x u K S) as [B|[B|B]]; auto. }
    split.
    - intros m E. destruct (resolve (lib_pipelines lib) (inl name)) as [w|] eqn:Ew; [|discriminate]. apply resolve_iff in Ew; [|exact Np]. cbn [bind] in E.
      destruct (map_units rate_of lib 0 (wl_units w)) as [[items settings]|] eqn:Eu; [|discriminate]. cbn [bind] in E. destruct (Hm w items settings Ew Eu) as [M S].
      pose proof (items_distinct _ _ M) as D. pose proof (items_listable _ _ M) as Ls. destruct (register items []) as [names|] eqn:Er; [|discriminate]. cbn [bind] in E.
      destruct (dict_get String.eqb name constraints) as [cs|] eqn:Ec; [|discriminate]. cbn [of_option bind] in E.
      destruct (map_pipeline items cs) as [p|] eqn:Ep; [|discriminate]. cbn [bind] in E. destruct (mapM (map_change lib events names) (wl_changes w)) as [cgs|] eqn:Eg; [|discriminate]. cbn [bind] in E.
      assert (m = mkMapped name p (map fst (filter is_compressor (map snd items))) cgs settings) as -> by congruence. clear E.
      pose proof (proj1 (pipeline_facts items cs D Ls) p Ep) as Pm. assert (distinct_names items) as Dn by (destruct Pm as (? & ? & ? & ? & [Ft _ _ _ _ _] & _); exact Ft).
      rewrite (proj1 (register_items items) Dn) in Er. injection Er as <-. destruct (shaft_facts items D) as [S1 S2].
      split; [reflexivity|]. exists w, items, cs. cbn [mp_pipeline mp_shaft mp_changes mp_settings]. split; [exact Ew|]. split; [exact M|]. split; [exact D|].
      split; [exact (dict_get_In _ _ _ _ _ _ str_eqb Ec)|]. split; [exact Pm|]. split; [exact S1|]. split; [exact S2|]. split; [|exact S].
      apply mapM_Ok in Eg. apply (Forall2_weaken _ _ _ _ _ _ (fun g c _ H => proj1 (change_facts items g Dn) c H) Eg).
    - split.
      + intros [m E]. destruct (resolve (lib_pipelines lib) (inl name)) as [w|] eqn:Ew; [|discriminate]. apply resolve_iff in Ew; [|exact Np]. cbn [bind] in E.
        destruct (map_units rate_of lib 0 (wl_units w)) as [[items settings]|] eqn:Eu; [|discriminate]. cbn [bind] in E. destruct (Hm w items settings Ew Eu) as [M S].
        pose proof (items_distinct _ _ M) as D. pose proof (items_listable _ _ M) as Ls. destruct (register items []) as [names|] eqn:Er; [|discriminate]. cbn [bind] in E.
        destruct (dict_get String.eqb name constraints) as [cs|] eqn:Ec; [|discriminate]. cbn [of_option bind] in E.
        destruct (map_pipeline items cs) as [p|] eqn:Ep; [|discriminate]. cbn [bind] in E. destruct (mapM (map_change lib events names) (wl_changes w)) as [cgs|] eqn:Eg; [|discriminate].
        destruct (proj1 (proj2 (pipeline_facts items cs D Ls)) (ex_intro _ p Ep)) as [Ft Dv].
        rewrite (proj1 (register_items items) (ft_names _ _ Ft)) in Er. injection Er as <-.
        exists w, items, cs. split; [exact Ew|]. split; [apply (proj2 (units_facts (wl_units w) 0 (He w Ew))); eauto|]. split; [exact M|]. split; [exact (dict_get_In _ _ _ _ _ _ str_eqb Ec)|].
        split; [exact Ft|]. split; [exact Dv|]. intros g I. apply (proj2 (change_facts items g (ft_names _ _ Ft))). exact (proj1 (mapM_each _ _ _ _) (ex_intro _ cgs Eg) g I).
      + intros (w & items & cs & Iw & Uk & M & Ic & Ft & Dv & Cg). rewrite (proj2 (resolve_iff _ _ (inl name) w Np) Iw). cbn [bind].
        destruct (proj2 (proj2 (units_facts (wl_units w) 0 (He w Iw))) Uk) as [[items' settings] Eu]. rewrite Eu. cbn [bind]. destruct (Hm w items' settings Iw Eu) as [M' S].
        rewrite (items_once _ _ _ M' M) in *. pose proof (items_distinct _ _ M) as D. pose proof (items_listable _ _ M) as Ls. rewrite (proj1 (register_items items) (ft_names _ _ Ft)). cbn [bind].
        rewrite (dict_get_NoDup _ _ _ _ _ _ str_eqb Nc Ic). cbn [of_option bind]. destruct (proj2 (proj2 (pipeline_facts items cs D Ls)) (conj Ft Dv)) as [p ->]. cbn [bind].
        destruct (proj2 (mapM_each _ _ (map_change lib events (entries items)) (wl_changes w))) as [cgs ->]; [|cbn [bind]; eauto].
        intros g I. apply (proj2 (change_facts items g (ft_names _ _ Ft))). now apply Cg.
  Qed.

  (** ** Distribution *)
  Lemma numbers_get : forall targets name i, dict_get String.eqb name (numbers targets) = Some i <-> target_number targets name i.
  Proof.
    intros targets. unfold numbers, target_number. induction targets as [|t targets IH] using rev_ind; intros name i.
    - cbn. split; [discriminate|]. intros [D _]. destruct i; discriminate D.
    - rewrite app_length. cbn [List.length]. rewrite Nat.add_1_r, seq_S, Nat.add_0_l.
      assert (forall (l m : list string) (a b : list nat), List.length l = List.length a -> combine (l ++ m) (a ++ b) = combine l a ++ combine m b) as Q.
      { clear. induction l as [|x l IH]; intros m [|y a] b L; cbn in *; try discriminate L; [reflexivity|]. f_equal. apply IH. congruence. }
      rewrite Q by now rewrite seq_length. rewrite fold_left_app. cbn [combine fold_left fst snd]. rewrite dict_get_set by exact str_eqb.
      destruct (String.eqb name t) eqn:E.
      + apply String.eqb_eq in E. subst. split.
        * intros H. injection H as <-. split; [rewrite nth_error_app2, Nat.sub_diag by lia; reflexivity|]. intros j K. assert (j < List.length (targets ++ [t])) by (apply nth_error_Some; congruence).
          rewrite app_length in H. cbn in H. lia.
        * intros [K Mx]. assert (i < List.length (targets ++ [t])) as L by (apply nth_error_Some; congruence). rewrite app_length in L. cbn in L.
          specialize (Mx (List.length targets)). rewrite nth_error_app2, Nat.sub_diag in Mx by lia. specialize (Mx eq_refl). f_equal. lia.
      + rewrite IH. assert (name <> t) as N by (intros ->; rewrite String.eqb_refl in E; discriminate E).
        assert (forall j, nth_error (targets ++ [t]) j = Some name <-> nth_error targets j = Some name) as W.
        { intros j. destruct (Nat.lt_ge_cases j (List.length targets)) as [L|L]; [now rewrite nth_error_app1|].
          rewrite nth_error_app2 by exact L. rewrite (proj2 (nth_error_None targets j) L). destruct (j - List.length targets) as [|[|q]]; cbn; split; congruence. }
        rewrite W. split; intros [K Mx]; (split; [exact K|]); intros j J; apply Mx; now apply W.
  Qed.
  Lemma numbers_known : forall targets name, (exists i, dict_get String.eqb name (numbers targets) = Some i) <-> In name targets.
  Proof.
    intros targets name. split.
    - intros [i E]. apply numbers_get in E as [E _]. eapply nth_error_In; eauto.
    - intros I. unfold numbers. revert I. induction targets as [|t targets IH] using rev_ind; [intros []|]. intros I.
      rewrite app_length. cbn [List.length]. rewrite Nat.add_1_r, seq_S, Nat.add_0_l.
      assert (forall (l m : list string) (a b : list nat), List.length l = List.length a -> combine (l ++ m) (a ++ b) = combine l a ++ combine m b) as Q.
      { clear. induction l as [|x l IH]; intros m [|y a] b L; cbn in *; try discriminate L; [reflexivity|]. f_equal. apply IH. congruence. }
      rewrite Q by now rewrite seq_length. rewrite fold_left_app. cbn [combine fold_left fst snd]. rewrite dict_get_set by exact str_eqb.
      destruct (String.eqb name t) eqn:E; [eauto|]. apply IH. apply in_app_or in I as [I|[<-|[]]]; [exact I|]. rewrite String.eqb_refl in E. discriminate E.
  Qed.
  Lemma overflow_facts : forall targets o,
    (forall m, map_overflow (numbers targets) o = Ok m -> overflows_made targets o m) /\
    ((exists m, map_overflow (numbers targets) o = Ok m) <-> In (fst o) targets /\ In (snd o) targets).
  Proof.
    intros targets [f t]. unfold map_overflow, overflows_made. cbn [fst snd]. rewrite <- !numbers_known. split.
    - intros m E. destruct (dict_get String.eqb t (numbers targets)) as [j|] eqn:Et; [|discriminate]. cbn [of_option bind] in E.
      destruct (dict_get String.eqb f (numbers targets)) as [i|] eqn:Ef; [|discriminate]. cbn [of_option bind] in E. injection E as <-. cbn. split; now apply numbers_get.
    - destruct (dict_get String.eqb t (numbers targets)) as [j|] eqn:Et; cbn [of_option bind]; destruct (dict_get String.eqb f (numbers targets)) as [i|] eqn:Ef; cbn [of_option bind].
      + split; eauto.
      + split; [intros [? D]; discriminate D|intros [[? D] _]; discriminate D].
      + split; [intros [? D]; discriminate D|intros [_ [? D]]; discriminate D].
      + split; [intros [? D]; discriminate D|intros [[? D] _]; discriminate D].
  Qed.
  Lemma setting_facts : forall targets s,
    (forall m, map_setting (numbers targets) s = Ok m -> setting_made targets s m) /\
    ((exists m, map_setting (numbers targets) s = Ok m) <-> forall l f t, wt_overflow s = Some l -> In (f, t) l -> In f targets /\ In t targets).
  Proof.
    intros targets [fr o]. unfold map_setting, setting_made. cbn [wt_fractions wt_overflow]. split.
    - intros m E. destruct (mapM _ _) as [ms|] eqn:M in E; [|discriminate]. cbn [bind] in E. injection E as <-. cbn [fst snd]. split; [reflexivity|]. apply mapM_Ok in M.
      destruct o as [l|]; [|inversion M; reflexivity]. apply (Forall2_weaken _ _ _ _ _ _ (fun x y _ H => proj1 (overflow_facts targets x) y H) M).
    - pose proof (mapM_each _ _ (map_overflow (numbers targets)) match o with Some l => l | None => [] end) as Q. split.
      + intros [m E] l f t -> I. destruct (mapM _ _) as [ms|] eqn:M in E; [|discriminate].
        apply (proj2 (overflow_facts targets (f, t))). apply (proj1 Q); [eauto|exact I].
      + intros H. destruct (proj2 Q) as [ms ->]; [|cbn [bind]; eauto]. intros [f t] I. apply (proj2 (overflow_facts targets (f, t))). destruct o as [l|]; [|destruct I]. now apply (H l).
  Qed.
  Lemma distribution_facts : forall targets d, (forall r, in_distribution d r -> rate_evaluable pow vars n r) ->
    (forall m, map_distribution rate_of lib (numbers targets) d = Ok m -> distribution_made pow vars n lib targets d m) /\
    ((exists m, map_distribution rate_of lib (numbers targets) d = Ok m) <-> distribution_accepted pow vars n lib targets d).
  Proof.
    intros targets [inlet settings|inlets] He; cbn [map_distribution distribution_accepted distribution_made].
    - destruct (stream_facts inlet He) as [S1 S2]. pose proof (mapM_each _ _ (map_setting (numbers targets)) settings) as Q. split.
      + intros m E. destruct (mapM _ settings) as [ms|] eqn:M; [|discriminate]. cbn [bind] in E. destruct (map_stream rate_of lib inlet) as [s|]; [|discriminate]. cbn [bind] in E. injection E as <-.
        split; [now apply S1|]. apply mapM_Ok in M. apply (Forall2_weaken _ _ _ _ _ _ (fun x y _ H => proj1 (setting_facts targets x) y H) M).
      + split.
        * intros [m E]. destruct (mapM _ settings) as [ms|] eqn:M; [|discriminate]. cbn [bind] in E. destruct (map_stream rate_of lib inlet) as [s|]; [|discriminate].
          split; [apply S2; eauto|]. intros x l f t I El Il. apply (proj1 (proj2 (setting_facts targets x))) with (l := l); [|exact El|exact Il]. apply (proj1 Q); [eauto|exact I].
        * intros [K H]. destruct (proj2 Q) as [ms ->]; [intros x I; apply (proj2 (setting_facts targets x)); intros l f t El Il; exact (H x l f t I El Il)|]. cbn [bind].
          destruct (proj2 S2 K) as [s ->]. cbn [bind]. eauto.
    - pose proof (mapM_each _ _ (map_stream rate_of lib) inlets) as Q. assert (forall x, In x inlets -> forall r, in_stream x r -> rate_evaluable pow vars n r) as He' by (intros x I r R; apply He; exists x; auto). split.
      + intros m E. destruct (mapM _ inlets) as [ss|] eqn:M; [|discriminate]. cbn [bind] in E. injection E as <-. apply mapM_Ok in M.
        apply (Forall2_weaken _ _ _ _ _ _ (fun x y I H => proj1 (stream_facts x (He' x I)) y H) M).
      + split.
        * intros [m E] x I. destruct (mapM _ inlets) as [ss|] eqn:M; [|discriminate]. apply (proj2 (stream_facts x (He' x I))). apply (proj1 Q); [eauto|exact I].
        * intros H. destruct (proj2 Q) as [ss ->]; [|cbn [bind]; eauto]. intros x I. apply (proj2 (stream_facts x (He' x I))). now apply H.
  Qed.

  Lemma simulation_facts : forall s, NoDup (map fst (wm_constraints s)) -> (forall r, in_distribution (wm_distribution s) r -> rate_evaluable pow vars n r) ->
    (forall m, map_simulation rate_of lib events s = Ok m -> simulation_made pow vars n lib events s m) /\
    ((exists m, map_simulation rate_of lib events s = Ok m) <-> simulation_accepted pow vars n lib events s).
  Proof.
    intros [targets constraints d] Nc He. cbn [wm_targets wm_constraints wm_distribution] in *. unfold map_simulation, simulation_made, simulation_accepted. cbn [wm_targets wm_constraints wm_distribution].
    assert (forall ms, mapM (map_target rate_of lib events constraints) targets = Ok ms -> Forall2 (target_made pow vars n lib events constraints) targets ms /\ map mp_name ms = targets) as T.
    { intros ms M. apply mapM_Ok in M. pose proof (Forall2_weaken _ _ _ _ _ _ (fun x y _ H => proj1 (target_facts constraints x Nc) y H) M) as F. split; [exact F|].
      clear M. induction F as [|x y l m [E _] F IH]; [reflexivity|]. cbn. now rewrite E, IH. }
    destruct (distribution_facts targets d He) as [D1 D2].
    pose proof (mapM_each _ _ (map_target rate_of lib events constraints) targets) as Qt.
    pose proof (mapM_each _ _ (fun c : string * list constraint => of_option ValidationError (dict_get String.eqb (fst c) (numbers targets))) constraints) as Qc_.
    assert (forall name, (exists i, of_option ValidationError (dict_get String.eqb name (numbers targets)) = Ok i) <-> In name targets) as Kn.
    { intros name. rewrite <- numbers_known. destruct (dict_get String.eqb name (numbers targets)); cbn [of_option]; split; intros [i E]; try discriminate E; eauto. }
    split.
    - intros m E. destruct (mapM _ targets) as [ms|] eqn:M; [|discriminate]. cbn [bind] in E. destruct (T ms eq_refl) as [F Nm]. rewrite Nm in E.
      destruct (mapM _ constraints) as [zs|]; [|discriminate]. cbn [bind] in E. destruct (map_distribution rate_of lib (numbers targets) d) as [md|]; [|discriminate]. cbn [bind] in E. injection E as <-.
      cbn [fst snd]. split; [exact F|now apply D1].
    - split.
      + intros [m E]. destruct (mapM (map_target _ _ _ _) targets) as [ms|] eqn:M; [|discriminate]. cbn [bind] in E. destruct (T ms eq_refl) as [F Nm]. rewrite Nm in E.
        destruct (mapM _ constraints) as [zs|] eqn:Z; [|discriminate]. cbn [bind] in E. destruct (map_distribution rate_of lib (numbers targets) d) as [md|]; [|discriminate].
        split; [intros t I; apply (proj2 (target_facts constraints t Nc)); apply (proj1 Qt); [eauto|exact I]|]. split; [|apply D2; eauto].
        intros name cs I. apply Kn. exact (proj1 Qc_ (ex_intro _ zs eq_refl) (name, cs) I).
      + intros (H1 & H2 & H3). destruct (proj2 Qt) as [ms M]; [intros t I; apply (proj2 (target_facts constraints t Nc)); now apply H1|]. rewrite M. cbn [bind]. destruct (T ms M) as [F Nm]. rewrite Nm.
        destruct (proj2 Qc_) as [zs ->]; [intros [nm cs] I; apply Kn; now apply (H2 nm cs)|]. cbn [bind]. destruct (proj2 D2 H3) as [md ->]. cbn [bind]. eauto.
  Qed.
End Facts.

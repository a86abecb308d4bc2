(** Series of consumers, fuels and emissions of single components, for the totals. *)
From Coq Require Import PeanoNat String Lia.
From Verif Require Import QcTac Base BaseLemmas Time_Model Time_Spec Time_Proofs Time_Proofs2 Num Expr_Model Vars_Model Units_Model Rates_Model
  Input_Model Interp_Model Energy_Model Energy_Proofs Emitters_Model Emitters_Spec Emitters_Proofs2 Emitters_Proofs3 Emitters_Proofs4 Emitters_Proofs5
  Consumer_Model Consumer_Proofs3 Totals_Spec Asset_Model Asset_Spec Asset_Proofs Asset_Proofs2 Asset_Proofs3 Report_Spec.
Local Open Scope list_scope.
Local Open Scope nat_scope.

(** ** The series of a consumer *)
Lemma fill_fields : forall V (s : series V) new x f, fill_values_for_new_periods s new x = Ok f -> s_periods f = new /\ s_unit f = s_unit s.
Proof.
  intros V s new x f E. unfold fill_values_for_new_periods in E. destruct (existsb _ _); [discriminate|]. cbv zeta in E. unfold make_series in E.
  destruct (Nat.eqb _ _); [|discriminate]. injection E as <-. split; reflexivity.
Qed.
Lemma make_series_unit : forall V ps (vs : list V) u s, make_series ps vs u = Ok s -> s_unit s = u.
Proof. intros V ps vs u s E. unfold make_series in E. destruct (Nat.eqb _ _); [|discriminate]. now injection E as <-. Qed.
Lemma extend_unit : forall V (a b s : series V), series_extend a b = Ok s -> s_unit s = s_unit a.
Proof.
  intros V a b s E. unfold series_extend in E. destruct (negb _); [discriminate|]. cbv zeta in E.
  destruct (s_values a), (s_values b); try (eapply make_series_unit; eassumption).
  destruct (s_period a); [|discriminate]. cbn [bind] in E. destruct (s_period b); [|discriminate]. cbn [bind] in E.
  destruct (_ && _); [discriminate|]. destruct (_ =? _)%Z; eapply make_series_unit; eassumption.
Qed.
Lemma fold_extend_unit : forall V (ss : list (series V)) s t,
  fold_left (fun acc t => do a <- acc; series_extend a t) ss (Ok s) = Ok t -> s_unit t = s_unit s.
Proof.
  intros V. induction ss as [|x ss IH]; intros s t E; cbn in E; [now injection E as <-|].
  destruct (series_extend s x) as [a|e] eqn:Ex.
  - rewrite (IH _ _ E). eapply extend_unit; eauto.
  - exfalso. clear - E. induction ss; cbn in E; [discriminate|auto].
Qed.
Lemma attribute_units : forall R V per (att : R -> option (list V)) u b x (P : unit_ -> Prop) l acc o, (forall r, In r l -> P (u r)) ->
  (forall s, In s acc -> P (s_unit s)) -> attribute_series per att u b x l acc = Ok (Some o) -> forall s, In s o -> P (s_unit s).
Proof.
  intros R V per att u b x P. induction l as [|r l IH]; intros acc o Hl Ha E; cbn [attribute_series] in E; [now injection E as <-|].
  assert (K : forall vs s, make_series (per r) vs (u r) = Ok s -> attribute_series per att u b x l (acc ++ [s]) = Ok (Some o) -> forall s, In s o -> P (s_unit s)).
  { intros vs s Es E'. apply (IH (acc ++ [s]) o); auto. { intros. apply Hl. now right. }
    intros s' H. apply in_app_or in H as [H|[<-|[]]]; [auto|]. rewrite (make_series_unit _ _ _ _ _ Es). apply Hl. now left. }
  destruct (att r) as [vs|].
  - destruct (make_series (per r) vs (u r)) as [s|] eqn:Es; [|discriminate]. cbn [bind] in E. eapply K; eauto.
  - destruct b; [discriminate|]. destruct (make_series (per r) (repeat x (length (per r))) (u r)) as [s|] eqn:Es; [|discriminate]. cbn [bind] in E. eapply K; eauto.
Qed.
Lemma concatenated_fields : forall R V per (att : R -> option (list V)) u b x (P : unit_ -> Prop) l all s, (forall r, In r l -> P (u r)) ->
  concatenated per att u b x l all = Ok (Some s) -> s_periods s = all /\ P (s_unit s).
Proof.
  intros R V per att u b x P l all s Hl E. unfold concatenated in E. destruct (attribute_series _ _ _ _ _ _ _) as [[o|]|] eqn:Eo; cbn [bind] in E; try discriminate.
  destruct (negb _); [discriminate|]. destruct (reduce_extend o) as [r|] eqn:Er; [|discriminate]. cbn [bind] in E.
  destruct (fill_values_for_new_periods r all x) as [f|] eqn:Ef; [|discriminate]. cbn [bind] in E. injection E as <-.
  destruct (fill_fields _ _ _ _ _ Ef) as [-> ->]. split; [reflexivity|]. destruct o as [|s0 ss]; cbn [reduce_extend] in Er; [discriminate|].
  rewrite (fold_extend_unit _ _ _ _ Er). eapply (attribute_units _ _ per att u b x P l [] (s0 :: ss)); eauto; [intros ? []|now left].
Qed.

Lemma consumer_fields : forall M np_pow (ev : M -> list Qc -> variables_map -> result function_result) unit input vm (data : temporal_data M) target s,
  (forall m reg vm' fr, ev m reg vm' = Ok fr -> fr_unit fr = unit) -> evaluate_consumer np_pow ev input vm data target = Ok (Some s) ->
  (s_periods (cs_energy s) = vm_periods vm /\ s_unit (cs_energy s) = unit /\ length (s_values (cs_energy s)) = length (vm_periods vm)) /\
  forall p, cs_power s = Some p -> s_periods p = vm_periods vm /\ s_unit p = MEGA_WATT /\ length (s_values p) = length (vm_periods vm).
Proof.
  intros M np_pow ev unit input vm data target s Hu E. pose proof E as E0. unfold evaluate_consumer in E.
  destruct (model_results np_pow ev input vm data target) as [[l|]|] eqn:Em; cbn [bind] in E; try discriminate.
  destruct (consumer_series_of l (vm_periods vm)) as [c|] eqn:Es; [|discriminate]. cbn [bind] in E. injection E as <-.
  unfold consumer_series_of in Es. destruct (result_energy l (vm_periods vm)) as [oe|] eqn:Ee; [|discriminate]. cbn [bind] in Es.
  destruct (result_power l (vm_periods vm)) as [op|] eqn:Eo; [|discriminate]. cbn [bind] in Es.
  destruct (result_valid l (vm_periods vm)) as [ov|]; [|discriminate]. cbn [bind] in Es. destruct oe as [e|], ov as [v|]; try discriminate. injection Es as <-. cbn [cs_energy cs_power].
  assert (Hl : forall r, In r l -> fr_unit r = unit).
  { unfold model_results in Em. cbv zeta in Em. destruct (mapM _ (define_time_model_for_period data target)) as [subsets|]; [|discriminate]. cbn [bind] in Em.
    destruct (define_time_model_for_period data target); [discriminate|]. destruct (temporal_model_of_periods _); [|discriminate]. cbn [bind] in Em.
    destruct (mapM _ subsets) as [rs|] eqn:Er; [|discriminate]. cbn [bind] in Em. injection Em as <-. apply mapM_Ok in Er. clear - Hu Er.
    induction Er as [|a b la lb H _ IH]; intros r I; [destruct I|]. destruct I as [<-|I]; eauto. }
  split.
  - unfold result_energy in Ee. destruct (concatenated_fields _ _ _ _ _ _ _ (fun x => x = unit) _ _ _ Hl Ee). split; [assumption|split; [assumption|]]. eapply concatenated_length; eauto.
  - intros p ->. unfold result_power in Eo. destruct (concatenated_fields _ _ _ _ _ _ _ (fun x => x = MEGA_WATT) _ _ _ (fun _ _ => eq_refl) Eo).
    split; [assumption|split; [assumption|]]. eapply concatenated_length; eauto.
Qed.
Lemma series_eta : forall V (s : series V), s = mkSeries (s_periods s) (s_values s) (s_unit s). Proof. intros V []. reflexivity. Qed.

(** ** The fuel of a component over the run *)
Lemma mapped_entries : forall A B (f : A -> result B) (data : temporal_data A) target ps tm, well_written data -> nonempty target -> (p_end target <= DT_MAX)%Z ->
  uncut ps (p_start target) -> uncut ps (p_end target) -> (forall t, In t (data_dates data) -> uncut ps t) ->
  mapM (fun e => do y <- f (snd e); Ok (fst e, y)) (define_time_model_for_period data target) = Ok tm ->
  disjoint_entries tm /\ (forall e, In e tm -> nonempty (fst e)) /\ (forall q m, In (q, m) tm -> no_cut ps (p_start q) /\ no_cut ps (p_end q)) /\
  forall q b, In (q, b) tm -> exists a, f a = Ok b.
Proof.
  intros A B f data target ps l [W NP] N Mx U1 U2 Ud Em'. pose proof (mapped_periods _ _ f _ _ Em') as Ep.
  destruct (adjusted_facts A data target NP W N Mx) as [Ca F].
  assert (Hq : forall q m, In (q, m) l -> exists n, In (q, n) (define_time_model_for_period data target)).
  { intros q m I. assert (In q (map fst l)) as I' by (apply in_map_iff; exists (q, m); auto). rewrite Ep in I'.
    apply in_map_iff in I' as ([q' n] & <- & I'). exists n. exact I'. }
  split; [|split; [|split]].
  - intros i j e e' d Hi Hj Di Dj.
    assert (Hi' : nth_error (map fst l) i = Some (fst e)) by (rewrite nth_error_map, Hi; reflexivity).
    assert (Hj' : nth_error (map fst l) j = Some (fst e')) by (rewrite nth_error_map, Hj; reflexivity).
    rewrite Ep in Hi', Hj'. rewrite nth_error_map in Hi', Hj'.
    destruct (default_model_props A data target W N) as (Ne & P & _).
    destruct (nth_error (define_time_model_for_period data target) i) as [x|] eqn:Xi; [|discriminate].
    destruct (nth_error (define_time_model_for_period data target) j) as [y|] eqn:Xj; [|discriminate].
    injection Hi' as Hi'. injection Hj' as Hj'. rewrite <- Hi' in Di. rewrite <- Hj' in Dj.
    assert (D : disjoint_entries (define_time_model_for_period data target)).
    { apply pdisj_disjoint. rewrite (define_restrict _ data target N Ne P). now apply restrict_pdisj. }
    eapply D; eauto.
  - intros e I. apply (contiguous_nonempty _ (fst e) Ca). rewrite <- Ep. now apply in_map.
  - intros q m I. destruct (Hq q m I) as (n & In'). destruct (F q n In') as (_ & _ & _ & D1 & D2).
    split; [destruct D1 as [->|D1]; [exact U1|now apply Ud]|destruct D2 as [->|D2]; [exact U2|now apply Ud]].
  - intros q b I. apply mapM_Ok in Em'. clear - Em' I. induction Em' as [|e e' a b' He E IH]; [destruct I|]. destruct I as [->|I]; [|auto].
    destruct (f (snd e)) as [y|] eqn:Ef; [|discriminate]. cbn [bind] in He. injection He as _ <-. exists (snd e). exact Ef.
Qed.
Definition fuel_entries (ps : list period) (fuels : list (string * fuel_type)) (tm : list (period * fuel_type)) : Prop :=
  disjoint_entries tm /\ (forall e, In e tm -> nonempty (fst e)) /\ (forall q m, In (q, m) tm -> no_cut ps (p_start q) /\ no_cut ps (p_end q)) /\
  forall q m, In (q, m) tm -> exists name, dict_get String.eqb name fuels = Some m.
Lemma resolve_fuel_entries : forall target fuels own default tm ps, run_setting ps target ->
  (forall f, own = Some f -> well_written f /\ forall t, In t (data_dates f) -> uncut ps t) ->
  (forall f, default = Some f -> well_written f /\ forall t, In t (data_dates f) -> uncut ps t) ->
  resolve_fuel target fuels own default = Ok tm -> fuel_entries ps fuels tm.
Proof.
  intros target fuels own default tm ps (_ & N & Mx & U1 & U2) Ho Hd E. unfold resolve_fuel in E.
  destruct (own_or_default own default) as [data|] eqn:Ed; [|discriminate].
  assert (Hw : well_written data /\ forall t, In t (data_dates data) -> uncut ps t).
  { unfold own_or_default in Ed. destruct own as [[s|e es|e es]|]; [destruct s| | |]; try (now apply Hd); apply Ho; exact Ed. }
  destruct Hw as [Hw Hc]. destruct (mapM _ _) as [resolved|] eqn:Em; [|discriminate]. cbn [bind] in E. apply refused_periods in E as ->.
  destruct (mapped_entries _ _ (fun n => of_option ValidationError (dict_get String.eqb n fuels)) data target ps _ Hw N Mx U1 U2 Hc Em) as (D & Ne & Nc & F).
  split; [exact D|]. split; [exact Ne|]. split; [exact Nc|]. intros q m I. destruct (F q m I) as (a & Ha). exists a.
  destruct (dict_get String.eqb a fuels); cbn in Ha; [|discriminate]. injection Ha as <-. reflexivity.
Qed.

(** ** Emissions as a dictionary: what each name stands for *)
Definition emission_dict (ps : list period) (reg : list Qc) (listed : string -> Prop) (amount : string -> nat -> Qc -> Prop) (d : list (string * rate_series)) : Prop :=
  NoDup (map fst d) /\ (forall name, In name (map fst d) <-> listed name) /\
  (forall name s, In (name, s) d -> r_periods s = ps /\ r_unit s = TONS_PER_DAY /\ r_type s = STREAM_DAY /\ r_regularity s = map Some reg /\ length (r_values s) = length ps /\
     forall k, k < length ps -> amount name k (number_at (r_values s) k)) /\
  (forall name k, ~ listed name -> k < length ps -> amount name k 0%Qc).

Lemma number_at_nth : forall l k x, nth_error l k = Some x -> number_at l k = match x with Some q => q | None => 0%Qc end.
Proof. intros l k x E. unfold number_at. now rewrite E. Qed.

Lemma in_force_here : forall (ps : list period) (tm : list (period * fuel_type)) p t m, In p ps -> (forall q m, In (q, m) tm -> no_cut ps (p_start q) /\ no_cut ps (p_end q)) ->
  In_period t p -> in_force tm t m -> forall t', In_period t' p -> in_force tm t' m.
Proof.
  intros ps tm p t m Hp Hc Ht (q & I & Hq) t' Ht'. exists q. split; [exact I|]. destruct (Hc q m I) as [C1 C2]. specialize (C1 p Hp). specialize (C2 p Hp).
  unfold In_period in *. lia.
Qed.
Lemma in_force_once : forall (tm : list (period * fuel_type)) t m m', disjoint_entries tm -> in_force tm t m -> in_force tm t m' -> m = m'.
Proof.
  intros tm t m m' D (q & I & H) (q' & I' & H'). apply In_nth_error in I as (i & Ei). apply In_nth_error in I' as (j & Ej).
  assert (i = j) by (eapply D; eauto). subst j. congruence.
Qed.
Lemma in_force_dec : forall (tm : list (period * fuel_type)) t, (exists m, in_force tm t m) \/ forall m, ~ in_force tm t m.
Proof.
  induction tm as [|[q m] tm IH]; intros t; [right; intros m (q & [] & _)|].
  destruct (Z_le_dec (p_start q) t) as [H1|H1]; [destruct (Z_lt_dec t (p_end q)) as [H2|H2]|].
  - left. exists m, q. split; [now left|split; assumption].
  - destruct (IH t) as [(m' & q' & I & H)|H]; [left; exists m', q'; split; [now right|exact H]|]. right. intros m' (q' & [E|I] & H').
    + injection E as -> ->. destruct H'. lia. + apply (H m'). now exists q'.
  - destruct (IH t) as [(m' & q' & I & H)|H]; [left; exists m', q'; split; [now right|exact H]|]. right. intros m' (q' & [E|I] & H').
    + injection E as -> ->. destruct H'. lia. + apply (H m'). now exists q'.
Qed.

Section Amounts.
  Variable pow : Qc -> Qc -> Qc.
  Variables (first : period) (rest : list period) (vars : variables_dict) (vm : variables_map) (reg : list Qc).
  Let ps := first :: rest.
  Let n := List.length ps.
  Hypothesis Evm : make_variables_map ps vars = Ok vm.
  Hypothesis C : contiguous ps.
  Hypothesis Lvars : forall r l, dict_get String.eqb r vars = Some l -> List.length l = n.
  Hypothesis Lreg : List.length reg = n.

  Lemma value_at : forall ts v k, evaluate pow ts vars n = Ok v -> k < n -> exists x, evaluates_at pow vars n ts k x.
  Proof.
    intros ts v k E H. assert (List.length v = n) as L by (eapply evaluate_length; eauto).
    destruct (nth_error v k) as [x|] eqn:Ex; [|apply nth_error_None in Ex; lia]. exists x, v. auto.
  Qed.

  Lemma burnt : forall fuels tm energy periods power u, fuels_sound pow ps vars fuels -> fuel_entries ps fuels tm -> length energy = n ->
    exists d, fuel_consumer_emissions pow vm reg tm (mkConsumerResult periods (mkSeries ps energy u) power) = Ok d /\
      emission_dict ps reg (fun name => exists t m, in_force tm t m /\ In name (map fst m)) (fun name k => burns pow ps vars name k (tm, energy)) d.
  Proof.
    intros fuels tm energy periods power u Hf (D & Ne & Nc & Ff) Le.
    destruct (fuel_emissions_proof pow first rest vars vm tm energy periods power u reg Evm C Lvars D Ne Nc) as (d & Ed & Nd & Names & Vals); auto.
    { intros q m I. destruct (Ff q m I) as (a & Ha). apply (Hf a m Ha). }
    { intros q m name ts I I'. destruct (Ff q m I) as (a & Ha). apply (Hf a m Ha) with name, I'. }
    exists d. split; [exact Ed|]. split; [exact Nd|].
    assert (Hlist : forall name, (exists q m, In (q, m) tm /\ In name (map fst m)) <-> exists t m, in_force tm t m /\ In name (map fst m)).
    { intros name. split.
      - intros (q & m & I & I'). exists (p_start q), m. split; [|exact I']. exists q. split; [exact I|]. specialize (Ne _ I). unfold nonempty, In_period in *. cbn in Ne. lia.
      - intros (t & m & (q & I & _) & I'). exists q, m. auto. }
    split; [intros name; rewrite Names; apply Hlist|]. split.
    - intros name s I. destruct (Vals name s I) as (V1 & V2 & V3 & V4 & V5 & V6). do 5 (split; [assumption|]). intros k Hk.
      destruct (nth_error ps k) as [p|] eqn:Ep; [|apply nth_error_None in Ep; lia].
      assert (Hp : In p ps) by (eapply nth_error_In; eauto). assert (Np : nonempty p) by exact (contiguous_nonempty _ p C Hp).
      assert (Hs : In_period (p_start p) p) by (unfold nonempty, In_period in *; lia).
      destruct (V6 k p Ep) as [A B].
      assert (Hno : (forall m, in_force tm (p_start p) m -> ~ In name (map fst m)) -> forall t m, In_period t p -> in_force tm t m -> ~ In name (map fst m)).
      { intros H t m Ht Hi. apply H. eapply in_force_here; eauto. }
      destruct (in_force_dec tm (p_start p)) as [(m & Hm)|Hm].
      + destruct (in_dec string_dec name (map fst m)) as [Hin|Hin].
        * apply in_map_iff in Hin as ([name' ts] & En & Hin). cbn in En. subst name'.
          destruct (A _ _ _ Hs Hm Hin) as (f & x & X1 & X2 & X3). exists p. split; [exact Ep|]. left. exists (p_start p), m, ts, x.
          split; [exact Hs|]. split; [exact Hm|]. split; [exact Hin|]. split; [exact X1|]. cbn [snd].
          rewrite (number_at_nth _ _ _ X2), (number_at_nth _ _ _ X3). destruct f as [f|]; cbn; [reflexivity|now rewrite Qcmult_0_l].
        * assert (Hall : forall t m, In_period t p -> in_force tm t m -> ~ In name (map fst m)).
          { apply Hno. intros m' Hm'. now rewrite (in_force_once tm _ m' m D Hm' Hm). }
          exists p. split; [exact Ep|]. right. split; [exact Hall|]. now rewrite (number_at_nth _ _ _ (B Hall)).
      + assert (Hall : forall t m, In_period t p -> in_force tm t m -> ~ In name (map fst m)).
        { apply Hno. intros m' Hm'. destruct (Hm m' Hm'). }
        exists p. split; [exact Ep|]. right. split; [exact Hall|]. now rewrite (number_at_nth _ _ _ (B Hall)).
    - intros name k Hn Hk. destruct (nth_error ps k) as [p|] eqn:Ep; [|apply nth_error_None in Ep; fold n in Hk; unfold n in Hk; lia].
      exists p. split; [exact Ep|]. right. split; [|reflexivity]. intros t m _ Hi Hin. apply Hn. exists t, m. auto.
  Qed.

  Lemma last_of : forall A (es : list (string * A)) name, In name (map fst es) -> exists a, last_named es name a.
  Proof.
    intros A es name. induction es as [|[x a] es IH]; intros I; [destruct I|]. destruct (in_dec string_dec name (map fst es)) as [Hi|Hi].
    - destruct (IH Hi) as (b & l1 & l2 & -> & H). exists b, ((x, a) :: l1), l2. split; [reflexivity|exact H].
    - destruct I as [E|I]; [cbn in E; subst x|contradiction]. exists a, [], es. split; [reflexivity|exact Hi].
  Qed.

  Lemma vented : forall c, ve_regularity c = mkRegularity (rg_input (ve_regularity c)) reg -> emitter_sound pow ps vars (ve_emitter c) ->
    exists d, emitter_emissions pow vm c = Ok d /\
      emission_dict ps reg (fun name => In name (emitter_names (ve_emitter c)))
        (fun name k x => forall g, nth_error reg k = Some g -> vents pow ps vars name k g (ve_emitter c) x) d.
  Proof.
    intros c Er Hs. unfold emitter_emissions. rewrite Er. cbn [rg_values]. destruct (ve_emitter c) as [es|volume es]; cbn [emitter_sound emitter_names] in *.
    - destruct (direct_proof pow ps vars vm reg es Evm C) as (d & Ed & Nd & Names & Vals); auto; [discriminate|].
      exists d. split; [exact Ed|]. split; [exact Nd|]. split; [exact Names|]. split.
      + intros name s I. destruct (Vals name s I) as (V1 & V2 & V3 & V4 & V5 & r & Hr & V6). do 5 (split; [assumption|]). intros k Hk g Hg. left.
        destruct (Hs name r) as (Hu & (v & Ev) & Hc).
        { destruct Hr as (l1 & l2 & -> & _). apply in_or_app. right. now left. }
        destruct (value_at _ _ k Ev Hk) as (x & Hx). destruct (condition_total pow ps vars reg Lvars Lreg (ri_condition r) k Hk Hc) as (b & Hb).
        destruct (means_total (ri_type r) x b g) as (y & Hy). destruct (tons_total (ri_unit r) y Hu) as (z & Hz).
        exists r, x, b, y. split; [exact Hr|]. split; [exact Hx|]. split; [exact Hb|]. split; [exact Hy|].
        now rewrite (number_at_nth _ _ _ (V6 k x b g y z Hx Hb Hg Hy Hz)).
      + intros name k Hn Hk g Hg. right. split; [exact Hn|reflexivity].
    - destruct Hs as (Hu & (Hv & Hc) & Hf).
      destruct (oil_proof pow ps vars vm reg volume es Evm C) as (d & Ed & Nd & Names & Vals); auto; [discriminate|].
      exists d. split; [exact Ed|]. split; [exact Nd|]. split; [exact Names|]. split.
      + intros name s I. destruct (Vals name s I) as (V1 & V2 & V3 & V4 & V5 & r & Hr & V6). do 5 (split; [assumption|]). intros k Hk g Hg. left.
        destruct (Hf name r) as (w & Ew).
        { destruct Hr as (l1 & l2 & -> & _). apply in_or_app. right. now left. }
        destruct Hv as (v & Ev). destruct (value_at _ _ k Ev Hk) as (x & Hx). destruct (condition_total pow ps vars reg Lvars Lreg (ri_condition volume) k Hk Hc) as (b & Hb).
        destruct (means_total (ri_type volume) x b g) as (y & Hy). destruct (value_at _ _ k Ew Hk) as (f & Hfv).
        exists r, x, b, y, f. split; [exact Hr|]. split; [exact Hx|]. split; [exact Hb|]. split; [exact Hy|]. split; [exact Hfv|].
        now rewrite (number_at_nth _ _ _ (V6 k x b g y f Hx Hb Hg Hy Hfv)).
      + intros name k Hn Hk g Hg. right. split; [exact Hn|reflexivity].
  Qed.
End Amounts.

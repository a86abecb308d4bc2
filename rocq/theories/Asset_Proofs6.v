(** Which models are accepted. *)
From Coq Require Import PeanoNat String Lia.
From Verif Require Import QcTac Base BaseLemmas Time_Model Time_Spec Time_Proofs Time_Proofs2 Num Expr_Model Vars_Model Units_Model Rates_Model
  Input_Model Interp_Model Energy_Model Emitters_Model Emitters_Proofs5 Consumer_Model Consumer_Proofs3 Graph_Model Totals_Model
  Asset_Model Asset_Spec Asset_Proofs Asset_Proofs2 Asset_Proofs3.
Local Open Scope list_scope.

(** success does not depend on what has been registered before *)
Definition works {M A} (m : mapper M A) : Prop := forall s, exists b s', m s = inl (b, s').
Definition decided {M A B} (f : A -> mapper M B) (a : A) (P : Prop) : Prop :=
  (P -> works (f a)) /\ (forall s b s', f a s = inl (b, s') -> P).
Lemma each_decided : forall M A B (f : A -> mapper M (option B)) (P : A -> Prop) l, (forall a, In a l -> decided f a (P a)) ->
  ((forall a, In a l -> P a) -> works (each f l)) /\ (forall s b s', each f l s = inl (b, s') -> forall a, In a l -> P a).
Proof.
  intros M A B f P l; induction l as [|a l IH]; intros H.
  - split; [intros _ s; eexists; eexists; reflexivity|intros s b s' _ a []].
  - destruct (IH (fun x Hx => H x (or_intror Hx))) as [I1 I2]. destruct (H a (or_introl eq_refl)) as [H1 H2]. split.
    + intros Hp s. cbn [each]. unfold andthen, returns. destruct (H1 (Hp a (or_introl eq_refl)) s) as (b & s1 & ->). cbn [bind fst snd].
      destruct (I1 (fun x Hx => Hp x (or_intror Hx)) s1) as (bs & s2 & ->). cbn [bind fst snd]. eauto.
    + intros s b s' E. cbn [each] in E. unfold andthen, returns in E. destruct (f a s) as [[b1 s1]|] eqn:E1; [|discriminate]. cbn [bind fst snd] in E.
      destruct (each f l s1) as [[bs s2]|] eqn:E2; [|discriminate]. intros x [<-|Hx]; [eapply H2; eauto|eapply I2; eauto].
Qed.

Lemma sorted_written : forall A (data : temporal_data A) target, well_written data -> nonempty target ->
  temporal_model_of_periods (define_time_model_for_period data target) = Ok (define_time_model_for_period data target).
Proof.
  intros A data target [W NP] N. apply temporal_model_of_periods_iff. split; [reflexivity|]. destruct (default_model_props A data target W N) as (Ne & P & O & _).
  rewrite (define_restrict A data target N Ne P). apply restrict_sorted; auto. apply O. destruct data; cbn [data_ordered]; auto. exfalso. eapply NP. reflexivity.
Qed.
Lemma periods_only : forall A B (l : list (period * A)) (m : list (period * B)), map fst m = map fst l ->
  temporal_model_of_periods l = Ok l -> temporal_model_of_periods m = Ok m.
Proof. intros A B l m E H. unfold temporal_model_of_periods in *. rewrite E. now destruct (list_eqb _ _ _). Qed.

(** resolving the names of a temporal model *)
Lemma resolved_iff : forall A B (f : A -> result B) (data : temporal_data A) target, well_written data -> nonempty target -> (p_end target <= DT_MAX)%Z ->
  (exists tm, mapM (fun e => do y <- f (snd e); Ok (fst e, y)) (define_time_model_for_period data target) = Ok tm) <->
  (forall t a, In_period t target -> data_in_force data t a -> exists b, f a = Ok b).
Proof.
  intros A B f data target [W NP] N Mx. split.
  - intros (tm & E) t a H1 H2. destruct (proj2 (define_time_model_proof A data target W N t a) (conj H1 H2)) as (q & Iq & _).
    apply mapM_Ok in E. induction E as [|e e' l m He E IH]; [destruct Iq|]. destruct Iq as [->|Iq]; [|auto]. cbn [snd] in He. destruct (f a) as [b|]; [eauto|discriminate].
  - intros H. destruct (adjusted_facts A data target NP W N Mx) as [Ca _].
    assert (Hf : forall q a, In (q, a) (define_time_model_for_period data target) -> exists b, f a = Ok b).
    { intros q a Iq. assert (nonempty q) as Nq. { apply (contiguous_nonempty _ q Ca). apply in_map_iff. exists (q, a). auto. }
      destruct (proj1 (define_time_model_proof A data target W N (p_start q) a)) as [D1 D2]. { exists q. split; [exact Iq|]. unfold nonempty, In_period in *. lia. }
      eapply H; eauto. }
    clear H Ca. induction (define_time_model_for_period data target) as [|[q a] l IH]; [exists []; reflexivity|]. cbn [mapM fst snd].
    destruct (Hf q a (or_introl eq_refl)) as (b & ->). cbn [bind fst snd]. destruct IH as (tm & ->). { intros q' a' I. apply (Hf q' a'). now right. }
    cbn [bind]. eauto.
Qed.

Lemma written_iff : forall own default data, own_or_default own default = Some data <-> written_fuel own default data.
Proof.
  intros own default data. unfold own_or_default, written_fuel. split.
  - intros Ed. destruct own as [[s|e es|e es]|]; [destruct s| | |]; try (injection Ed as <-); try (left; split; [reflexivity|discriminate]); right; auto.
  - intros [[-> H]|[[-> | ->] H]]; auto. destruct data as [s|e es|e es]; auto. destruct s; auto. contradiction.
Qed.

Section Accept.
  Context {M : Type}.
  Variable np_pow : Qc -> Qc -> Qc.
  Variable vm : variables_map.
  Variable target : period.
  Variable fuels : list (string * fuel_type).
  Variable tables : list (string * tabular_data).
  Hypothesis N : nonempty target.
  Hypothesis Mx : (p_end target <= DT_MAX)%Z.

  (** the fuel together with the check of the component; [models] has the periods of [data] *)
  Lemma fuelled_iff : forall A B own default (data : temporal_data A) (models : list (period * B)),
    (forall f, own = Some f -> well_written f) -> (forall f, default = Some f -> well_written f) -> well_written data ->
    map fst models = map fst (define_time_model_for_period data target) -> models <> [] ->
    (exists fuel, resolve_fuel target fuels own default = Ok fuel /\ make_fuel_consumer fuel models = Ok tt) <->
    fuelled target fuels own default data.
  Proof.
    intros A B own default data models Ho Hd Hw Ep Ne.
    assert (Hwr : forall fd, written_fuel own default fd -> well_written fd).
    { intros fd [[E _]|[_ E]]; auto. }
    pose proof Hw as [W NP]. destruct (adjusted_facts A data target NP W N Mx) as [Ca _].
    assert (Hin : forall t, (exists m, in_force models t m) <-> exists m, In_period t target /\ data_in_force data t m).
    { intros t. split.
      - intros (m & q & I & H). assert (In q (map fst models)) as I' by (apply in_map_iff; exists (q, m); auto). rewrite Ep in I'.
        apply in_map_iff in I' as ([q' a] & E & I'). cbn in E. subst q'. exists a. apply (define_time_model_proof A data target W N). exists q. auto.
      - intros (a & H). apply (define_time_model_proof A data target W N) in H as (q & I & H). assert (In q (map fst (define_time_model_for_period data target))) as I'.
        { apply in_map_iff. exists (q, a). auto. } rewrite <- Ep in I'. apply in_map_iff in I' as ([q' m] & E & I'). cbn in E. subst q'. exists m, q. auto. }
    unfold resolve_fuel, fuelled. split.
    - intros (tm & E & Ek). destruct (own_or_default own default) as [fd|] eqn:Eo; [|discriminate]. apply written_iff in Eo. exists fd. split; [exact Eo|].
      pose proof (Hwr fd Eo) as Hwf. pose proof Hwf as [Wf NPf]. destruct (adjusted_facts string fd target NPf Wf N Mx) as [Cf _].
      destruct (mapM _ _) as [l|] eqn:Em; [|discriminate]. cbn [bind] in E. apply refused_periods in E as ->.
      split.
      + intros t name H1 H2. destruct (proj1 (resolved_iff string fuel_type (fun n => of_option ValidationError (dict_get String.eqb n fuels)) fd target Hwf N Mx) (ex_intro _ l Em) t name H1 H2) as (f & Hf).
        exists f. now destruct (dict_get _ _ _); [injection Hf as <-|].
      + intros t m H1 H2. pose proof (mapped_periods _ _ (fun n => of_option ValidationError (dict_get String.eqb n fuels)) _ _ Em) as Epf.
        assert (Nf : l <> []). { intros ->. unfold make_fuel_consumer, temporal_model_period in Ek. destruct (periods_period (map fst models)); discriminate. }
        destruct (fuel_covered_proof fuel_type B l models) as [[_ Hc]|[Hc _]]; auto; [now rewrite Epf|now rewrite Ep| |congruence].
        destruct (proj2 (Hin t)) as (b & Hb); [exists m; auto|]. destruct (Hc t b Hb) as (f & Hf).
        apply (mapped_in_force _ _ (fun n => of_option ValidationError (dict_get String.eqb n fuels)) _ _ t f Em) in Hf as (name & Hn & _).
        apply (define_time_model_proof string fd target Wf N) in Hn as [_ Hn]. eauto.
    - intros (fd & Eo & H1 & H2). pose proof (Hwr fd Eo) as Hwf. apply written_iff in Eo. rewrite Eo.
      pose proof Hwf as [Wf NPf]. destruct (adjusted_facts string fd target NPf Wf N Mx) as [Cf _].
      destruct (proj2 (resolved_iff string fuel_type (fun n => of_option ValidationError (dict_get String.eqb n fuels)) fd target Hwf N Mx)) as (l & Em).
      { intros t a T1 T2. destruct (H1 t a T1 T2) as (f & ->). cbn. eauto. }
      rewrite Em. cbn [bind]. pose proof (mapped_periods _ _ (fun n => of_option ValidationError (dict_get String.eqb n fuels)) _ _ Em) as Epf.
      rewrite (periods_only _ _ _ l Epf (sorted_written _ fd target Hwf N)). cbn [refused]. exists l. split; [reflexivity|].
      assert (Hfu : forall t m, in_force models t m -> exists f, in_force l t f).
      { intros t m Hm. destruct (proj1 (Hin t) (ex_intro _ m Hm)) as (a & T1 & T2). destruct (H2 t a T1 T2) as (name & Hn). destruct (H1 t name T1 Hn) as (f & Hf).
        exists f. apply (mapped_in_force _ _ (fun n => of_option ValidationError (dict_get String.eqb n fuels)) _ _ t f Em). exists name. rewrite Hf.
        split; [apply (define_time_model_proof string fd target Wf N); auto|reflexivity]. }
      assert (Nf : l <> []).
      { intros ->. destruct models as [|[q m] ms]; [contradiction|]. assert (Cm : contiguous (map fst ((q, m) :: ms))) by (rewrite Ep; exact Ca).
        destruct (Hfu (p_start q) m) as (f & q' & [] & _). exists q. split; [now left|]. pose proof (contiguous_nonempty _ q Cm (or_introl eq_refl)) as Nq.
        unfold nonempty, In_period in *. lia. }
      destruct (fuel_covered_proof fuel_type B l models) as [[Hc _]|[_ (t & m & T1 & T2)]]; auto; [now rewrite Epf|now rewrite Ep|].
      exfalso. destruct (Hfu t m T1) as (f & Hf). now apply (T2 f).
  Qed.

  Lemma electricity_decided : forall r p (y : yaml_electricity_consumer M), well_written (ye_model y) -> decided (map_electricity_consumer target r p) y True.
  Proof.
    intros r p y Hw. split; [|auto]. intros _ s. unfold map_electricity_consumer, andthen, new_id, lift, map_usage_model. cbn [bind fst snd].
    pose proof (sorted_written _ (ye_model y) target Hw N) as X. destruct (define_time_model_for_period (ye_model y) target) as [|e l]; cbn [bind fst snd].
    - unfold returns. eexists; eexists; reflexivity.
    - rewrite X. cbn. eexists; eexists; reflexivity.
  Qed.
  Lemma fuel_consumer_decided : forall (i : yaml_installation M) r p (y : yaml_fuel_consumer M), well_written (yf_model y) ->
    (forall f, yf_fuel y = Some f -> well_written f) -> (forall f, yi_fuel i = Some f -> well_written f) ->
    decided (map_fuel_consumer target fuels r (yi_fuel i) p) y (fuel_consumer_accepted target fuels i y).
  Proof.
    intros i r p y Hw Ho Hd. unfold fuel_consumer_accepted.
    pose proof (in_run_iff M (yf_model y) target Hw N Mx) as Hr. pose proof (sorted_written _ (yf_model y) target Hw N) as X.
    assert (Fi : define_time_model_for_period (yf_model y) target <> [] -> _) by
      exact (fuelled_iff M M (yf_fuel y) (yi_fuel i) (yf_model y) (define_time_model_for_period (yf_model y) target) Ho Hd Hw eq_refl).
    unfold decided, works, map_fuel_consumer, andthen, new_id, lift, map_usage_model. cbn [bind fst snd].
    destruct (define_time_model_for_period (yf_model y) target) as [|e l] eqn:Ed.
    - cbn [bind fst snd returns]. split; [intros _ s; eexists; eexists; reflexivity|]. intros _ _ _ _ H. apply Hr in H. contradiction.
    - rewrite X. cbn [refused bind fst snd]. specialize (Fi ltac:(discriminate)). split.
      + intros H s. destruct (proj2 Fi) as (fuel & E1 & E2); [apply H, Hr; discriminate|]. rewrite E1. cbn [bind fst snd]. rewrite Ed. rewrite E2. cbn. eexists; eexists; reflexivity.
      + intros s b s' E _. apply Fi. destruct (resolve_fuel target fuels (yf_fuel y) (yi_fuel i)) as [fuel|]; [|discriminate]. cbn [bind fst snd] in E. rewrite Ed in E.
        exists fuel. split; [reflexivity|]. destruct (make_fuel_consumer fuel (e :: l)) as [[]|]; [reflexivity|discriminate].
  Qed.
  Lemma models_iff : forall data, well_written data ->
    (exists models, generator_set_models target tables data = Ok models) <->
    (forall t name, In_period t target -> data_in_force data t name -> exists table gs, dict_get String.eqb name tables = Some table /\ make_generator_set table = Ok gs).
  Proof.
    intros data Hw. set (f := fun n => do t <- of_option ValidationError (dict_get String.eqb n tables); make_generator_set t).
    assert (Ex : generator_set_models target tables data = do models <- mapM (fun e => do y <- f (snd e); Ok (fst e, y)) (define_time_model_for_period data target); refused (temporal_model_of_periods models)).
    { unfold generator_set_models. f_equal. apply mapM_ext_fun. intros a. unfold f. destruct (of_option _ _); reflexivity. }
    rewrite Ex. split.
    - intros (models & E) t name H1 H2. destruct (mapM _ _) as [l|] eqn:Em; [|discriminate].
      destruct (proj1 (resolved_iff string generator_set f data target Hw N Mx) (ex_intro _ l Em) t name H1 H2) as (gs & Hg). unfold f in Hg.
      destruct (dict_get String.eqb name tables) as [tb|]; [|discriminate]. cbn in Hg. eauto.
    - intros H. destruct (proj2 (resolved_iff string generator_set f data target Hw N Mx)) as (l & Em).
      { intros t a H1 H2. destruct (H t a H1 H2) as (tb & gs & E1 & E2). exists gs. unfold f. rewrite E1. exact E2. }
      rewrite Em. cbn [bind]. rewrite (periods_only _ _ _ l (mapped_periods _ _ f _ _ Em) (sorted_written _ data target Hw N)). cbn. eexists; reflexivity.
  Qed.
  Lemma models_periods : forall data models, generator_set_models target tables data = Ok models -> map fst models = map fst (define_time_model_for_period data target).
  Proof.
    intros data models E. unfold generator_set_models in E. destruct (mapM _ _) as [l|] eqn:Em; [|discriminate]. cbn [bind] in E. apply refused_periods in E as ->.
    apply mapM_Ok in Em. induction Em as [|e e' a b He E IH]; [reflexivity|]. destruct (of_option _ _); [|discriminate]. cbn [bind] in He.
    destruct (make_generator_set _); [|discriminate]. cbn [bind] in He. injection He as <-. cbn. now rewrite IH.
  Qed.
  Lemma generator_set_decided : forall (i : yaml_installation M) r p (y : yaml_generator_set M) ps, generator_set_written ps y -> (forall f, yi_fuel i = Some f -> well_written f) ->
    decided (map_generator_set target fuels tables r (yi_fuel i) p) y (generator_set_accepted target fuels tables i y).
  Proof.
    intros i r p y ps (Hw & _ & Ho & Hc) Hd. unfold generator_set_accepted.
    pose proof (in_run_iff _ (yg_electricity2fuel y) target Hw N Mx) as Hr. pose proof (models_iff (yg_electricity2fuel y) Hw) as Hmi.
    pose proof (models_periods (yg_electricity2fuel y)) as Hmp.
    assert (Hne : forall models, generator_set_models target tables (yg_electricity2fuel y) = Ok models -> in_run target (yg_electricity2fuel y) <-> models <> []).
    { intros models E. rewrite Hr. pose proof (Hmp models E) as X. destruct models, (define_time_model_for_period (yg_electricity2fuel y) target); cbn in X; try discriminate; split; intros; congruence || discriminate. }
    pose proof (fun models => fuelled_iff string generator_set (yg_fuel y) (yi_fuel i) (yg_electricity2fuel y) models Ho Hd Hw) as Fi.
    assert (He : forall q s, exists b s', each (map_electricity_consumer target r q) (yg_consumers y) s = inl (b, s')).
    { intros q. apply (each_decided M _ _ (map_electricity_consumer target r q) (fun _ => True)); [|auto]. intros a Ha. apply electricity_decided. auto. }
    unfold decided, works, map_generator_set, andthen, new_id, lift. cbn [bind fst snd]. split.
    - intros (H1 & H2 & H3) s. destruct (proj2 Hmi H2) as (models & Em). destruct (proj2 (Fi models (Hmp models Em) (proj1 (Hne models Em) H1)) H3) as (fuel & E1 & E2).
      rewrite E1. cbn [bind fst snd]. rewrite Em. cbn [bind fst snd]. destruct (He (NUuid (mp_next s)) (mkMapping (S (mp_next s)) (mp_registered s))) as (b & s' & E3).
      rewrite E3. cbn [bind fst snd]. rewrite E2. cbn. eexists; eexists; reflexivity.
    - intros s b s' E. destruct (resolve_fuel target fuels (yg_fuel y) (yi_fuel i)) as [fuel|] eqn:Ef; [|discriminate]. cbn [bind fst snd] in E.
      destruct (generator_set_models target tables (yg_electricity2fuel y)) as [models|] eqn:Em; [|discriminate]. cbn [bind fst snd] in E.
      destruct (each _ _ _) as [[cs s1]|]; [|discriminate]. cbn [bind fst snd] in E.
      destruct (make_fuel_consumer fuel models) as [[]|] eqn:Ek; [|discriminate].
      assert (Nm : models <> []). { intros ->. discriminate Ek. }
      split; [now apply (Hne models eq_refl)|]. split; [apply Hmi; eauto|]. apply (Fi models (Hmp models eq_refl) Nm). eauto.
  Qed.
  Lemma installation_decided : forall p (i : yaml_installation M) ps, installation_written ps i ->
    decided (map_installation np_pow vm target fuels tables p) i (installation_accepted np_pow vm target fuels tables i).
  Proof.
    intros p i ps (H1 & H2 & H3). unfold installation_accepted.
    assert (Hg : forall r q, _ /\ _) by (intros r q; exact (each_decided M _ _ (map_generator_set target fuels tables r (yi_fuel i) q) (generator_set_accepted target fuels tables i)
      (yi_generator_sets i) (fun a Ha => generator_set_decided i r q a ps (H2 a Ha) H1))).
    assert (Hf : forall r q, _ /\ _) by (intros r q; exact (each_decided M _ _ (map_fuel_consumer target fuels r (yi_fuel i) q) (fuel_consumer_accepted target fuels i)
      (yi_fuel_consumers i) (fun a Ha => fuel_consumer_decided i r q a (proj1 (H3 a Ha)) (proj2 (H3 a Ha)) H1))).
    assert (Hv : forall r q s, exists b s', each (map_venting_emitter (M := M) r q) (yi_venting_emitters i) s = inl (b, s')).
    { intros r q. apply (each_decided M _ _ (map_venting_emitter r q) (fun _ => True)); [|auto]. intros a Ha. split; [|auto]. intros _ s.
      unfold map_venting_emitter, andthen, new_id. cbn. eexists; eexists; reflexivity. }
    unfold decided, works, map_installation, andthen, new_id, lift. cbn [bind fst snd]. split.
    - intros ((values & export & E1 & E2) & A2 & A3) s. rewrite E1. cbn [bind fst snd]. rewrite E2. cbn [bind fst snd].
      set (r := mkRegularity (yi_regularity i) values). set (q := NUuid (mp_next s)).
      destruct (proj1 (Hg r q) A2 (mkMapping (S (mp_next s)) (mp_registered s))) as (gs & s1 & ->). cbn [bind fst snd].
      destruct (proj1 (Hf r q) A3 s1) as (fs & s2 & ->). cbn [bind fst snd]. destruct (Hv r q s2) as (vs & s3 & ->). cbn. eexists; eexists; reflexivity.
    - intros s b s' E. destruct (regularity_values np_pow (yi_regularity i) target vm) as [values|]; [|discriminate]. cbn [bind fst snd] in E.
      destruct (hydrocarbon_export np_pow (yi_export i) values target vm) as [export|] eqn:Ee; [|discriminate]. cbn [bind fst snd] in E.
      destruct (each (map_generator_set _ _ _ _ _ _) _ _) as [[gs s1]|] eqn:Eg; [|discriminate]. cbn [bind fst snd] in E.
      destruct (each (map_fuel_consumer _ _ _ _ _) _ _) as [[fs s2]|] eqn:Ef; [|discriminate].
      split; [eauto|]. split; [eapply (proj2 (Hg _ _)); eauto|eapply (proj2 (Hf _ _)); eauto].
  Qed.
End Accept.

Theorem accepted_proof : forall M np_pow ps vm target fuels tables name (installations : list (yaml_installation M)),
  run_setting ps target -> (forall i, In i installations -> installation_written ps i) ->
  (exists a mp, map_model np_pow vm target fuels tables name installations = Ok (a, mp)) <->
  (forall i, In i installations -> installation_accepted np_pow vm target fuels tables i).
Proof.
  intros M np_pow ps vm target fuels tables name l (_ & N & Mx & _) Hw.
  destruct (each_decided M _ _ (map_installation np_pow vm target fuels tables (NUuid 1)) (installation_accepted np_pow vm target fuels tables) l) as [I1 I2].
  { intros i Hi. eapply installation_decided; eauto. }
  unfold map_model, map_asset, andthen, new_id. cbn [bind fst snd mp_next mp_registered]. split.
  - intros (a & mp & E). destruct (each _ _ _) as [[is s1]|] eqn:Ei; [|discriminate]. eapply I2; eauto.
  - intros H. destruct (I1 H (mkMapping 2 [])) as (b & s & ->). cbn. eexists; eexists; reflexivity.
Qed.

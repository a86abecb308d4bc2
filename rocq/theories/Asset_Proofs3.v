(** Fuels, generator sets and the power they are asked for. *)
From Coq Require Import PeanoNat String Lia.
From Verif Require Import QcTac Base BaseLemmas Time_Model Time_Spec Time_Proofs Time_Proofs2 Num Expr_Model Vars_Model Units_Model Rates_Model
  Input_Model Interp_Model Energy_Model Energy_Proofs Energy_Proofs2 Emitters_Model Consumer_Model Consumer_Proofs3 Graph_Model Graph_Spec Totals_Model
  Asset_Model Asset_Spec Asset_Proofs Asset_Proofs2.
Local Open Scope list_scope.
Local Open Scope nat_scope.

Lemma in_run_iff : forall M (data : temporal_data M) target, well_written data -> nonempty target -> (p_end target <= DT_MAX)%Z ->
  in_run target data <-> define_time_model_for_period data target <> [].
Proof.
  intros M data target [W NP] N Mx. unfold in_run. split.
  - intros (t & m & H1 & H2) E. destruct (proj2 (define_time_model_proof M data target W N t m) (conj H1 H2)) as (q & Iq & _). rewrite E in Iq. destruct Iq.
  - intros Ne. destruct (adjusted_facts M data target NP W N Mx) as [Ca _].
    destruct (define_time_model_for_period data target) as [|[q m] l] eqn:E; [contradiction|]. exists (p_start q), m.
    apply (define_time_model_proof M data target W N). exists q. rewrite E. split; [now left|].
    assert (nonempty q). { apply (contiguous_nonempty _ q Ca). now left. } unfold nonempty, In_period in *. lia.
Qed.

Lemma pdisj_disjoint : forall M (l : list (period * M)), pdisj l -> disjoint_entries l.
Proof.
  intros M l H. induction H as [|e l H IH Hd]; intros i j a b d Hi Hj Da Db; [destruct i; discriminate|].
  destruct i, j; cbn in Hi, Hj; [reflexivity| | |f_equal; eapply IH; eauto].
  - injection Hi as <-. exfalso. apply nth_error_In in Hj. eapply Hd; eauto.
  - injection Hj as <-. exfalso. apply nth_error_In in Hi. eapply Hd; eauto.
Qed.

(** the entries of a temporal model, mapped *)
Lemma mapped_in_force : forall A B (f : A -> result B) (l : list (period * A)) tm t b,
  mapM (fun e => do y <- f (snd e); Ok (fst e, y)) l = Ok tm ->
  in_force tm t b <-> exists a, in_force l t a /\ f a = Ok b.
Proof.
  intros A B f l tm t b E. apply mapM_Ok in E. unfold in_force. split.
  - intros (q & I & H). induction E as [|e e' l tm He E IH]; [destruct I|].
    destruct (f (snd e)) as [y|] eqn:Ef; [|discriminate]. cbn [bind] in He. injection He as <-. destruct I as [I|I].
    + injection I as <- <-. exists (snd e). split; [|exact Ef]. exists (fst e). split; [left; now destruct e|exact H].
    + destruct (IH I) as (a & (q' & I' & H') & Ha). exists a. split; [|exact Ha]. exists q'. split; [now right|exact H'].
  - intros (a & (q & I & H) & Ha). induction E as [|e e' l tm He E IH]; [destruct I|]. destruct I as [->|I].
    + cbn [fst snd] in He. rewrite Ha in He. cbn [bind] in He. injection He as <-. exists q. split; [now left|exact H].
    + destruct (IH I) as (q' & I' & H'). exists q'. split; [now right|exact H'].
Qed.
Lemma mapped_periods : forall A B (f : A -> result B) (l : list (period * A)) tm,
  mapM (fun e => do y <- f (snd e); Ok (fst e, y)) l = Ok tm -> map fst tm = map fst l.
Proof.
  intros A B f l tm E. apply mapM_Ok in E. induction E as [|e e' l tm He E IH]; [reflexivity|].
  destruct (f (snd e)); [|discriminate]. cbn [bind] in He. injection He as <-. cbn. now rewrite IH.
Qed.
Lemma refused_periods : forall A (l tm : list (period * A)), refused (temporal_model_of_periods l) = Ok tm -> tm = l.
Proof. intros A l tm E. unfold refused, temporal_model_of_periods in E. destruct (list_eqb _ _ _); [|discriminate]. now injection E as <-. Qed.

Lemma mapM_ext_fun : forall A B (f g : A -> result B) l, (forall a, f a = g a) -> mapM f l = mapM g l.
Proof. intros A B f g l H. induction l as [|a l IH]; cbn [mapM]; [reflexivity|]. now rewrite H, IH. Qed.

Lemma resolve_fuel_uses : forall target fuels own default tm, nonempty target ->
  (forall f, own = Some f -> well_written f) -> (forall f, default = Some f -> well_written f) ->
  resolve_fuel target fuels own default = Ok tm -> uses_fuel target fuels own default tm.
Proof.
  intros target fuels own default tm N Ho Hd E. unfold resolve_fuel in E.
  destruct (own_or_default own default) as [data|] eqn:Ed; [|discriminate].
  assert (Hw : written_fuel own default data /\ well_written data).
  { unfold own_or_default in Ed. unfold written_fuel. destruct own as [[s|e es|e es]|].
    - destruct s.
      + split; [right; split; [now right|exact Ed]|now apply Hd].
      + injection Ed as <-. split; [left; split; [reflexivity|discriminate]|now apply Ho].
    - injection Ed as <-. split; [left; split; [reflexivity|discriminate]|now apply Ho].
    - injection Ed as <-. split; [left; split; [reflexivity|discriminate]|now apply Ho].
    - split; [right; split; [now left|exact Ed]|now apply Hd]. }
  destruct Hw as [Hw [W _]]. exists data. split; [exact Hw|].
  destruct (mapM _ _) as [resolved|] eqn:Em; [|discriminate]. cbn [bind] in E. apply refused_periods in E as ->.
  intros t f. rewrite (mapped_in_force _ _ (fun n => of_option ValidationError (dict_get String.eqb n fuels)) _ _ t f Em).
  split.
  - intros (n & Hn & Hf). apply (define_time_model_proof _ data target W N) in Hn as [H1 H2]. split; [exact H1|]. exists n. split; [exact H2|].
    destruct (dict_get _ _ _) as [f'|]; cbn in Hf; [|discriminate]. now injection Hf as <-.
  - intros (H1 & n & H2 & Hf). exists n. split; [apply (define_time_model_proof _ data target W N); auto|]. now rewrite Hf.
Qed.

Lemma generator_models_facts : forall target tables data models ps, well_written data -> nonempty target -> (p_end target <= DT_MAX)%Z ->
  uncut ps (p_start target) -> uncut ps (p_end target) -> (forall t, In t (data_dates data) -> uncut ps t) ->
  generator_set_models target tables data = Ok models ->
  disjoint_entries models /\ (forall e, In e models -> nonempty (fst e)) /\
  (forall q m, In (q, m) models -> no_cut ps (p_start q) /\ no_cut ps (p_end q)) /\
  (forall q g, In (q, g) models -> exists t, make_generator_set t = Ok g) /\
  (forall t gs, in_force models t gs <-> In_period t target /\
     exists name table, data_in_force data t name /\ dict_get String.eqb name tables = Some table /\ make_generator_set table = Ok gs).
Proof.
  intros target tables data models ps [W NP] N Mx U1 U2 Ud E. unfold generator_set_models in E.
  destruct (mapM _ _) as [l|] eqn:Em; [|discriminate]. cbn [bind] in E. apply refused_periods in E as ->.
  set (f := fun n => do t <- of_option ValidationError (dict_get String.eqb n tables); make_generator_set t).
  assert (Em' : mapM (fun e => do y <- f (snd e); Ok (fst e, y)) (define_time_model_for_period data target) = Ok l).
  { rewrite <- Em. apply mapM_ext_fun. intros a. unfold f. destruct (of_option _ _); reflexivity. }
  clear Em. pose proof (mapped_periods _ _ f _ _ Em') as Ep.
  destruct (adjusted_facts string data target NP W N Mx) as [Ca F].
  assert (Hq : forall q m, In (q, m) l -> exists n, In (q, n) (define_time_model_for_period data target)).
  { intros q m I. assert (In q (map fst l)) as I' by (apply in_map_iff; exists (q, m); auto). rewrite Ep in I'.
    apply in_map_iff in I' as ([q' n] & <- & I'). exists n. exact I'. }
  split; [|split; [|split; [|split]]].
  - intros i j e e' d Hi Hj Di Dj.
    assert (Hi' : nth_error (map fst l) i = Some (fst e)) by (rewrite nth_error_map, Hi; reflexivity).
    assert (Hj' : nth_error (map fst l) j = Some (fst e')) by (rewrite nth_error_map, Hj; reflexivity).
    rewrite Ep in Hi', Hj'. rewrite nth_error_map in Hi', Hj'.
    destruct (default_model_props string data target W N) as (Ne & P & _).
    destruct (nth_error (define_time_model_for_period data target) i) as [x|] eqn:Xi; [|discriminate].
    destruct (nth_error (define_time_model_for_period data target) j) as [y|] eqn:Xj; [|discriminate].
    injection Hi' as Hi'. injection Hj' as Hj'. rewrite <- Hi' in Di. rewrite <- Hj' in Dj.
    assert (D : disjoint_entries (define_time_model_for_period data target)).
    { apply pdisj_disjoint. rewrite (define_restrict _ data target N Ne P). now apply restrict_pdisj. }
    eapply D; eauto.
  - intros e I. apply (contiguous_nonempty _ (fst e) Ca). rewrite <- Ep. now apply in_map.
  - intros q m I. destruct (Hq q m I) as (n & In'). destruct (F q n In') as (_ & _ & _ & D1 & D2).
    split; [destruct D1 as [->|D1]; [exact U1|now apply Ud]|destruct D2 as [->|D2]; [exact U2|now apply Ud]].
  - intros q g I. apply mapM_Ok in Em'. clear - Em' I. induction Em' as [|e e' a b He E IH]; [destruct I|]. destruct I as [->|I]; [|auto].
    unfold f in He. destruct (of_option _ _) as [t|]; [|discriminate]. cbn [bind] in He. destruct (make_generator_set t) as [g'|] eqn:Eg; [|discriminate].
    cbn [bind] in He. injection He as _ <-. exists t. exact Eg.
  - intros t gs. rewrite (mapped_in_force _ _ f _ _ t gs Em'). split.
    + intros (n & Hn & Hf). apply (define_time_model_proof _ data target W N) in Hn as [H1 H2]. split; [exact H1|]. unfold f in Hf.
      destruct (dict_get String.eqb n tables) as [tb|] eqn:Et; cbn in Hf; [|discriminate]. exists n, tb. auto.
    + intros (H1 & n & tb & H2 & Ht & Hm). exists n. split; [apply (define_time_model_proof _ data target W N); auto|]. unfold f. rewrite Ht. exact Hm.
Qed.

(** the powers *)
Definition adds (powers : list (option (list num))) (total : list num) : Prop :=
  forall k xs, Forall2 (fun o x => match o with Some v => nth_error v k = Some (Some x) | None => x = 0%Qc end) powers xs ->
    nth_error total k = Some (Some (qsum_of xs)).

Lemma present_sum : forall k powers xs, Forall2 (fun o x => match o with Some v => nth_error v k = Some (Some x) | None => x = 0%Qc end) powers xs ->
  exists ys, Forall2 (fun v x => nth_error v k = Some (Some x)) (present powers) ys /\ qsum_of ys = qsum_of xs.
Proof.
  intros k powers xs F. induction F as [|o x powers xs H F (ys & Fy & E)].
  - exists []. split; [constructor|reflexivity].
  - destruct o as [v|]; cbn.
    + exists (x :: ys). split; [now constructor|]. cbn. now rewrite E.
    + exists ys. split; [exact Fy|]. rewrite E, H. ring.
Qed.

Lemma power_requirement_general : forall n powers, (forall v, In (Some v) powers -> length v = n) ->
  (power_requirement powers = Ok None /\ forall o, In o powers -> o = None) \/
  exists total, power_requirement powers = Ok (Some total) /\ length total = n /\ adds powers total.
Proof.
  intros n powers Hn. unfold power_requirement. fold (present powers).
  assert (Hp : forall v, In v (present powers) -> length v = n).
  { intros v Hv. apply Hn. unfold present in Hv. apply in_flat_map in Hv as ([c|] & Hc & Hv); [|destruct Hv]. destruct Hv as [<-|[]]. exact Hc. }
  destruct (present powers) as [|v [|w l]] eqn:Epr.
  - left. split; [reflexivity|]. intros [v|] I; [|reflexivity]. exfalso.
    assert (In v (present powers)) as X by (unfold present; apply in_flat_map; exists (Some v); split; [exact I|now left]). rewrite Epr in X. destruct X.
  - right. exists v. split; [reflexivity|]. split; [apply Hp; now left|]. intros k xs F. destruct (present_sum k powers xs F) as (ys & Fy & <-).
    rewrite Epr in Fy. inversion Fy as [|a x b ys' Hx Fr]; subst. inversion Fr; subst. rewrite Hx. cbn. do 2 f_equal. ring.
  - right. destruct (add_all_spec (w :: l) v n) as (s & E & L & _ & H); [apply Hp; now left|intros u Hu; apply Hp; now right|].
    rewrite E. cbn [bind]. exists s. split; [reflexivity|]. split; [exact L|]. intros k xs F. destruct (present_sum k powers xs F) as (ys & Fy & <-).
    rewrite Epr in Fy. inversion Fy as [|a x b ys' Hx Fr]; subst. clear F Epr Fy.
    assert (Hk : k < length v) by (apply nth_error_Some; congruence).
    rewrite (H ltac:(discriminate) k) by (rewrite <- (Hp v (or_introl eq_refl)); exact Hk). do 2 f_equal.
    rewrite (nth_error_nth v k None Hx). cbn [nan_zero qsum_of]. clear - Fr. revert x. induction Fr as [|u y us ys Hu Fr IH]; intros x; cbn; [ring|].
    rewrite (nth_error_nth u k None Hu). cbn. rewrite IH. ring.
Qed.

Lemma generator_set_evaluated : forall M first rest vars vm target tables data models (c : generator_set_component M) powers,
  let ps := first :: rest in
  make_variables_map ps vars = Ok vm -> run_setting ps target -> well_written data -> (forall t, In t (data_dates data) -> uncut ps t) ->
  generator_set_models target tables data = Ok models -> ge_models c = models ->
  (forall v, In (Some v) powers -> length v = length ps) ->
  (power_requirement powers = Ok None /\ evaluate_generator_set vm c None = Err OtherError /\ forall o, In o powers -> o = None) \/
  exists total r, powers <> [] /\ power_requirement powers = Ok (Some total) /\ evaluate_generator_set vm c (Some total) = Ok r /\ length total = length ps /\
    adds powers total /\ supplies vm target tables data total r.
Proof.
  intros M first rest vars vm target tables data models c powers ps Evm (Hc & N & Mx & U1 & U2) W Ud Em Ec Hl.
  destruct (power_requirement_general (length ps) powers Hl) as [[E H]|(total & E & L & H)]; [left; auto|]. right.
  assert (Eps : vm_periods vm = ps).
  { unfold make_variables_map in Evm. destruct (all_dates ps); cbn in Evm; [|discriminate]. now injection Evm as <-. }
  destruct (generator_models_facts target tables data models ps W N Mx U1 U2 Ud Em) as (F1 & F2 & F3 & F4 & F5).
  destruct (genset_result_proof first rest vars vm models total Evm Hc F1 F2 F3 F4 L) as (r & Er & Ep & L1 & L2 & L3 & Hr).
  fold ps in L1, L2, L3, Hr.
  exists total. unfold evaluate_generator_set. rewrite Ec, Er. cbn [bind]. unfold make_series. rewrite Eps, L1, L2, L3, Ep, L, Nat.eqb_refl. cbn [bind].
  eexists. split; [intros X; rewrite X in E; discriminate E|]. split; [exact E|]. split; [reflexivity|]. split; [reflexivity|]. split; [exact H|].
  unfold supplies. cbn [re_power re_energy re_valid re_margin s_periods s_values s_unit]. rewrite Eps. split; [eexists; repeat split|].
  split; [reflexivity|]. split; [exact L3|]. split; [reflexivity|]. split; [reflexivity|]. split; [exact L1|]. intros k p t name table gs x Hk Ht Htt Hd Hn Hg Hx.
  assert (Hf : in_force models t gs) by (apply F5; split; [exact Htt|]; exists name, table; auto).
  destruct (Hr k p t gs x Hk Ht Hf Hx) as (R1 & q & R2 & R3 & R4 & _). split; [exact R1|]. eexists. exists q. split; [reflexivity|]. cbn [s_periods s_values]. auto.
Qed.

(** the results of a consumer are over all the periods *)
Lemma fill_length : forall V (s : series V) new x f, fill_values_for_new_periods s new x = Ok f -> length (s_values f) = length new.
Proof.
  intros V s new x f E. unfold fill_values_for_new_periods in E. destruct (existsb _ _); [discriminate|]. cbv zeta in E. unfold make_series in E.
  destruct (Nat.eqb _ _) eqn:El; [|discriminate]. injection E as <-. apply Nat.eqb_eq in El. cbn. congruence.
Qed.
Lemma concatenated_length : forall R V per (att : R -> option (list V)) u b x l all s,
  concatenated per att u b x l all = Ok (Some s) -> length (s_values s) = length all.
Proof.
  intros R V per att u b x l all s E. unfold concatenated in E. destruct (attribute_series _ _ _ _ _ _ _) as [[o|]|]; cbn [bind] in E; try discriminate.
  destruct (negb _); [discriminate|]. destruct (reduce_extend o) as [r|]; [|discriminate]. cbn [bind] in E.
  destruct (fill_values_for_new_periods r all x) as [f|] eqn:Ef; [|discriminate]. cbn [bind] in E. injection E as <-. eapply fill_length; eauto.
Qed.
Lemma consumer_power_length : forall M np_pow ev input vm (data : temporal_data M) target s p,
  evaluate_consumer np_pow ev input vm data target = Ok (Some s) -> cs_power s = Some p -> length (s_values p) = length (vm_periods vm).
Proof.
  intros M np_pow ev input vm data target s p E Ep. unfold evaluate_consumer in E. destruct (model_results _ _ _ _ _ _) as [[l|]|]; cbn [bind] in E; try discriminate.
  destruct (consumer_series_of l (vm_periods vm)) as [c|] eqn:Es; [|discriminate]. cbn [bind] in E. injection E as <-.
  unfold consumer_series_of in Es. destruct (result_energy l (vm_periods vm)) as [oe|]; [|discriminate]. cbn [bind] in Es.
  destruct (result_power l (vm_periods vm)) as [op|] eqn:Eo; [|discriminate]. cbn [bind] in Es.
  destruct (result_valid l (vm_periods vm)) as [ov|]; [|discriminate]. cbn [bind] in Es. destruct oe, ov; try discriminate. injection Es as <-. cbn in Ep. subst op.
  unfold result_power in Eo. eapply concatenated_length; eauto.
Qed.
Lemma consumer_none : forall M np_pow ev input vm (data : temporal_data M) target,
  evaluate_consumer np_pow ev input vm data target = Ok None -> define_time_model_for_period data target = [].
Proof.
  intros M np_pow ev input vm data target E. unfold evaluate_consumer, model_results in E. cbv zeta in E.
  destruct (define_time_model_for_period data target) as [|e l]; [reflexivity|]. exfalso.
  destruct (mapM _ (e :: l)); [|discriminate]. cbn [bind] in E. destruct (temporal_model_of_periods _); [|discriminate]. cbn [bind] in E.
  destruct (mapM _ _); [|discriminate]. cbn [bind] in E. destruct (consumer_series_of _ _); discriminate.
Qed.

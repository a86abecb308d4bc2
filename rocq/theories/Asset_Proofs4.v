(** The evaluated model: every part of the text is seen with its own result. *)
From Coq Require Import PeanoNat String Lia.
From Verif Require Import QcTac Base BaseLemmas Time_Model Time_Spec Num Expr_Model Vars_Model Units_Model Rates_Model
  Input_Model Interp_Model Energy_Model Emitters_Model Consumer_Model Graph_Model Graph_Spec Totals_Model
  Asset_Model Asset_Spec Asset_Proofs Asset_Proofs2 Asset_Proofs3.
Local Open Scope list_scope.
Local Open Scope nat_scope.

Lemma kept_all : forall A (l m : list A), kept (fun _ => True) l m -> m = l.
Proof. intros A l m H. induction H as [|a l m _ H IH|a l m Hn]; [reflexivity|now rewrite IH|]. exfalso. now apply Hn. Qed.
Lemma split_unique : forall M (W a b a' b' : list (entry M)) e, NoDup (map entry_id W) -> W = a ++ e :: b -> W = a' ++ e :: b' -> a = a'.
Proof.
  intros M W a b a' b' e Hnd E E'. subst W. revert a' E' Hnd. induction a as [|x a IH]; intros a' E' Hnd; destruct a' as [|y a'].
  - reflexivity.
  - cbn in E'. injection E' as <- E'. exfalso. cbn in Hnd. apply NoDup_cons_iff in Hnd as [Hn _]. apply Hn. rewrite E', map_app. apply in_or_app. right. now left.
  - cbn in E'. injection E' as -> E'. exfalso. cbn in Hnd. apply NoDup_cons_iff in Hnd as [Hn _]. apply Hn. rewrite map_app. apply in_or_app. right. now left.
  - cbn in E'. injection E' as -> E'. f_equal. cbn in Hnd. apply NoDup_cons_iff in Hnd as [_ Hn]. now apply IH.
Qed.

Section Within.
  Context {M : Type}.
  Variable W : list (entry M).
  (** an entry of a block is an entry of one of its parts *)
  Lemma many_in : forall A B (P : A -> option B -> nat -> nat -> list (entry M) -> Prop) k,
    (forall a b n n' blk, k < n -> P a b n n' blk -> block_ok k n n' blk) ->
    forall l os n n' blk, k < n -> many P l os n n' blk -> placed W n n' blk -> forall e, In e blk ->
    exists a b m m' sub, In a l /\ P a b m m' sub /\ In e sub /\ placed W m m' sub /\ k < m.
  Proof.
    intros A B P k HP l os n n' blk Hk H. induction H as [n|a l b bs n n1 n2 blk blks H H' IH]; intros Hpl e He; [destruct He|].
    pose proof (HP _ _ _ _ _ Hk H) as X. assert (Hk1 : k < n1) by (destruct X; lia).
    pose proof (many_block P k HP _ _ _ _ _ Hk1 H') as Y. destruct (placed_first _ W k n n1 n2 blk blks Hk X Y Hpl) as [P1 P2].
    apply in_app_or in He as [He|He].
    - exists a, b, n, n1, blk. split; [now left|]. auto.
    - destruct (IH Hk1 P2 e He) as (a' & b' & m & m' & sub & H1 & H2). exists a', b', m, m', sub. split; [now right|exact H2].
  Qed.
  (** what is seen of a block, from what is seen of its parts *)
  Lemma many_shown : forall A B (P : A -> option B -> nat -> nat -> list (entry M) -> Prop) k (tid : B -> node_id) (Q : A -> Prop)
      (S : A -> shown -> Prop) (sees : node_id -> shown -> Prop),
    (forall a b n n' blk, k < n -> P a b n n' blk -> block_ok k n n' blk) ->
    forall l os n n' blk, k < n -> many P l os n n' blk -> placed W n n' blk ->
    (forall a b n n' blk, In a l -> k < n -> P a b n n' blk -> placed W n n' blk ->
       match b with None => ~ Q a | Some c => Q a /\ exists s, sees (tid c) s /\ S a s end) ->
    exists running below, kept Q l running /\ Forall2 S running below /\ Forall2 sees (map tid (somes os)) below.
  Proof.
    intros A B P k tid Q S sees HP l os n n' blk Hk H. induction H as [n|a l b bs n n1 n2 blk blks H H' IH]; intros Hpl Hs.
    - exists [], []. repeat constructor.
    - pose proof (HP _ _ _ _ _ Hk H) as X. assert (Hk1 : k < n1) by (destruct X; lia).
      pose proof (many_block P k HP _ _ _ _ _ Hk1 H') as Y. destruct (placed_first _ W k n n1 n2 blk blks Hk X Y Hpl) as [P1 P2].
      destruct IH as (running & below & I1 & I2 & I3); auto. { intros. eapply Hs; eauto. now right. }
      specialize (Hs a b n n1 blk (or_introl eq_refl) Hk H P1). destruct b as [c|].
      + destruct Hs as (Hq & s & Hse & HS). exists (a :: running), (s :: below). split; [now constructor|]. split; [now constructor|]. cbn. now constructor.
      + exists running, below. split; [now constructor|]. auto.
  Qed.
End Within.

Section Assembly.
  Context {M : Type}.
  Variable np_pow : Qc -> Qc -> Qc.
  Variable usage : energy_usage_type -> M -> list Qc -> variables_map -> result function_result.
  Variables (first : period) (rest : list period) (vars : variables_dict) (vm : variables_map) (target : period).
  Variable fuels : list (string * fuel_type).
  Variable tables : list (string * tabular_data).
  Let ps := first :: rest.
  Hypothesis Evm : make_variables_map ps vars = Ok vm.
  Hypothesis RS : run_setting ps target.
  Variable W : list (entry M).
  Variable g : graph.
  Hypothesis Hnd : NoDup (map entry_id W).
  Hypothesis Hch : forall v, In v (map entry_id W) -> get_children g v = Ok (kids v W).

  Lemma asset_periods : vm_periods vm = ps.
  Proof. unfold make_variables_map in Evm. destruct (all_dates ps); cbn in Evm; [|discriminate]. now injection Evm as <-. Qed.
  Lemma runs : forall A (data : temporal_data A), well_written data -> in_run target data <-> define_time_model_for_period data target <> [].
  Proof. intros A data H. destruct RS as (_ & N & Mx & _). now apply in_run_iff. Qed.

  (** a consumer *)
  Lemma usage_alone : forall consumes (i : yaml_installation M) rg data, rg_input rg = yi_regularity i ->
    define_time_model_for_period data target <> [] ->
    match evaluate_usage np_pow usage vm target consumes rg data with
    | Ok r => alone np_pow usage vm target consumes i data r
    | Err e => evaluate_consumer np_pow (usage consumes) (yi_regularity i) vm data target = Err e
    end.
  Proof.
    intros consumes i rg data Hr Hd. unfold evaluate_usage. rewrite Hr.
    destruct (evaluate_consumer np_pow (usage consumes) (yi_regularity i) vm data target) as [[s|]|e] eqn:E; cbn [bind].
    - exists s. auto.
    - apply consumer_none in E. contradiction.
    - reflexivity.
  Qed.
  Lemma alone_power_length : forall i data r v, alone np_pow usage vm target POWER i data r -> option_map s_values (re_power r) = Some v -> length v = length ps.
  Proof.
    intros i data r v (s & E & ->) Ev. cbn in Ev. destruct (cs_power s) as [p|] eqn:Ep; [|discriminate]. cbn in Ev. injection Ev as <-.
    rewrite <- asset_periods. eapply consumer_power_length; eauto.
  Qed.

  (** the consumers of a generator set that have been evaluated *)
  Definition evaluated (D : list (node_id * component_result)) (e : entry M) : Prop :=
    exists before, evaluate_component np_pow usage vm target g before (snd e) = Ok (dict_get node_eqb (entry_id e) D).
  Lemma consumers_evaluated : forall (i : yaml_installation M) r k D l os n n' blk, rg_input r = yi_regularity i ->
    (forall c, In c l -> well_written (ye_model c)) -> many (electricity_block target r k) l os n n' blk -> (forall e, In e blk -> evaluated D e) ->
    exists running rs, kept (fun c => in_run target (ye_model c)) l running /\
      Forall2 (fun id r => dict_get node_eqb id D = Some r) (map ec_id (somes os)) rs /\
      Forall2 (fun c r => alone np_pow usage vm target POWER i (ye_model c) r) running rs.
  Proof.
    intros i r k D l os n n' blk Hr Hw H. induction H as [n|a l b bs n n1 n2 blk blks H H' IH]; intros Hev.
    - exists [], []. repeat constructor.
    - destruct IH as (running & rs & I1 & I2 & I3). { intros c Hc. apply Hw. now right. } { intros e He. apply Hev, in_or_app. now right. }
      destruct H as [-> H]. specialize (Hw a (or_introl eq_refl)). destruct b as [c|].
      + destruct H as (Hd & -> & ->). destruct (Hev (NUuid n, Some (NUuid k), CElectricity (mkEC (NUuid n) (ye_name a) r (ye_model a)))) as (before & E). { now left. }
        cbn [snd entry_id fst evaluate_component ec_regularity ec_model] in E. pose proof (usage_alone POWER i r (ye_model a) Hr Hd) as X.
        destruct (evaluate_usage _ _ _ _ _ _ _) as [rr|]; [|discriminate]. cbn [bind] in E. injection E as E.
        exists (a :: running), (rr :: rs). split; [constructor; [now apply runs|exact I1]|]. split; [cbn; constructor; auto|now constructor].
      + destruct H as (Hd & ->). exists running, rs. split; [|auto]. constructor; [|exact I1]. rewrite runs by assumption. tauto.
  Qed.

  Lemma requirement_of : forall D id rs ids, get_children g id = Ok ids -> Forall2 (fun id r => dict_get node_eqb id D = Some r) ids rs ->
    context_power_requirement g D id = power_requirement (map (fun r => option_map s_values (re_power r)) rs).
  Proof.
    intros D id rs ids E F. unfold context_power_requirement. rewrite E. cbn [bind].
    assert (mapM (fun c => of_option KeyError (dict_get node_eqb c D)) ids = Ok rs) as ->; [|reflexivity].
    apply mapM_Ok. clear E. induction F as [|a b l m H F IH]; constructor; auto. now rewrite H.
  Qed.

  (** a generator set *)
  Lemma generator_set_of : forall (i : yaml_installation M) (y : yaml_generator_set M) (c : generator_set_component M) D running rs,
    generator_set_written ps y -> generator_set_models target tables (yg_electricity2fuel y) = Ok (ge_models c) ->
    get_children g (ge_id c) = Ok (map ec_id (ge_consumers c)) ->
    Forall2 (fun id r => dict_get node_eqb id D = Some r) (map ec_id (ge_consumers c)) rs ->
    Forall2 (fun c r => alone np_pow usage vm target POWER i (ye_model c) r) running rs ->
    (evaluate_component np_pow usage vm target g D (CGenset c) = Err OtherError /\
     Forall2 (fun c r => alone np_pow usage vm target POWER i (ye_model c) r /\ re_power r = None) running rs) \/
    exists total r, rs <> [] /\ evaluate_component np_pow usage vm target g D (CGenset c) = Ok (Some r) /\ length total = length ps /\
      adds (map (fun r => option_map s_values (re_power r)) rs) total /\ supplies vm target tables (yg_electricity2fuel y) total r.
  Proof.
    intros i y c D running rs (W1 & W2 & _) Em Ec F1 F2. cbn [evaluate_component]. rewrite (requirement_of D (ge_id c) rs _ Ec F1).
    assert (Hl : forall v, In (Some v) (map (fun r => option_map s_values (re_power r)) rs) -> length v = length ps).
    { intros v I. apply in_map_iff in I as (r & E & I). clear F1. induction F2 as [|a b l m H F IH]; [destruct I|]. destruct I as [->|I]; [|auto].
      eapply alone_power_length; eauto. }
    destruct (generator_set_evaluated M first rest vars vm target tables (yg_electricity2fuel y) (ge_models c) c _ Evm RS W1 W2 Em eq_refl Hl)
      as [(E & Ee & Hn)|(total & r & Nn & E & Er & L & Ha & Hs)].
    - left. rewrite E. cbn [bind]. rewrite Ee. cbn [bind]. split; [reflexivity|]. clear F1 E Hl Ec. induction F2 as [|a b l m H F IH]; [constructor|].
      constructor.
      + split; [exact H|]. specialize (Hn _ (or_introl eq_refl)). cbn in Hn. now destruct (re_power b).
      + apply IH. intros o I. apply Hn. now right.
    - right. exists total, r. split; [intros ->; now apply Nn|]. rewrite E. cbn [bind]. rewrite Er. cbn [bind]. auto.
  Qed.

  (** ** After a complete evaluation *)
  Section Done.
    Variable final : list (node_id * component_result).
    Hypothesis Hev : forall x id p c y, W = x ++ (id, p, c) :: y ->
      exists before, evaluate_component np_pow usage vm target g before c = Ok (dict_get node_eqb id final) /\ covers_results x before final.
    Notation sees := (shows W g final).

    Lemma sees_entry : forall x id p c y below, W = x ++ (id, p, c) :: y -> Forall2 sees (kids id W) below ->
      sees id (Shown (get_name c) (get_fuel c) (dict_get node_eqb id final) below).
    Proof.
      intros x id p c y below E F. assert (Hin : In (id, p, c) W) by (rewrite E; apply in_elt).
      pose proof (container_of _ _ _ _ _ Hnd Hin) as H1. assert (H2 : get_children g id = Ok (kids id W)).
      { apply Hch. apply in_map_iff. exists (id, p, c). auto. }
      destruct (dict_get node_eqb id final) as [r|] eqn:Ed.
      - eapply shows_result; eauto. unfold get_container_result. now rewrite Ed.
      - eapply shows_nothing; eauto. unfold get_container_result. now rewrite Ed.
    Qed.

    Lemma consumer_seen : forall (i : yaml_installation M) r k y b n n' blk, rg_input r = yi_regularity i -> well_written (ye_model y) -> k < n ->
      electricity_block target r k y b n n' blk -> placed W n n' blk ->
      match b with None => ~ in_run target (ye_model y)
                 | Some c => in_run target (ye_model y) /\ exists s, sees (ec_id c) s /\ consumer_shown np_pow usage vm target i y s end.
    Proof.
      intros i r k y b n n' blk Hr Hw Hk (-> & H) Hpl. destruct b as [c|]; [|rewrite runs by assumption; tauto].
      destruct H as (Hd & -> & ->). split; [now apply runs|].
      destruct (placed_head M W k n (S n) [] _ Hk (block_nil _ _ _ _ (le_n _)) Hpl) as (_ & Hkids & _). destruct Hpl as [(pre & post & EW) _].
      cbn [app] in EW. destruct (Hev _ _ _ _ _ EW) as (before & E & _). cbn [evaluate_component ec_regularity ec_model] in E.
      pose proof (usage_alone POWER i r (ye_model y) Hr Hd) as X. destruct (evaluate_usage _ _ _ _ _ _ _) as [rr|]; [|discriminate].
      cbn [bind] in E. injection E as E.
      eexists. split; [eapply (sees_entry _ _ _ _ _ [] EW); rewrite Hkids; constructor|]. rewrite <- E. exists rr. split; [exact X|reflexivity].
    Qed.
    Lemma fuel_consumer_seen : forall (i : yaml_installation M) r k y b n n' blk, rg_input r = yi_regularity i -> well_written (yf_model y) ->
      (forall f, yf_fuel y = Some f -> well_written f) -> (forall f, yi_fuel i = Some f -> well_written f) -> k < n ->
      fuel_block target fuels r (yi_fuel i) k y b n n' blk -> placed W n n' blk ->
      match b with None => ~ in_run target (yf_model y)
                 | Some c => in_run target (yf_model y) /\ exists s, sees (fu_id c) s /\ fuel_consumer_shown np_pow usage vm target fuels i y s end.
    Proof.
      intros i r k y b n n' blk Hr Hw Ho Hdf Hk (-> & H) Hpl. destruct b as [c|]; [|rewrite runs by assumption; tauto].
      destruct H as (Hd & (fuel & Ef & ->) & ->). split; [now apply runs|].
      destruct (placed_head M W k n (S n) [] _ Hk (block_nil _ _ _ _ (le_n _)) Hpl) as (_ & Hkids & _). destruct Hpl as [(pre & post & EW) _].
      cbn [app] in EW. destruct (Hev _ _ _ _ _ EW) as (before & E & _). cbn [evaluate_component fu_regularity fu_model] in E.
      pose proof (usage_alone FUEL i r (yf_model y) Hr Hd) as X. destruct (evaluate_usage _ _ _ _ _ _ _) as [rr|]; [|discriminate].
      cbn [bind] in E. injection E as E.
      eexists. split; [eapply (sees_entry _ _ _ _ _ [] EW); rewrite Hkids; constructor|]. rewrite <- E. exists rr, fuel. split; [exact X|].
      split; [|reflexivity]. eapply resolve_fuel_uses; eauto. apply RS.
    Qed.
    Lemma emitter_seen : forall r k y b n n' blk, k < n -> venting_block (M := M) r k y b n n' blk -> placed W n n' blk ->
      match b with None => ~ True | Some c => True /\ exists s, sees (ve_id c) s /\ emitter_shown y s end.
    Proof.
      intros r k y b n n' blk Hk (-> & c & -> & -> & ->) Hpl. split; [exact I|].
      destruct (placed_head M W k n (S n) [] _ Hk (block_nil _ _ _ _ (le_n _)) Hpl) as (_ & Hkids & _). destruct Hpl as [(pre & post & EW) _].
      cbn [app] in EW. destruct (Hev _ _ _ _ _ EW) as (before & E & _). cbn [evaluate_component] in E. injection E as E.
      eexists. split; [eapply (sees_entry _ _ _ _ _ [] EW); rewrite Hkids; constructor|]. rewrite <- E. reflexivity.
    Qed.

    Lemma shown_results : forall (i : yaml_installation M) ids running below, Forall2 sees ids below -> Forall2 (consumer_shown np_pow usage vm target i) running below ->
      exists rs, Forall2 (fun id r => dict_get node_eqb id final = Some r) ids rs /\
        Forall2 (fun c r => alone np_pow usage vm target POWER i (ye_model c) r) running rs /\
        map power_shown below = map (fun r => option_map s_values (re_power r)) rs.
    Proof.
      intros i ids running below F. revert running. induction F as [|id s ids below H F IH]; intros running F2; inversion F2 as [|y s' running' below' Hy F2']; subst.
      - exists []. repeat constructor.
      - destruct (IH _ F2') as (rs & I1 & I2 & I3). destruct Hy as (r & Ha & ->). exists (r :: rs).
        split; [constructor; [|exact I1]|]. { inversion H as [? ? ? ? ? ? ? Hr|]; subst. unfold get_container_result in Hr. now destruct (dict_get node_eqb id final); [injection Hr as ->|]. }
        split; [now constructor|]. cbn. now rewrite I3.
    Qed.
    Lemma adds_shown : forall below total, adds (map power_shown below) total -> powers_add below total.
    Proof.
      intros below total H k xs F. apply H. clear H. induction F; constructor; auto.
    Qed.

    Lemma generator_set_seen : forall (i : yaml_installation M) r k y b n n' blk, rg_input r = yi_regularity i -> generator_set_written ps y ->
      (forall f, yi_fuel i = Some f -> well_written f) -> k < n ->
      genset_block target fuels tables r (yi_fuel i) k y b n n' blk -> placed W n n' blk ->
      match b with None => ~ True | Some c => True /\ exists s, sees (ge_id c) s /\ generator_set_shown np_pow usage vm target fuels tables i y s end.
    Proof.
      intros i r k y b n n' blk Hr Hw Hdf Hk (fuel & models & os & cblk & c & Ef & Em & Hm & -> & -> & ->) Hpl. split; [exact I|].
      pose proof Hw as (Hw1 & Hw2 & Hw3 & Hw4).
      pose proof (consumers_ok target r n _ _ _ _ _ (Nat.lt_succ_diag_r n) Hm) as Hbk.
      destruct (placed_head M W k n n' cblk _ Hk Hbk Hpl) as (Hpc & Hkids & Hin).
      destruct Hpl as [(pre & post & EW) _].
      assert (EW' : W = (pre ++ cblk) ++ (NUuid n, Some (NUuid k), CGenset (mkGC (NUuid n) (yg_name y) r fuel models (somes os))) :: post)
        by (rewrite EW, <- !app_assoc; reflexivity).
      assert (Hkc : kids (NUuid n) cblk = map ec_id (somes os)).
      { eapply (many_kids (electricity_block target r n) n ec_id); [|apply Nat.lt_succ_diag_r|exact Hm]. intros. eapply electricity_kids; eauto. }
      destruct (many_shown W _ _ (electricity_block target r n) n ec_id (fun c => in_run target (ye_model c)) (consumer_shown np_pow usage vm target i) sees) with
        (l := yg_consumers y) (os := os) (n := S n) (n' := n') (blk := cblk) as (running & below & K1 & K2 & K3).
      { intros. eapply electricity_ok; eauto. }
      { lia. } { exact Hm. } { exact Hpc. }
      { intros a b m m' sub Ha Hkm Hb Hp. eapply consumer_seen; eauto. }
      destruct (shown_results i _ _ _ K3 K2) as (rs & R1 & R2 & R3).
      destruct (Hev _ _ _ _ _ EW') as (before & Ev & Hcov).
      assert (R1' : Forall2 (fun id r => dict_get node_eqb id before = Some r) (map ec_id (somes os)) rs).
      { assert (Hsub : forall id, In id (map ec_id (somes os)) -> In id (map entry_id (pre ++ cblk))).
        { intros id Hid. rewrite <- Hkc in Hid. apply kids_in in Hid as (e & He & <- & _). rewrite map_app. apply in_or_app. right. now apply in_map. }
        clear - R1 Hsub Hcov. induction R1 as [|id rr ids rs H R IH]; constructor.
        - rewrite Hcov; [exact H|]. apply Hsub. now left.
        - apply IH. intros id' H'. apply Hsub. now right. }
      destruct (generator_set_of i y (mkGC (NUuid n) (yg_name y) r fuel models (somes os)) before running rs Hw Em) as [[E _]|(total & res & Nn & E & L & Ha & Hs)].
      { cbn [ge_id ge_consumers]. rewrite Hch; [now rewrite Hkids, Hkc|]. apply in_map_iff. eexists. split; [|exact Hin]. reflexivity. }
      { exact R1'. } { exact R2. }
      { rewrite E in Ev. discriminate. }
      rewrite E in Ev. injection Ev as Ev.
      eexists. split; [eapply (sees_entry _ _ _ _ _ below EW'); rewrite Hkids, Hkc; exact K3|]. rewrite <- Ev.
      exists running, below, total, res, fuel. split; [exact K1|]. split; [exact K2|].
      split; [intros ->; destruct rs; [now apply Nn|discriminate R3]|]. split; [apply adds_shown; rewrite R3; exact Ha|].
      split; [rewrite asset_periods; exact L|]. split; [exact Hs|]. split; [|reflexivity]. eapply resolve_fuel_uses; eauto. apply RS.
    Qed.

    Lemma installation_seen : forall k i b n n' blk, installation_written ps i -> k < n ->
      installation_block np_pow vm target fuels tables k i b n n' blk -> placed W n n' blk ->
      match b with None => ~ True | Some c => True /\ exists s, sees (ic_id c) s /\ installation_shown np_pow usage vm target fuels tables i s end.
    Proof.
      intros k i b n n' blk (Hw1 & Hw2 & Hw3) Hk H Hpl.
      destruct H as (values & export & og & of & ov & n1 & n2 & bg & bf & bv & c & _ & _ & Hg & Hf & Hv & -> & -> & ->). split; [exact I|].
      set (r := mkRegularity (yi_regularity i) values) in *. assert (Hr : rg_input r = yi_regularity i) by reflexivity.
      destruct (inner_ok target fuels tables r (yi_fuel i) n _ _ _ _ _ _ _ _ _ _ _ _ Hg Hf Hv) as (Bg & Bf & Bv).
      assert (L1 : S n <= n1) by exact (proj1 Bg). assert (L2 : n1 <= n2) by exact (proj1 Bf).
      assert (Bfv : block_ok n n1 n' (bf ++ bv)) by (apply block_app with n2; auto).
      destruct (placed_head M W k n n' (bg ++ bf ++ bv) _ Hk (block_app _ _ _ _ _ _ _ Bg Bfv) Hpl) as (Hpi & Hkids & Hin).
      destruct (placed_first _ W n (S n) n1 n' _ _ (Nat.lt_succ_diag_r n) Bg Bfv Hpi) as [Pg Pfv].
      destruct (placed_first _ W n n1 n2 n' _ _ ltac:(lia) Bf Bv Pfv) as [Pf Pv].
      destruct Hpl as [(pre & post & EW) _]. rewrite <- app_assoc in EW. cbn [app] in EW. rewrite app_assoc in EW.
      destruct (Hev _ _ _ _ _ EW) as (before & E & _). cbn [evaluate_component] in E. injection E as E.
      destruct (many_shown W _ _ (genset_block target fuels tables r (yi_fuel i) n) n ge_id (fun _ => True) (generator_set_shown np_pow usage vm target fuels tables i) sees) with
        (l := yi_generator_sets i) (os := og) (n := S n) (n' := n1) (blk := bg) as (rg & sg & G1 & G2 & G3); auto.
      { intros. eapply genset_ok; eauto. }
      { intros a b m m' sub Ha Hkm Hb Hp. eapply generator_set_seen; eauto. }
      apply kept_all in G1 as ->.
      destruct (many_shown W _ _ (fuel_block target fuels r (yi_fuel i) n) n fu_id (fun c => in_run target (yf_model c)) (fuel_consumer_shown np_pow usage vm target fuels i) sees) with
        (l := yi_fuel_consumers i) (os := of) (n := n1) (n' := n2) (blk := bf) as (rf & sf & F1 & F2 & F3); auto.
      { intros. eapply fuel_ok; eauto. }
      { intros a b m m' sub Ha Hkm Hb Hp. destruct (Hw3 a Ha). eapply fuel_consumer_seen; eauto. }
      destruct (many_shown W _ _ (venting_block r n) n ve_id (fun _ => True) emitter_shown sees) with
        (l := yi_venting_emitters i) (os := ov) (n := n2) (n' := n') (blk := bv) as (rv & sv & V1 & V2 & V3); auto.
      { intros. eapply venting_ok; eauto. } { lia. }
      { intros a b m m' sub Ha Hkm Hb Hp. eapply emitter_seen; eauto. }
      apply kept_all in V1 as ->.
      assert (Hk3 : kids (NUuid n) (bg ++ bf ++ bv) = map ge_id (somes og) ++ map fu_id (somes of) ++ map ve_id (somes ov)).
      { rewrite !kids_app. f_equal; [|f_equal].
        - eapply (many_kids (genset_block target fuels tables r (yi_fuel i) n) n ge_id); [|apply Nat.lt_succ_diag_r|exact Hg]. intros. eapply genset_kids; eauto.
        - eapply (many_kids (fuel_block target fuels r (yi_fuel i) n) n fu_id); [|idtac|exact Hf]; [intros; eapply fuel_kids; eauto|lia].
        - eapply (many_kids (venting_block r n) n ve_id); [|idtac|exact Hv]; [intros; eapply venting_kids; eauto|lia]. }
      eexists. split.
      { eapply (sees_entry _ _ _ _ _ (sg ++ sf ++ sv) EW). rewrite Hkids, Hk3. apply Forall2_app; [exact G3|]. apply Forall2_app; [exact F3|exact V3]. }
      rewrite <- E. exists rf, sg, sf, sv. auto.
    Qed.
  End Done.

  (** ** When the evaluation stops *)
  Section Stopped.
    Variables (x : list (entry M)) (e0 : entry M) (y0 : list (entry M)) (before : list (node_id * component_result)) (er : error).
    Hypothesis EW0 : W = x ++ e0 :: y0.
    Hypothesis Hst : evaluate_component np_pow usage vm target g before (snd e0) = Err er.
    Hypothesis Hdone : forall e, In e x -> evaluated before e.

    Lemma consumer_fails : forall (i : yaml_installation M) r k y b n n' blk, rg_input r = yi_regularity i -> well_written (ye_model y) ->
      electricity_block target r k y b n n' blk -> In e0 blk -> fails_alone np_pow usage vm target POWER i (ye_model y) er.
    Proof.
      intros i r k y b n n' blk Hr Hw (-> & H) Hin. destruct b as [c|]; [|destruct H as [_ ->]; destruct Hin].
      destruct H as (Hd & -> & ->). destruct Hin as [E0|[]]. rewrite <- E0 in Hst. cbn [snd evaluate_component ec_regularity ec_model] in Hst.
      pose proof (usage_alone POWER i r (ye_model y) Hr Hd) as X. destruct (evaluate_usage _ _ _ _ _ _ _) as [rr|e']; [discriminate|].
      cbn [bind] in Hst. injection Hst as <-. split; [now apply runs|exact X].
    Qed.
    Lemma fuel_consumer_fails : forall (i : yaml_installation M) r default k y b n n' blk, rg_input r = yi_regularity i -> well_written (yf_model y) ->
      fuel_block target fuels r default k y b n n' blk -> In e0 blk -> fails_alone np_pow usage vm target FUEL i (yf_model y) er.
    Proof.
      intros i r default k y b n n' blk Hr Hw (-> & H) Hin. destruct b as [c|]; [|destruct H as [_ ->]; destruct Hin].
      destruct H as (Hd & (fuel & _ & ->) & ->). destruct Hin as [E0|[]]. rewrite <- E0 in Hst. cbn [snd evaluate_component fu_regularity fu_model] in Hst.
      pose proof (usage_alone FUEL i r (yf_model y) Hr Hd) as X. destruct (evaluate_usage _ _ _ _ _ _ _) as [rr|e']; [discriminate|].
      cbn [bind] in Hst. injection Hst as <-. split; [now apply runs|exact X].
    Qed.
    Lemma generator_set_fails : forall (i : yaml_installation M) r k y b n n' blk, rg_input r = yi_regularity i -> generator_set_written ps y -> In y (yi_generator_sets i) -> k < n ->
      genset_block target fuels tables r (yi_fuel i) k y b n n' blk -> placed W n n' blk -> In e0 blk -> fails np_pow usage vm target i er.
    Proof.
      intros i r k y b n n' blk Hr Hw Hy Hk (fuel & models & os & cblk & c & Ef & Em & Hm & -> & -> & ->) Hpl Hin.
      pose proof Hw as (Hw1 & Hw2 & Hw3 & Hw4).
      pose proof (consumers_ok target r n _ _ _ _ _ (Nat.lt_succ_diag_r n) Hm) as Hbk.
      destruct (placed_head M W k n n' cblk _ Hk Hbk Hpl) as (Hpc & Hkids & Hinw).
      apply in_app_or in Hin as [Hin|[E0|[]]].
      - left. destruct (many_in W _ _ (electricity_block target r n) n) with (l := yg_consumers y) (os := os) (n := S n) (n' := n') (blk := cblk) (e := e0)
          as (a & b & m & m' & sub & A1 & A2 & A3 & A4 & A5); auto. { intros. eapply electricity_ok; eauto. }
        exists y, a. split; [exact Hy|]. split; [exact A1|]. eapply consumer_fails; eauto.
      - right. right. destruct Hpl as [(pre & post & EW) _]. rewrite <- app_assoc in EW. cbn [app] in EW. rewrite app_assoc in EW. rewrite E0 in EW.
        pose proof (split_unique _ W _ _ _ _ _ Hnd EW0 EW) as Ex.
        assert (Hkc : kids (NUuid n) cblk = map ec_id (somes os)).
        { eapply (many_kids (electricity_block target r n) n ec_id); [|apply Nat.lt_succ_diag_r|exact Hm]. intros. eapply electricity_kids; eauto. }
        destruct (consumers_evaluated i r n before _ _ _ _ _ Hr Hw4 Hm) as (running & rs & R0 & R1 & R2).
        { intros e He. apply Hdone. rewrite Ex. apply in_or_app. now right. }
        destruct (generator_set_of i y (mkGC (NUuid n) (yg_name y) r fuel models (somes os)) before running rs Hw Em) as [[E Hn]|(total & res & _ & E & _)]; auto.
        { cbn [ge_id ge_consumers]. rewrite Hch; [now rewrite Hkids, Hkc|]. apply in_map_iff. eexists. split; [|exact Hinw]. reflexivity. }
        + rewrite <- E0 in Hst. cbn [snd] in Hst. rewrite E in Hst. injection Hst as <-. split; [reflexivity|]. exists y, running, rs. auto.
        + rewrite <- E0 in Hst. cbn [snd] in Hst. rewrite E in Hst. discriminate.
    Qed.
    Lemma installation_fails : forall k i b n n' blk, installation_written ps i -> k < n ->
      installation_block np_pow vm target fuels tables k i b n n' blk -> placed W n n' blk -> In e0 blk -> fails np_pow usage vm target i er.
    Proof.
      intros k i b n n' blk (Hw1 & Hw2 & Hw3) Hk H Hpl Hin.
      destruct H as (values & export & og & of & ov & n1 & n2 & bg & bf & bv & c & _ & _ & Hg & Hf & Hv & -> & -> & ->).
      set (r := mkRegularity (yi_regularity i) values) in *. assert (Hr : rg_input r = yi_regularity i) by reflexivity.
      destruct (inner_ok target fuels tables r (yi_fuel i) n _ _ _ _ _ _ _ _ _ _ _ _ Hg Hf Hv) as (Bg & Bf & Bv).
      assert (L1 : S n <= n1) by exact (proj1 Bg). assert (L2 : n1 <= n2) by exact (proj1 Bf).
      assert (Bfv : block_ok n n1 n' (bf ++ bv)) by (apply block_app with n2; auto).
      destruct (placed_head M W k n n' (bg ++ bf ++ bv) _ Hk (block_app _ _ _ _ _ _ _ Bg Bfv) Hpl) as (Hpi & Hkids & _).
      destruct (placed_first _ W n (S n) n1 n' _ _ (Nat.lt_succ_diag_r n) Bg Bfv Hpi) as [Pg Pfv].
      destruct (placed_first _ W n n1 n2 n' _ _ ltac:(lia) Bf Bv Pfv) as [Pf Pv].
      apply in_app_or in Hin as [Hin|[E0|[]]]; [|rewrite <- E0 in Hst; discriminate Hst].
      apply in_app_or in Hin as [Hin|Hin]; [|apply in_app_or in Hin as [Hin|Hin]].
      - destruct (many_in W _ _ (genset_block target fuels tables r (yi_fuel i) n) n) with (l := yi_generator_sets i) (os := og) (n := S n) (n' := n1) (blk := bg) (e := e0)
          as (a & b & m & m' & sub & A1 & A2 & A3 & A4 & A5); auto. { intros. eapply genset_ok; eauto. }
        eapply generator_set_fails; eauto.
      - destruct (many_in W _ _ (fuel_block target fuels r (yi_fuel i) n) n) with (l := yi_fuel_consumers i) (os := of) (n := n1) (n' := n2) (blk := bf) (e := e0)
          as (a & b & m & m' & sub & A1 & A2 & A3 & A4 & A5); auto. { intros. eapply fuel_ok; eauto. }
        right. left. exists a. split; [exact A1|]. destruct (Hw3 a A1). eapply fuel_consumer_fails; eauto.
      - destruct (many_in W _ _ (venting_block r n) n) with (l := yi_venting_emitters i) (os := ov) (n := n2) (n' := n') (blk := bv) (e := e0)
          as (a & b & m & m' & sub & A1 & A2 & A3 & A4 & A5); auto. { intros. eapply venting_ok; eauto. } { lia. }
        destruct A2 as (_ & c' & _ & _ & ->). destruct A3 as [E0|[]]. rewrite <- E0 in Hst. discriminate Hst.
    Qed.
  End Stopped.
End Assembly.

(** The objects of an asset: what they hold of the text, and how they are found in the energy model. *)
From Coq Require Import PeanoNat String Lia.
From Verif Require Import QcTac Base BaseLemmas Time_Model Time_Spec Num Expr_Model Vars_Model Units_Model Rates_Model
  Input_Model Interp_Model Energy_Model Emitters_Model Consumer_Model Graph_Model Graph_Spec Graph_Proofs Graph_Proofs2 Graph_Proofs3 Totals_Model
  Asset_Model Asset_Spec Asset_Proofs Asset_Proofs2 Asset_Proofs3 Asset_Proofs4 Asset_Proofs5.
Local Open Scope list_scope.
Local Open Scope nat_scope.

Section Objects.
  Context {M : Type}.
  Variable np_pow : Qc -> Qc -> Qc.
  Variables (vm : variables_map) (target : period).
  Variable fuels : list (string * fuel_type).
  Variable tables : list (string * tabular_data).
  Variable W : list (entry M).
  Variable g : graph.

  Definition generator_set_object (i : yaml_installation M) (r : regularity) (y : yaml_generator_set M) (c : generator_set_component M) : Prop :=
    get_energy_container W (ge_id c) = Ok (CGenset c) /\ get_children g (ge_id c) = Ok (map ec_id (ge_consumers c)) /\
    ge_regularity c = r /\ (forall e, In e (ge_consumers c) -> ec_regularity e = r) /\
    resolve_fuel target fuels (yg_fuel y) (yi_fuel i) = Ok (ge_fuel c).
  Definition fuel_object (i : yaml_installation M) (r : regularity) (y : yaml_fuel_consumer M) (c : fuel_consumer M) : Prop :=
    get_energy_container W (fu_id c) = Ok (CFuel c) /\ fu_regularity c = r /\ resolve_fuel target fuels (yf_fuel y) (yi_fuel i) = Ok (fu_fuel c).
  Definition venting_object (r : regularity) (y : yaml_venting_emitter) (c : venting_emitter) : Prop :=
    ve_regularity c = r /\ ve_emitter c = yv_emitter y.
  Definition installation_object (i : yaml_installation M) (c : installation_component M) : Prop :=
    exists values gs running fs,
      let r := mkRegularity (yi_regularity i) values in
      regularity_values np_pow (yi_regularity i) target vm = Ok values /\
      hydrocarbon_export np_pow (yi_export i) values target vm = Ok (ic_export c) /\
      ic_fuel_consumers c = map inl gs ++ map inr fs /\
      get_children g (ic_id c) = Ok (map ge_id gs ++ map fu_id fs ++ map ve_id (ic_venting_emitters c)) /\
      Forall2 (generator_set_object i r) (yi_generator_sets i) gs /\
      kept (fun c => in_run target (yf_model c)) (yi_fuel_consumers i) running /\ Forall2 (fuel_object i r) running fs /\
      Forall2 (venting_object r) (yi_venting_emitters i) (ic_venting_emitters c).

  Lemma many_objects : forall A B (P : A -> option B -> nat -> nat -> list (entry M) -> Prop) k (Q : A -> Prop) (R : A -> B -> Prop),
    (forall a b n n' blk, k < n -> P a b n n' blk -> block_ok k n n' blk) ->
    forall l os n n' blk, k < n -> many P l os n n' blk -> placed W n n' blk ->
    (forall a b n n' blk, In a l -> k < n -> P a b n n' blk -> placed W n n' blk -> match b with None => ~ Q a | Some c => Q a /\ R a c end) ->
    exists running, kept Q l running /\ Forall2 R running (somes os).
  Proof.
    intros A B P k Q R HP l os n n' blk Hk H. induction H as [n|a l b bs n n1 n2 blk blks H H' IH]; intros Hpl Hs.
    - exists []. repeat constructor.
    - pose proof (HP _ _ _ _ _ Hk H) as X. assert (Hk1 : k < n1) by (destruct X; lia).
      pose proof (many_block P k HP _ _ _ _ _ Hk1 H') as Y. destruct (placed_first _ W k n n1 n2 blk blks Hk X Y Hpl) as [P1 P2].
      destruct IH as (running & I1 & I2); auto. { intros. eapply Hs; eauto. now right. }
      specialize (Hs a b n n1 blk (or_introl eq_refl) Hk H P1). destruct b as [c|].
      + destruct Hs as (Hq & HR). exists (a :: running). split; [now constructor|]. cbn. now constructor.
      + exists running. split; [now constructor|]. auto.
  Qed.

  Variable ps : list period.
  Hypothesis RS : run_setting ps target.
  Hypothesis Hnd : NoDup (map entry_id W).
  Hypothesis Hch : forall v, In v (map entry_id W) -> get_children g v = Ok (kids v W).

  Lemma object_runs : forall A (data : temporal_data A), well_written data -> in_run target data <-> define_time_model_for_period data target <> [].
  Proof. intros A data H. destruct RS as (_ & N & Mx & _). now apply in_run_iff. Qed.

  Lemma consumers_regularity : forall r k l os n n' blk, many (electricity_block target r k) l os n n' blk ->
    forall e : electricity_consumer M, In e (somes os) -> ec_regularity e = r.
  Proof.
    intros r k l os n n' blk H. induction H as [|a l b bs n n1 n2 blk blks H H' IH]; intros e He; [destruct He|].
    cbn in He. apply in_app_or in He as [He|He]; [|exact (IH e He)]. destruct b as [c|]; [|destruct He]. destruct He as [<-|[]].
    destruct H as (_ & _ & -> & _). reflexivity.
  Qed.

  Lemma generator_set_of_block : forall (i : yaml_installation M) r k y b n n' blk, k < n ->
    genset_block target fuels tables r (yi_fuel i) k y b n n' blk -> placed W n n' blk ->
    match b with None => ~ True | Some c => True /\ generator_set_object i r y c end.
  Proof.
    intros i r k y b n n' blk Hk (fuel & models & os & cblk & c & Ef & Em & Hm & -> & -> & ->) Hpl. split; [exact I|].
    pose proof (consumers_ok target r n _ _ _ _ _ (Nat.lt_succ_diag_r n) Hm) as Hbk.
    destruct (placed_head M W k n n' cblk _ Hk Hbk Hpl) as (Hpc & Hkids & Hin).
    assert (Hkc : kids (NUuid n) cblk = map ec_id (somes os)).
    { eapply (many_kids (electricity_block target r n) n ec_id); [|apply Nat.lt_succ_diag_r|exact Hm]. intros. eapply electricity_kids; eauto. }
    split; [exact (container_of _ _ _ _ _ Hnd Hin)|]. cbn [ge_id ge_consumers ge_regularity ge_fuel].
    split; [rewrite Hch; [now rewrite Hkids, Hkc|]; apply in_map_iff; eexists; split; [|exact Hin]; reflexivity|].
    split; [reflexivity|]. split; [eapply consumers_regularity; eauto|exact Ef].
  Qed.
  Lemma fuel_consumer_of_block : forall (i : yaml_installation M) r k y b n n' blk, well_written (yf_model y) -> k < n ->
    fuel_block target fuels r (yi_fuel i) k y b n n' blk -> placed W n n' blk ->
    match b with None => ~ in_run target (yf_model y) | Some c => in_run target (yf_model y) /\ fuel_object i r y c end.
  Proof.
    intros i r k y b n n' blk Hw Hk (-> & H) Hpl. destruct b as [c|]; [|rewrite object_runs by assumption; tauto].
    destruct H as (Hd & (fuel & Ef & ->) & ->). split; [now apply object_runs|].
    destruct (placed_head M W k n (S n) [] _ Hk (block_nil _ _ _ _ (le_n _)) Hpl) as (_ & Hkids & Hin).
    split; [exact (container_of _ _ _ _ _ Hnd Hin)|]. split; [reflexivity|exact Ef].
  Qed.
  Lemma emitter_of_block : forall r k y b n n' blk, venting_block (M := M) r k y b n n' blk ->
    match b with None => ~ True | Some c => True /\ venting_object r y c end.
  Proof. intros r k y b n n' blk (-> & c & -> & -> & ->). split; [exact I|]. split; reflexivity. Qed.

  Lemma installation_of_block : forall k i b n n' blk, (forall c, In c (yi_fuel_consumers i) -> well_written (yf_model c)) -> k < n ->
    installation_block np_pow vm target fuels tables k i b n n' blk -> placed W n n' blk ->
    match b with None => ~ True | Some c => True /\ installation_object i c end.
  Proof.
    intros k i b n n' blk Hw Hk H Hpl.
    destruct H as (values & export & og & of & ov & n1 & n2 & bg & bf & bv & c & Er & Ee & Hg & Hf & Hv & -> & -> & ->). split; [exact I|].
    set (r := mkRegularity (yi_regularity i) values) in *.
    destruct (inner_ok target fuels tables r (yi_fuel i) n _ _ _ _ _ _ _ _ _ _ _ _ Hg Hf Hv) as (Bg & Bf & Bv).
    assert (L1 : S n <= n1) by exact (proj1 Bg). assert (L2 : n1 <= n2) by exact (proj1 Bf).
    assert (Bfv : block_ok n n1 n' (bf ++ bv)) by (apply block_app with n2; auto).
    destruct (placed_head M W k n n' (bg ++ bf ++ bv) _ Hk (block_app _ _ _ _ _ _ _ Bg Bfv) Hpl) as (Hpi & Hkids & Hin).
    destruct (placed_first _ W n (S n) n1 n' _ _ (Nat.lt_succ_diag_r n) Bg Bfv Hpi) as [Pg Pfv].
    destruct (placed_first _ W n n1 n2 n' _ _ ltac:(lia) Bf Bv Pfv) as [Pf Pv].
    destruct (many_objects _ _ (genset_block target fuels tables r (yi_fuel i) n) n (fun _ => True) (generator_set_object i r)) with
      (l := yi_generator_sets i) (os := og) (n := S n) (n' := n1) (blk := bg) as (rg & G1 & G2); auto.
    { intros. eapply genset_ok; eauto. }
    { intros a b m m' sub Ha Hkm Hb Hp. eapply generator_set_of_block; eauto. }
    apply kept_all in G1 as ->.
    destruct (many_objects _ _ (fuel_block target fuels r (yi_fuel i) n) n (fun c => in_run target (yf_model c)) (fuel_object i r)) with
      (l := yi_fuel_consumers i) (os := of) (n := n1) (n' := n2) (blk := bf) as (rf & F1 & F2); auto.
    { intros. eapply fuel_ok; eauto. }
    { intros a b m m' sub Ha Hkm Hb Hp. eapply fuel_consumer_of_block; eauto. }
    destruct (many_objects _ _ (venting_block r n) n (fun _ => True) (venting_object r)) with
      (l := yi_venting_emitters i) (os := ov) (n := n2) (n' := n') (blk := bv) as (rv & V1 & V2); auto.
    { intros. eapply venting_ok; eauto. } { lia. }
    { intros a b m m' sub Ha Hkm Hb Hp. eapply emitter_of_block; eauto. }
    apply kept_all in V1 as ->.
    assert (Hk3 : kids (NUuid n) (bg ++ bf ++ bv) = map ge_id (somes og) ++ map fu_id (somes of) ++ map ve_id (somes ov)).
    { rewrite !kids_app. f_equal; [|f_equal].
      - eapply (many_kids (genset_block target fuels tables r (yi_fuel i) n) n ge_id); [|apply Nat.lt_succ_diag_r|exact Hg]. intros. eapply genset_kids; eauto.
      - eapply (many_kids (fuel_block target fuels r (yi_fuel i) n) n fu_id); [|idtac|exact Hf]; [intros; eapply fuel_kids; eauto|lia].
      - eapply (many_kids (venting_block r n) n ve_id); [|idtac|exact Hv]; [intros; eapply venting_kids; eauto|lia]. }
    exists values, (somes og), rf, (somes of). cbv zeta. cbn [ic_export ic_fuel_consumers ic_id ic_venting_emitters]. fold r.
    split; [exact Er|]. split; [exact Ee|]. split; [reflexivity|].
    split; [rewrite Hch; [now rewrite Hkids, Hk3|]; apply in_map_iff; eexists; split; [|exact Hin]; reflexivity|]. auto.
  Qed.
End Objects.

Theorem objects_of_asset : forall M np_pow ps vm target fuels tables name (installations : list (yaml_installation M)) a mp g root,
  run_setting ps target -> (forall i, In i installations -> installation_written ps i) ->
  map_model np_pow vm target fuels tables name installations = Ok (a, mp) ->
  build (map fst (mp_registered mp)) = Ok g -> get_root g = Ok root ->
  get_children g root = Ok (map ic_id (as_installations a)) /\
  Forall2 (installation_object np_pow vm target fuels (mp_registered mp) g) installations (as_installations a).
Proof.
  intros M np_pow ps vm target fuels tables name installations a mp g root RS Hw Em Eb Er0.
  destruct (map_model_ok np_pow vm target fuels tables name installations a mp Em) as (oi & n' & blk & Hm & Ea & Er). rewrite Er in Eb |- *.
  set (W := blk ++ [(NUuid 1, None, CAsset a)]) in *.
  pose proof (whole_nodup np_pow vm target fuels tables installations oi n' blk a Hm) as Hnd.
  pose proof (whole_hierarchy np_pow vm target fuels tables installations oi n' blk a Hm) as Hh.
  pose proof (whole_placed n' blk a) as Hpl.
  pose proof (whole_kids np_pow vm target fuels tables installations oi n' blk a Hm) as Hk.
  fold W in Hnd, Hh, Hpl, Hk.
  destruct (hierarchy_proof _ Hh) as (g' & Eb' & _ & _ & Hch & _). rewrite Eb in Eb'. injection Eb' as <-.
  pose proof (whole_root np_pow vm target fuels tables installations oi n' blk a Hm g Eb) as Hr. rewrite Hr in Er0. injection Er0 as <-.
  assert (Hch' : forall v, In v (map entry_id W) -> get_children g v = Ok (kids v W)).
  { intros v Hv. apply Hch. rewrite map_map. exact Hv. }
  assert (Ei : as_installations a = somes oi) by (rewrite Ea; reflexivity). rewrite Ei.
  split. { rewrite Hch'; [now rewrite Hk|]. unfold W. rewrite map_app. apply in_or_app. right. now left. }
  destruct (many_objects W _ _ (installation_block np_pow vm target fuels tables 1) 1 (fun _ => True) (installation_object np_pow vm target fuels W g)) with
    (l := installations) (os := oi) (n := 2) (n' := n') (blk := blk) as (ri & I1 & I2); auto.
  { intros. eapply installation_ok; eauto. }
  { intros i b m m' sub Hi Hkm Hb Hp. eapply (installation_of_block np_pow vm target fuels tables W g ps RS Hnd Hch'); eauto.
    intros c Hc. destruct (Hw i Hi) as (_ & _ & X). apply (X c Hc). }
  apply kept_all in I1 as ->. exact I2.
Qed.

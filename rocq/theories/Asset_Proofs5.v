(** The whole model, from its text to its results. *)
From Coq Require Import PeanoNat String Lia.
From Verif Require Import QcTac Base BaseLemmas Time_Model Time_Spec Num Expr_Model Vars_Model Units_Model Rates_Model
  Input_Model Interp_Model Energy_Model Emitters_Model Consumer_Model Graph_Model Graph_Spec Graph_Proofs Graph_Proofs2 Graph_Proofs3 Totals_Model
  Asset_Model Asset_Spec Asset_Proofs Asset_Proofs2 Asset_Proofs3 Asset_Proofs4.
Local Open Scope list_scope.
Local Open Scope nat_scope.

Lemma first_root : forall M (blk : list (entry M)) id (c : component M), (forall e, In e blk -> exists p, snd (fst e) = Some p) ->
  first_without_parent (map fst (blk ++ [(id, None, c)])) = Some id.
Proof.
  intros M blk id c H. unfold first_without_parent. induction blk as [|e b IH]; [reflexivity|].
  destruct (H e (or_introl eq_refl)) as (p & Ep). cbn. rewrite Ep. apply IH. intros e' He'. apply H. now right.
Qed.
(** a component is registered under its own id *)
Section Ids.
  Context {M : Type}.
  Variable np_pow : Qc -> Qc -> Qc.
  Variables (vm : variables_map) (target : period).
  Variable fuels : list (string * fuel_type).
  Variable tables : list (string * tabular_data).
  Lemma many_ids : forall A B (P : A -> option B -> nat -> nat -> list (entry M) -> Prop) (Q : entry M -> Prop),
    (forall a b n n' blk, P a b n n' blk -> forall e, In e blk -> Q e) ->
    forall l os n n' blk, many P l os n n' blk -> forall e, In e blk -> Q e.
  Proof.
    intros A B P Q HP l os n n' blk H. induction H as [|a l b bs n n1 n2 blk blks H H' IH]; intros e He; [destruct He|].
    apply in_app_or in He as [He|He]; [eapply HP; eauto|auto].
  Qed.
  Definition own_id (e : entry M) : Prop := get_id (snd e) = entry_id e.
  Lemma ids_of_consumer : forall r k y b n n' blk, electricity_block target r k y b n n' blk -> forall e, In e blk -> own_id e.
  Proof. intros r k y b n n' blk (-> & H) e He. destruct b; [|destruct H as [_ ->]; destruct He]. destruct H as (_ & -> & ->). destruct He as [<-|[]]. reflexivity. Qed.
  Lemma ids_of_fuel_consumer : forall r d k y b n n' blk, fuel_block target fuels r d k y b n n' blk -> forall e, In e blk -> own_id e.
  Proof. intros r d k y b n n' blk (-> & H) e He. destruct b; [|destruct H as [_ ->]; destruct He]. destruct H as (_ & (fuel & _ & ->) & ->). destruct He as [<-|[]]. reflexivity. Qed.
  Lemma ids_of_emitter : forall r k y b n n' blk, venting_block r k y b n n' blk -> forall e, In e blk -> own_id e.
  Proof. intros r k y b n n' blk (-> & c & _ & -> & ->) e [<-|[]]. reflexivity. Qed.
  Lemma ids_of_generator_set : forall r d k y b n n' blk, genset_block target fuels tables r d k y b n n' blk -> forall e, In e blk -> own_id e.
  Proof.
    intros r d k y b n n' blk (fuel & models & os & cblk & c & _ & _ & H & -> & _ & ->) e He. apply in_app_or in He as [He|[<-|[]]]; [|reflexivity].
    eapply many_ids; eauto. intros. eapply ids_of_consumer; eauto.
  Qed.
  Lemma ids_of_installation : forall k y b n n' blk, installation_block np_pow vm target fuels tables k y b n n' blk -> forall e, In e blk -> own_id e.
  Proof.
    intros k y b n n' blk (values & export & og & of & ov & n1 & n2 & bg & bf & bv & c & _ & _ & Hg & Hf & Hv & -> & _ & ->) e He.
    apply in_app_or in He as [He|[<-|[]]]; [|reflexivity]. apply in_app_or in He as [He|He]; [|apply in_app_or in He as [He|He]].
    - eapply many_ids; [|exact Hg|exact He]. intros. eapply ids_of_generator_set; eauto.
    - eapply many_ids; [|exact Hf|exact He]. intros. eapply ids_of_fuel_consumer; eauto.
    - eapply many_ids; [|exact Hv|exact He]. intros. eapply ids_of_emitter; eauto.
  Qed.
End Ids.

Section Whole.
  Context {M : Type}.
  Variable np_pow : Qc -> Qc -> Qc.
  Variables (vm : variables_map) (target : period).
  Variable fuels : list (string * fuel_type).
  Variable tables : list (string * tabular_data).
  Variables (l : list (yaml_installation M)) (oi : list (option (installation_component M))) (n' : nat) (blk : list (entry M)) (a : asset M).
  Hypothesis Hm : many (installation_block np_pow vm target fuels tables 1) l oi 2 n' blk.
  Let W := blk ++ [(NUuid 1, None, CAsset a)].

  Lemma whole_block : block_ok 1 2 n' blk.
  Proof. eapply many_block; [|apply Nat.lt_succ_diag_r|exact Hm]. intros. eapply installation_ok; eauto. Qed.
  Lemma whole_nodup : NoDup (map entry_id W).
  Proof.
    destruct whole_block as (A0 & A1 & A2 & A3 & A4). unfold W. rewrite map_app. apply nodup_app; auto; [repeat constructor; intros []|].
    intros x Hx [<-|[]]. apply in_map_iff in Hx as (e & E & He). destruct (A2 e He) as (j & Ej & Hj). rewrite Ej in E. injection E as E. lia.
  Qed.
  Lemma whole_ids : map fst (map fst W) = map entry_id W.
  Proof. now rewrite map_map. Qed.
  Lemma whole_hierarchy : hierarchy (map fst W).
  Proof.
    split; [rewrite whole_ids; exact whole_nodup|]. intros c p H. apply in_map_iff in H as (e & E & He). unfold W in He. apply in_app_or in He as [He|[<-|[]]].
    - destruct whole_block as (_ & _ & _ & A3 & _). destruct (A3 e He) as (j & Ej & Hj). rewrite E in Ej. cbn in Ej. injection Ej as ->.
      rewrite whole_ids. unfold W. rewrite map_app, in_app_iff. destruct Hj as [->|[_ Hj]]; [right; now left|now left].
    - discriminate E.
  Qed.
  Lemma whole_placed : placed W 2 n' blk.
  Proof.
    split; [exists [], [(NUuid 1, None, CAsset a)]; reflexivity|]. intros j Hj. unfold W. rewrite kids_app. apply app_nil_r.
  Qed.
  Lemma whole_kids : kids (NUuid 1) W = map ic_id (somes oi).
  Proof.
    unfold W. rewrite kids_app. rewrite app_nil_r. eapply (many_kids (installation_block np_pow vm target fuels tables 1) 1 ic_id); [|apply Nat.lt_succ_diag_r|exact Hm].
    intros. eapply installation_kids; eauto.
  Qed.
  Lemma edge_up : forall g u v, build (map fst W) = Ok g -> edge (gr_graph g) u v -> exists i j, u = NUuid i /\ v = NUuid j /\ i < j.
  Proof.
    intros g u v Eb H. pose proof (build_ok_proof (map fst W)) as X. rewrite Eb in X. destruct X as (_ & _ & _ & X). apply X in H.
    apply in_map_iff in H as (e & E & He). unfold W in He. apply in_app_or in He as [He|[<-|[]]]; [|discriminate E].
    destruct whole_block as (_ & _ & A2 & A3 & A4). destruct (A2 e He) as (j & Ej & _). destruct (A3 e He) as (i & Ei & _).
    exists i, j. split; [rewrite E in Ei; cbn in Ei; now injection Ei|]. split; [unfold entry_id in Ej; rewrite E in Ej; exact Ej|]. eapply A4; eauto.
  Qed.
  Lemma path_up : forall g, build (map fst W) = Ok g -> forall n u v, path (gr_graph g) n u v -> u = v \/ exists i j, u = NUuid i /\ v = NUuid j /\ i < j.
  Proof.
    intros g Eb n u v H. induction H as [|n u v w H IH E]; [now left|]. right. destruct (edge_up g v w Eb E) as (i & j & -> & -> & L).
    destruct IH as [->|(i' & j' & -> & Ej & L')]; [eauto|]. injection Ej as ->. exists i', j. repeat split. lia.
  Qed.
  Lemma whole_acyclic : forall g, build (map fst W) = Ok g -> ~ cyclic (gr_graph g).
  Proof.
    intros g Eb (v & n & H). inversion H as [|? ? w ? H1 H2]; subst. destruct (edge_up g _ _ Eb H2) as (i & j & -> & -> & L).
    destruct (path_up g Eb _ _ _ H1) as [X|(i' & j' & E1 & E2 & L')]; [injection X as ->; lia|]. injection E1 as ->. injection E2 as ->. lia.
  Qed.
  Lemma whole_root : forall g, build (map fst W) = Ok g -> get_root g = Ok (NUuid 1).
  Proof.
    intros g Eb. pose proof (root_proof _ g whole_hierarchy Eb) as X. destruct (get_root g) as [r|e].
    - destruct X as [X _]. assert (Hf : first_without_parent (map fst W) = Some (NUuid 1)); [|congruence].
      apply first_root. intros e He. destruct whole_block as (_ & _ & _ & A3 & _). destruct (A3 e He) as (j & Ej & _). eauto.
    - exfalso. destruct X as [[_ X]|[_ X]].
      + unfold W in X. destruct blk; discriminate.
      + exact (whole_acyclic g Eb X).
  Qed.
End Whole.

Theorem asset_proof : forall M np_pow (usage : energy_usage_type -> M -> list Qc -> variables_map -> result function_result)
    first rest vars vm target fuels tables name installations a mp,
  let ps := first :: rest in
  make_variables_map ps vars = Ok vm -> run_setting ps target -> (forall i, In i installations -> installation_written ps i) ->
  map_model np_pow vm target fuels tables name installations = Ok (a, mp) ->
  exists g root, build (map fst (mp_registered mp)) = Ok g /\ get_root g = Ok root /\
    match evaluate_energy_usage np_pow usage vm target (mp_registered mp) with
    | Ok results => exists below, shows (mp_registered mp) g results root (Shown name None None below) /\
        Forall2 (installation_shown np_pow usage vm target fuels tables) installations below
    | Err e => exists i, In i installations /\ fails np_pow usage vm target i e
    end.
Proof.
  intros M np_pow usage first rest vars vm target fuels tables name installations a mp ps Evm RS Hw Em.
  destruct (map_model_ok np_pow vm target fuels tables name installations a mp Em) as (oi & n' & blk & Hm & Ea & Er).
  set (W := blk ++ [(NUuid 1, None, CAsset a)]) in *.
  pose proof (whole_nodup np_pow vm target fuels tables installations oi n' blk a Hm) as Hnd.
  pose proof (whole_hierarchy np_pow vm target fuels tables installations oi n' blk a Hm) as Hh.
  pose proof (whole_placed n' blk a) as Hpl.
  pose proof (whole_kids np_pow vm target fuels tables installations oi n' blk a Hm) as Hk.
  fold W in Hnd, Hh, Hpl, Hk.
  destruct (hierarchy_proof _ Hh) as (g & Eb & Ec & _ & Hch & _).
  pose proof (whole_root np_pow vm target fuels tables installations oi n' blk a Hm g Eb) as Hr.
  exists g, (NUuid 1). rewrite Er. split; [exact Eb|]. split; [exact Hr|].
  rewrite map_map in Ec. change (map (fun x => fst (fst x)) W) with (map entry_id W) in Ec.
  assert (Hch' : forall v, In v (map entry_id W) -> get_children g v = Ok (kids v W)).
  { intros v Hv. apply Hch. rewrite map_map. exact Hv. }
  unfold evaluate_energy_usage. rewrite Eb. cbn [bind]. rewrite Ec.
  assert (Hids : forall id p c, In (id, p, c) W -> get_id c = id \/ forall results, evaluate_component np_pow usage vm target g results c = Ok None).
  { intros id p c Hin. unfold W in Hin. apply in_app_or in Hin as [Hin|[E|[]]]; [|right; injection E as <- <- <-; reflexivity]. left.
    destruct (many_in W _ _ (installation_block np_pow vm target fuels tables 1) 1) with (l := installations) (os := oi) (n := 2) (n' := n') (blk := blk) (e := (id, p, c))
      as (i & b & m & m' & sub & A1 & A2 & A3 & A4 & A5); auto. { intros. eapply installation_ok; eauto. }
    exact (ids_of_installation np_pow vm target fuels tables 1 i b m m' sub A2 (id, p, c) A3). }
  assert (Hno : forall id, In id (map entry_id W) -> dict_get node_eqb id (@nil (node_id * component_result)) = None) by reflexivity.
  assert (EW : W = [] ++ W) by reflexivity.
  destruct (evaluate_containers np_pow usage vm target W g (map entry_id W) []) as [final|er] eqn:Ev.
  - destruct (evaluate_ok np_pow usage vm target W g Hnd Hids W [] [] final EW Hno Ev) as [_ Hev].
    destruct (many_shown W _ _ (installation_block np_pow vm target fuels tables 1) 1 ic_id (fun _ => True) (installation_shown np_pow usage vm target fuels tables) (shows W g final)) with
      (l := installations) (os := oi) (n := 2) (n' := n') (blk := blk) as (ri & si & I1 & I2 & I3); auto.
    { intros. eapply installation_ok; eauto. }
    { intros i b m m' sub Hi Hkm Hb Hp. eapply installation_seen; eauto. }
    apply kept_all in I1 as ->. exists si. split; [|exact I2].
    destruct (Hev blk (NUuid 1) None (CAsset a) [] eq_refl) as (before & E & _). cbn [evaluate_component] in E. injection E as E.
    pose proof (sees_entry W g Hnd Hch' final blk (NUuid 1) None (CAsset a) [] si eq_refl) as X. rewrite Hk in X. specialize (X I3).
    rewrite <- E in X. cbn [get_name get_fuel] in X. rewrite Ea in X. cbn [as_name] in X. exact X.
  - destruct (evaluate_err np_pow usage vm target W g Hnd Hids W [] [] er EW Hno Ev) as (x & id & p & c & y & before & B1 & B2 & _ & B4).
    assert (Hin : In (id, p, c) W) by (rewrite B1; apply in_elt). unfold W in Hin. apply in_app_or in Hin as [Hin|[E|[]]]; [|injection E as <- <- <-; discriminate B2].
    destruct (many_in W _ _ (installation_block np_pow vm target fuels tables 1) 1) with (l := installations) (os := oi) (n := 2) (n' := n') (blk := blk) (e := (id, p, c))
      as (i & b & m & m' & sub & A1 & A2 & A3 & A4 & A5); auto. { intros. eapply installation_ok; eauto. }
    exists i. split; [exact A1|]. eapply (installation_fails np_pow usage first rest vars vm target fuels tables Evm RS W g Hnd Hch' x (id, p, c) y before er B1 B2); eauto.
    intros [[id1 p1] c1] He. apply in_split in He as (x1 & x2 & Ex). exact (B4 x1 id1 p1 c1 x2 Ex).
Qed.

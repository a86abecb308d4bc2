(** Calls on a model that is accepted. *)
From Coq Require Import PeanoNat String Lia.
From Verif Require Import QcTac Base BaseLemmas Time_Model Num Expr_Model Vars_Model Units_Model Rates_Model Input_Model Interp_Model
  Energy_Model Emitters_Model Consumer_Model Graph_Model Graph_Spec Graph_Proofs3 Totals_Model Asset_Model Asset_Spec Asset_Proofs Asset_Proofs2 Asset_Proofs3 Asset_Proofs4 Asset_Proofs5
  Lifecycle_Model Lifecycle_Spec Lifecycle_Proofs.
Local Open Scope list_scope.
Local Open Scope nat_scope.

Section Again.
  Context {M : Type}.
  Variable np_pow : Qc -> Qc -> Qc.
  Variable usage : energy_usage_type -> M -> list Qc -> variables_map -> result function_result.
  Variable vm : variables_map.
  Variable target : period.
  Variable W : list (entry M).
  Variable g : graph.
  Hypothesis Hnd : NoDup (map entry_id W).
  Hypothesis Hids : forall id p c, In (id, p, c) W -> get_id c = id \/ forall results, evaluate_component np_pow usage vm target g results c = Ok None.
  Hypothesis Hch : forall v, In v (map entry_id W) -> get_children g v = Ok (kids v W).
  Hypothesis Ht : tidy W.

  Definition evaluable (c : component M) : Prop := match c with CElectricity _ | CFuel _ | CGenset _ => True | _ => False end.
  (** results are those of components that are evaluated *)
  Definition of_components (R : list (node_id * component_result)) : Prop :=
    forall id r, dict_get node_eqb id R = Some r -> exists p c, In (id, p, c) W /\ evaluable c.
  Definition agree (a : list (entry M)) (R F : list (node_id * component_result)) : Prop :=
    forall id, In id (map entry_id a) -> dict_get node_eqb id R = dict_get node_eqb id F.

  Lemma component_same : forall a id p c b R F, W = a ++ (id, p, c) :: b -> agree a R F ->
    evaluate_component np_pow usage vm target g R c = evaluate_component np_pow usage vm target g F c.
  Proof.
    intros a id p c b R F HW Ha. destruct c as [c|c|c|c|c|c]; try reflexivity.
    assert (Hin : In (id, p, CGenset c) W) by (rewrite HW; apply in_elt).
    destruct (Hids _ _ _ Hin) as [E|E]; [|now rewrite !E]. cbn [get_id] in E. cbn [evaluate_component]. rewrite E. unfold context_power_requirement.
    rewrite (Hch id) by (apply in_map_iff; now exists (id, p, CGenset c)). cbn [bind].
    assert (X : mapM (fun c0 => of_option KeyError (dict_get node_eqb c0 R)) (kids id W) = mapM (fun c0 => of_option KeyError (dict_get node_eqb c0 F)) (kids id W)); [|now rewrite X].
    assert (Hk : forall k, In k (kids id W) -> In k (map entry_id a)).
    { intros k Hk. apply kids_in in Hk as (e & He & <- & Ep). rewrite HW in He. apply in_app_or in He as [He|He]; [apply in_map; exact He|]. exfalso.
      apply (tidy_split _ W a (id, p, CGenset c) b Ht HW e He (id, p, CGenset c)); [apply in_or_app; right; now left|]. exact Ep. }
    induction (kids id W) as [|k l IH]; [reflexivity|]. cbn [mapM]. rewrite (Ha k) by (apply Hk; now left). rewrite IH by (intros; apply Hk; now right). reflexivity.
  Qed.
  Lemma component_none : forall R c, evaluate_component np_pow usage vm target g R c = Ok None -> ~ evaluable c.
  Proof.
    intros R c E H. destruct c as [c|c|c|c|c|c]; cbn [evaluable] in H; try contradiction; cbn [evaluate_component] in E.
    - destruct (evaluate_usage np_pow usage vm target POWER (ec_regularity c) (ec_model c)); discriminate.
    - destruct (evaluate_usage np_pow usage vm target FUEL (fu_regularity c) (fu_model c)); discriminate.
    - destruct (context_power_requirement g R (ge_id c)) as [q|]; [|discriminate]. cbn [bind] in E. destruct (evaluate_generator_set vm c q); discriminate.
  Qed.
  Lemma component_some : forall R c r, evaluate_component np_pow usage vm target g R c = Ok (Some r) -> evaluable c.
  Proof. intros R c r E. destruct c as [c|c|c|c|c|c]; cbn [evaluate_component evaluable] in *; try exact I; discriminate. Qed.

  Lemma kept_step : forall a id p c b R, W = a ++ (id, p, c) :: b ->
    evaluate_kept np_pow usage target vm W g (map entry_id ((id, p, c) :: b)) R =
    match evaluate_component np_pow usage vm target g R c with
    | Err e => (Err e, R)
    | Ok r => evaluate_kept np_pow usage target vm W g (map entry_id b) (match r with Some r => dict_set node_eqb id r R | None => R end)
    end.
  Proof.
    intros a id p c b R HW. cbn [map evaluate_kept entry_id fst].
    assert (Hin : In (id, p, c) W) by (rewrite HW; apply in_elt).
    change (entry_id (id, p, c)) with id. rewrite (container_of _ _ _ _ _ Hnd Hin). cbn [bind].
    destruct (Hids _ _ _ Hin) as [E|E].
    - destruct (evaluate_component np_pow usage vm target g R c) as [r|e]; cbn [bind]; [|reflexivity]. now rewrite E.
    - rewrite E. cbn [bind]. reflexivity.
  Qed.
  Lemma kept_again : forall b a R F, W = a ++ b -> agree a R F -> of_components R -> of_components F ->
    of_components (snd (evaluate_kept np_pow usage target vm W g (map entry_id b) R)) /\
    match evaluate_containers np_pow usage vm target W g (map entry_id b) F with
    | Ok final => fst (evaluate_kept np_pow usage target vm W g (map entry_id b) R) = Ok tt /\
        agree W (snd (evaluate_kept np_pow usage target vm W g (map entry_id b) R)) final /\ of_components final
    | Err e => fst (evaluate_kept np_pow usage target vm W g (map entry_id b) R) = Err e
    end.
  Proof.
    induction b as [|[[id p] c] b IH]; intros a R F HW Ha HR HF.
    - cbn. rewrite app_nil_r in HW. subst a. auto.
    - rewrite (kept_step a id p c b R HW), (evaluate_step np_pow usage vm target W g Hnd Hids a id p c b F HW).
      rewrite (component_same a id p c b R F HW Ha). destruct (evaluate_component np_pow usage vm target g F c) as [r|e] eqn:Ec; cbn [bind fst snd]; [|auto].
      assert (Hin : In (id, p, c) W) by (rewrite HW; apply in_elt).
      apply (IH (a ++ [(id, p, c)])).
      + rewrite <- app_assoc. exact HW.
      + intros k Hk. rewrite map_app in Hk. destruct r as [r|].
        * destruct (node_eqb k id) eqn:E; [apply node_eqb_eq in E as ->; now rewrite !dict_get_set_same|].
          assert (k <> id) by (intros ->; rewrite node_eqb_refl in E; discriminate). rewrite !dict_get_set_other by assumption. apply Ha.
          apply in_app_or in Hk as [Hk|[Hk|[]]]; [exact Hk|]. exfalso. apply H. now rewrite <- Hk.
        * apply in_app_or in Hk as [Hk|[Hk|[]]]; [now apply Ha|]. change (id = k) in Hk. subst k. pose proof (component_none _ _ Ec) as Hn.
          assert (X : forall D, of_components D -> dict_get node_eqb id D = None).
          { intros D HD. destruct (dict_get node_eqb id D) as [x|] eqn:Ed; [|reflexivity]. exfalso. destruct (HD _ _ Ed) as (p' & c' & H1 & H2).
            pose proof (container_of _ _ _ _ _ Hnd H1) as X1. rewrite (container_of _ _ _ _ _ Hnd Hin) in X1. injection X1 as <-. contradiction. }
          now rewrite (X R HR), (X F HF).
      + destruct r as [r|]; [|exact HR]. intros k x E. destruct (node_eqb k id) eqn:Ek; [apply node_eqb_eq in Ek as ->; exists p, c; split; [exact Hin|]; eapply component_some; eauto|].
        rewrite dict_get_set_other in E by (intros ->; rewrite node_eqb_refl in Ek; discriminate). eauto.
      + destruct r as [r|]; [|exact HF]. intros k x E. destruct (node_eqb k id) eqn:Ek; [apply node_eqb_eq in Ek as ->; exists p, c; split; [exact Hin|]; eapply component_some; eauto|].
        rewrite dict_get_set_other in E by (intros ->; rewrite node_eqb_refl in Ek; discriminate). eauto.
  Qed.
End Again.

(** what is known of the energy model of an accepted text *)
Lemma accepted_facts : forall M np_pow (usage : energy_usage_type -> M -> list Qc -> variables_map -> result function_result) vm target fuels tables name installations a mp,
  map_model np_pow vm target fuels tables name installations = Ok (a, mp) ->
  let W := mp_registered mp in
  exists g, build (map fst W) = Ok g /\ get_energy_containers g = map entry_id W /\ NoDup (map entry_id W) /\ tidy W /\
    (forall v, In v (map entry_id W) -> get_children g v = Ok (kids v W)) /\
    (forall id p c, In (id, p, c) W -> get_id c = id \/ forall results, evaluate_component np_pow usage vm target g results c = Ok None) /\
    map_asset np_pow vm target fuels tables (NUuid 0) name installations (mkMapping 1 []) = inl (a, mp).
Proof.
  intros M np_pow usage vm target fuels tables name installations a mp Em W0.
  destruct (map_model_ok np_pow vm target fuels tables name installations a mp Em) as (oi & n' & blk & Hm & Ea & Er).
  set (W := blk ++ [(NUuid 1, None, CAsset a)]) in *. unfold W0. clear W0. rewrite Er.
  pose proof (whole_nodup np_pow vm target fuels tables installations oi n' blk a Hm) as Hnd.
  pose proof (whole_hierarchy np_pow vm target fuels tables installations oi n' blk a Hm) as Hh.
  pose proof (whole_placed n' blk a) as Hpl. fold W in Hnd, Hh, Hpl.
  destruct (hierarchy_proof _ Hh) as (g & Eb & Ec & _ & Hch & _).
  exists g. split; [exact Eb|]. rewrite map_map in Ec. split; [exact Ec|]. split; [exact Hnd|].
  destruct (asset_maps np_pow vm target fuels tables name installations) as (n2 & blk2 & O & X).
  destruct (map_asset np_pow vm target fuels tables (NUuid 0) name installations (mkMapping 1 [])) as [[a2 mp2]|[e mp2]]; [|destruct X as [_ X]; rewrite Em in X; discriminate].
  destruct X as [X1 X2]. rewrite Em in X2. injection X2 as <- <-. split.
  { rewrite <- Er, X1. apply tidy_app; [apply O|split; [|exact I]; intros e2 [<-|[]]; discriminate|]. intros e1 e2 _ [<-|[]]. discriminate. }
  split; [intros v Hv; apply Hch; rewrite map_map; exact Hv|]. split; [|reflexivity].
  intros id p c Hin. unfold W in Hin. apply in_app_or in Hin as [Hin|[E|[]]]; [|right; injection E as <- <- <-; reflexivity]. left.
  destruct (many_in W _ _ (installation_block np_pow vm target fuels tables 1) 1) with (l := installations) (os := oi) (n := 2) (n' := n') (blk := blk) (e := (id, p, c))
    as (i & b & m & m' & sub & A1 & A2 & A3 & A4 & A5); auto. { intros. eapply installation_ok; eauto. }
  exact (ids_of_installation np_pow vm target fuels tables 1 i b m m' sub A2 (id, p, c) A3).
Qed.

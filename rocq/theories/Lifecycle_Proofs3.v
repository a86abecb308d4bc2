(** C115: the answers of a model after any calls. *)
From Coq Require Import PeanoNat String Lia.
From Verif Require Import QcTac Base BaseLemmas Time_Model Num Expr_Model Vars_Model Units_Model Rates_Model Input_Model Interp_Model
  Energy_Model Emitters_Model Consumer_Model Graph_Model Graph_Spec Graph_Proofs3 Totals_Model Asset_Model Asset_Spec Asset_Proofs Asset_Proofs2
  Lifecycle_Model Lifecycle_Spec Lifecycle_Proofs Lifecycle_Proofs2.
Local Open Scope list_scope.
Local Open Scope nat_scope.

(** ** Accepted *)
Section Accepted.
  Context {M : Type}.
  Variable np_pow : Qc -> Qc -> Qc.
  Variable usage : energy_usage_type -> M -> list Qc -> variables_map -> result function_result.
  Variable vm : variables_map.
  Variable target : period.
  Variable fuels : list (string * fuel_type).
  Variable tables : list (string * tabular_data).
  Variable name : string.
  Variable installations : list (yaml_installation M).
  Variable a : asset M.
  Variable mp : mapping M.
  Variable g : graph.
  Let W := mp_registered mp.
  Hypothesis Eb : build (map fst W) = Ok g.
  Hypothesis Ec : get_energy_containers g = map entry_id W.
  Hypothesis Hnd : NoDup (map entry_id W).
  Hypothesis Ht : tidy W.
  Hypothesis Hch : forall v, In v (map entry_id W) -> get_children g v = Ok (kids v W).
  Hypothesis Hids : forall id p c, In (id, p, c) W -> get_id c = id \/ forall results, evaluate_component np_pow usage vm target g results c = Ok None.
  Hypothesis Em : map_asset np_pow vm target fuels tables (NUuid 0) name installations (mkMapping 1 []) = inl (a, mp).
  Notation validate := (validate_for_run np_pow target fuels tables name installations (Ok tt) (Ok vm)).
  Notation model := (get_energy_model np_pow target fuels tables name installations (Ok tt) (Ok vm)).
  Notation evaluate := (evaluate_model np_pow usage target fuels tables name installations (Ok tt) (Ok vm)).
  Notation step := (do_call np_pow usage target fuels tables name installations (Ok tt) (Ok vm)).
  Let fresh := evaluate_energy_usage np_pow usage vm target W.

  (** the state after calls among which is [EvaluateEnergyUsage] or not *)
  Definition good (evaluated : bool) (st : yaml_model M) : Prop :=
    (st = new_model /\ evaluated = false) \/
    (ym_validated st = true /\ ym_variables st = Some vm /\ ym_mapping st = mp /\ (ym_energy_model st = None \/ ym_energy_model st = Some g) /\
     of_components W (ym_results st) /\ (evaluated = false -> ym_results st = []) /\
     (evaluated = true -> forall final, fresh = Ok final -> forall id, dict_get node_eqb id (ym_results st) = dict_get node_eqb id final)).
  Definition validated_state : yaml_model M := mkYM true (Some vm) mp (Some a) None [].
  Lemma nothing_good : of_components W [].
  Proof. intros id r E. discriminate. Qed.
  Lemma validate_good : forall e st, good e st -> fst (validate st) = Ok tt /\ good e (snd (validate st)) /\ ym_validated (snd (validate st)) = true.
  Proof.
    intros e st [[-> ->]|H].
    - unfold validate_for_run. cbn [new_model ym_validated ym_mapping]. rewrite Em. cbn [fst snd]. split; [reflexivity|]. split; [|reflexivity]. right. cbn.
      split; [reflexivity|]. split; [reflexivity|]. split; [reflexivity|]. split; [now left|]. split; [exact nothing_good|]. split; [auto|discriminate].
    - destruct H as (V & H). unfold validate_for_run. rewrite V. cbn [fst snd]. split; [reflexivity|]. split; [|exact V]. right. now split.
  Qed.
  Lemma model_good : forall e st, good e st -> fst (model st) = Ok g /\ good e (snd (model st)) /\ ym_mapping (snd (model st)) = mp /\ ym_variables (snd (model st)) = Some vm /\
    (of_components W (ym_results (snd (model st)))).
  Proof.
    intros e st H. unfold get_energy_model. destruct (ym_energy_model st) as [g'|] eqn:Eg.
    - destruct H as [[-> _]|H]; [discriminate|]. pose proof H as (_ & H2 & H3 & H4 & H5 & _). cbn [fst snd]. rewrite Eg in H4. destruct H4 as [H4|H4]; [discriminate|injection H4 as ->].
      split; [reflexivity|]. split; [right; exact H|]. auto.
    - destruct (validate_good e st H) as (E & G & V). destruct (validate st) as [r st1]. cbn [fst snd] in *. subst r.
      destruct G as [[-> _]|(G1 & G2 & G3 & G4 & G5 & G6)]; [discriminate V|]. rewrite G3. fold W. rewrite Eb. cbn [fst snd ym_mapping ym_variables ym_results]. split; [reflexivity|]. split; [|auto].
      right. cbn. split; [exact G1|]. split; [exact G2|]. split; [reflexivity|]. split; [now right|]. split; [exact G5|exact G6].
  Qed.
  Lemma evaluate_good : forall e st, good e st -> fst (evaluate st) = (do _ <- fresh; Ok tt) /\ good true (snd (evaluate st)).
  Proof.
    intros e st H. unfold evaluate_model. destruct (model_good e st H) as (E & G & E1 & E2 & E3). destruct (model st) as [r st1]. cbn [fst snd] in *. subst r. rewrite E2, E1. fold W. rewrite Ec.
    assert (X : agree (M := M) [] (ym_results st1) []) by (intros id []).
    destruct (kept_again np_pow usage vm target W g Hnd Hids Hch Ht W [] (ym_results st1) [] eq_refl X E3 nothing_good) as [K1 K2].
    unfold fresh, evaluate_energy_usage. rewrite Eb. cbn [bind]. rewrite Ec.
    destruct (evaluate_kept np_pow usage target vm W g (map entry_id W) (ym_results st1)) as [r results]. cbn [fst snd] in *.
    destruct G as [[-> _]|(G1 & G2 & G3 & G4 & G5 & G6)]; [discriminate E2|].
    destruct (evaluate_containers np_pow usage vm target W g (map entry_id W) []) as [final|er] eqn:Ev.
    - destruct K2 as (-> & K3 & K4). split; [reflexivity|]. right. cbn. split; [exact G1|]. split; [reflexivity|]. split; [reflexivity|]. split; [exact G4|]. split; [exact K1|]. split; [discriminate|].
      intros _ f Ef id. unfold fresh, evaluate_energy_usage in Ef. rewrite Eb in Ef. cbn [bind] in Ef. rewrite Ec, Ev in Ef. injection Ef as <-.
      assert (D : In id (map entry_id W) \/ ~ In id (map entry_id W)).
      { destruct (existsb (node_eqb id) (map entry_id W)) eqn:Ex; [left|right].
        - apply existsb_exists in Ex as (k & Hk & E). apply node_eqb_eq in E as <-. exact Hk.
        - intros Hk. assert (existsb (node_eqb id) (map entry_id W) = true) as Ex' by (apply existsb_exists; exists id; split; [exact Hk|apply node_eqb_refl]). congruence. }
      destruct D as [D|D]; [now apply K3|]. assert (Y : forall R, of_components W R -> dict_get node_eqb id R = None).
      { intros R HR. destruct (dict_get node_eqb id R) as [x|] eqn:Ed; [|reflexivity]. exfalso. destruct (HR _ _ Ed) as (p & c & H1 & _). apply D. apply in_map_iff. now exists (id, p, c). }
      now rewrite (Y _ K1), (Y _ K4).
    - rewrite K2. split; [reflexivity|]. right. cbn. split; [exact G1|]. split; [reflexivity|]. split; [reflexivity|]. split; [exact G4|]. split; [exact K1|]. split; [discriminate|].
      intros _ f Ef. unfold fresh, evaluate_energy_usage in Ef. rewrite Eb in Ef. cbn [bind] in Ef. rewrite Ec, Ev in Ef. discriminate.
  Qed.

  Definition is_evaluate (c : call) : bool := match c with EvaluateEnergyUsage => true | _ => false end.
  Lemma step_good : forall c e st, good e st -> good (e || is_evaluate c) (snd (step c st)).
  Proof.
    intros c e st H. destruct c; cbn [do_call is_evaluate]; rewrite ?Bool.orb_false_r, ?Bool.orb_true_r.
    - destruct (validate_good e st H) as (_ & G & _). destruct (validate st). exact G.
    - destruct (validate_good e st H) as (_ & G & _). unfold get_periods. destruct (validate st) as [[]]; exact G.
    - destruct (model_good e st H) as (_ & G & _). destruct (model st). exact G.
    - destruct (evaluate_good e st H) as (_ & G). destruct (evaluate st). exact G.
    - exact H.
  Qed.
  Lemma calls_good : forall h e st, good e st -> good (e || existsb is_evaluate h) (do_calls np_pow usage target fuels tables name installations (Ok tt) (Ok vm) h st).
  Proof.
    induction h as [|c h IH]; intros e st H; cbn [do_calls existsb]; [now rewrite Bool.orb_false_r|]. rewrite Bool.orb_assoc. apply IH, step_good, H.
  Qed.
End Accepted.

Lemma evaluated_iff : forall h, existsb is_evaluate h = true <-> In EvaluateEnergyUsage h.
Proof.
  intros h. rewrite existsb_exists. split; [intros (c & H & E); destruct c; try discriminate; exact H|intros H; exists EvaluateEnergyUsage; auto].
Qed.

Theorem lifecycle_accepted_proof : forall M np_pow (usage : energy_usage_type -> M -> list Qc -> variables_map -> result function_result)
    vm target fuels tables name installations a mp h,
  map_model np_pow vm target fuels tables name installations = Ok (a, mp) ->
  let answer := answer_after np_pow usage target fuels tables name installations (Ok tt) (Ok vm) h in
  answer ValidateForRun = Ok Done /\ answer GetPeriods = Ok (Periods (vm_periods vm)) /\
  (exists g, build (map fst (mp_registered mp)) = Ok g /\ answer GetEnergyModel = Ok (Model g (mp_registered mp))) /\
  (~ In EvaluateEnergyUsage h -> forall id, answer (GetContainerResult id) = Err KeyError) /\
  match evaluate_energy_usage np_pow usage vm target (mp_registered mp) with
  | Ok results => answer EvaluateEnergyUsage = Ok Done /\
      (In EvaluateEnergyUsage h -> forall id, answer (GetContainerResult id) = do r <- get_container_result results id; Ok (Result r))
  | Err e => answer EvaluateEnergyUsage = Err e
  end.
Proof.
  intros M np_pow usage vm target fuels tables name installations a mp h Em.
  destruct (accepted_facts M np_pow usage vm target fuels tables name installations a mp Em) as (g & Eb & Ec & Hnd & Ht & Hch & Hids & Ea).
  assert (G0 : good np_pow usage vm target mp g false new_model) by (left; split; reflexivity).
  pose proof (calls_good np_pow usage vm target fuels tables name installations a mp g Eb Ec Hnd Ht Hch Hids Ea h false new_model G0) as G. cbn [orb] in G.
  intros answer. subst answer. unfold answer_after. set (st := do_calls np_pow usage target fuels tables name installations (Ok tt) (Ok vm) h new_model) in *.
  destruct (validate_good np_pow usage vm target fuels tables name installations a mp g Ea _ st G) as (V1 & V2 & V3).
  destruct (model_good np_pow usage vm target fuels tables name installations a mp g Eb Ea _ st G) as (M1 & M2 & M3 & M4 & _).
  destruct (evaluate_good np_pow usage vm target fuels tables name installations a mp g Eb Ec Hnd Ht Hch Hids Ea _ st G) as (E1 & _).
  cbn [do_call]. unfold get_periods.
  destruct (validate_for_run np_pow target fuels tables name installations (Ok tt) (Ok vm) st) as [r1 st1]. cbn [fst snd] in *. subst r1.
  split; [reflexivity|]. split.
  { destruct V2 as [[-> _]|(_ & -> & _)]; [discriminate V3|reflexivity]. }
  split.
  { exists g. split; [exact Eb|]. destruct (get_energy_model np_pow target fuels tables name installations (Ok tt) (Ok vm) st) as [r2 st2]. cbn [fst snd] in *. subst r2. now rewrite M3. }
  split.
  { intros Hn id. assert (existsb is_evaluate h = false) as X by (destruct (existsb is_evaluate h) eqn:X; [apply evaluated_iff in X; contradiction|reflexivity]). rewrite X in G.
    cbn [fst]. destruct G as [[-> _]|(_ & _ & _ & _ & _ & G & _)]; [reflexivity|]. rewrite (G eq_refl). reflexivity. }
  destruct (evaluate_model np_pow usage target fuels tables name installations (Ok tt) (Ok vm) st) as [r3 st3]. cbn [fst snd] in *. subst r3.
  destruct (evaluate_energy_usage np_pow usage vm target (mp_registered mp)) as [results|er] eqn:Ev; [|reflexivity]. split; [reflexivity|].
  intros He id. apply evaluated_iff in He. rewrite He in G. destruct G as [[_ G]|(_ & _ & _ & _ & _ & _ & G)]; [discriminate|]. unfold get_container_result. now rewrite (G eq_refl results Ev id).
Qed.

(** ** Refused before anything is mapped *)
Theorem lifecycle_early_proof : forall M np_pow (usage : energy_usage_type -> M -> list Qc -> variables_map -> result function_result)
    target fuels tables name installations checks variables e h,
  checks = Err e \/ (checks = Ok tt /\ variables = Err e) ->
  let answer := answer_after np_pow usage target fuels tables name installations checks variables h in
  (forall c, needs_model c -> answer c = Err e) /\ forall id, answer (GetContainerResult id) = Err KeyError.
Proof.
  intros M np_pow usage target fuels tables name installations checks variables e h H.
  assert (V : validate_for_run np_pow target fuels tables name installations checks variables new_model = (Err e, new_model)).
  { unfold validate_for_run. cbn [new_model ym_validated]. destruct H as [-> |[-> ->]]; reflexivity. }
  assert (S : forall c, do_call np_pow usage target fuels tables name installations checks variables c new_model = (match c with GetContainerResult _ => Err KeyError | _ => Err e end, new_model)).
  { intros c. destruct c; cbn [do_call]; unfold get_periods, evaluate_model, get_energy_model; cbn [new_model ym_energy_model]; fold (@new_model M); rewrite ?V; reflexivity. }
  assert (N : do_calls np_pow usage target fuels tables name installations checks variables h new_model = new_model).
  { induction h as [|c h IH]; [reflexivity|]. cbn [do_calls]. rewrite S. exact IH. }
  intros answer. subst answer. unfold answer_after. rewrite N. split.
  - intros c Hc. rewrite S. destruct c; cbn [needs_model] in Hc; [reflexivity..|contradiction].
  - intros id. rewrite S. reflexivity.
Qed.

(** ** Refused while its components are mapped *)
Lemma partial_build : forall M (blk : list (entry M)) n', orderly 1 2 n' blk -> blk = [] \/ build (map fst blk) = Err ValueError.
Proof.
  intros M blk n' (_ & T & H). destruct blk as [|e0 blk0]; [now left|right]. destruct (exists_last (l := e0 :: blk0) ltac:(discriminate)) as (l & e & El). rewrite El in *. clear El e0 blk0.
  pose proof (build_ok_proof (map fst (l ++ [e]))) as X. destruct (build (map fst (l ++ [e]))) as [g|er]; [|destruct X as [-> _]; reflexivity]. exfalso.
  destruct X as (_ & X & _). destruct (H e ltac:(apply in_or_app; right; now left)) as (i & p & _ & Ep & _).
  destruct e as [[id par] c]. cbn [fst snd] in Ep. subst par.
  assert (Y : In (NUuid p) (map fst (map fst (l ++ [(id, Some (NUuid p), c)])))).
  { apply (X id). apply in_map_iff. exists (id, Some (NUuid p), c). split; [reflexivity|]. apply in_or_app. right. now left. }
  rewrite map_map in Y. apply in_map_iff in Y as (y & E & Hy). exact (tidy_split M _ l (id, Some (NUuid p), c) [] T eq_refl (id, Some (NUuid p), c) (or_introl eq_refl) y Hy (f_equal Some (eq_sym E))).
Qed.

Theorem lifecycle_late_proof : forall M np_pow (usage : energy_usage_type -> M -> list Qc -> variables_map -> result function_result)
    vm target fuels tables name installations e,
  map_model np_pow vm target fuels tables name installations = Err e ->
  let answer := answer_after np_pow usage target fuels tables name installations (Ok tt) (Ok vm) in
  (forall h c, ~ used h -> needs_model c -> answer h c = Err e) /\
  (forall h id, answer h (GetContainerResult id) = Err KeyError) /\
  (forall h, used h -> answer h ValidateForRun = Ok Done /\ answer h GetPeriods = Ok (Periods (vm_periods vm))) /\
  ((forall h, used h -> answer h GetEnergyModel = Err ValueError /\ answer h EvaluateEnergyUsage = Err ValueError) \/
   (forall h, used h -> answer h GetEnergyModel = Ok (Model empty_graph []) /\ answer h EvaluateEnergyUsage = Ok Done)).
Proof.
  intros M np_pow usage vm target fuels tables name installations e Em.
  destruct (asset_maps np_pow vm target fuels tables name installations) as (n' & blk & O & X).
  destruct (map_asset np_pow vm target fuels tables (NUuid 0) name installations (mkMapping 1 [])) as [[a mp]|[e' mp]] eqn:Ea; [destruct X as [_ X]; rewrite Em in X; discriminate|].
  destruct X as [Er X]. rewrite Em in X. injection X as <-.
  set (step := do_call np_pow usage target fuels tables name installations (Ok tt) (Ok vm)).
  (* what is registered, and what is built from it *)
  set (ready := fun st : yaml_model M => ym_validated st = true /\ ym_variables st = Some vm /\ mp_registered (ym_mapping st) = blk /\ ym_results st = [] /\
    (ym_energy_model st = None \/ (blk = [] /\ ym_energy_model st = Some empty_graph))).
  assert (First : forall c, needs_model c -> fst (step c new_model) = Err e /\ ready (snd (step c new_model))).
  { assert (V : validate_for_run np_pow target fuels tables name installations (Ok tt) (Ok vm) new_model = (Err e, mkYM true (Some vm) mp None None [])).
    { unfold validate_for_run. cbn [new_model ym_validated ym_mapping]. rewrite Ea. reflexivity. }
    intros c Hc. assert (S : step c new_model = (Err e, mkYM true (Some vm) mp None None [])).
    { unfold step. destruct c; cbn [needs_model] in Hc; try contradiction; cbn [do_call]; unfold get_periods, evaluate_model, get_energy_model; cbn [new_model ym_energy_model]; fold (@new_model M); rewrite ?V; reflexivity. }
    rewrite S. cbn [fst snd]. split; [reflexivity|]. unfold ready. cbn. repeat split; auto. }
  assert (Model' : forall st, ready st -> (blk = [] /\ fst (get_energy_model np_pow target fuels tables name installations (Ok tt) (Ok vm) st) = Ok empty_graph \/
      build (map fst blk) = Err ValueError /\ fst (get_energy_model np_pow target fuels tables name installations (Ok tt) (Ok vm) st) = Err ValueError) /\
      ready (snd (get_energy_model np_pow target fuels tables name installations (Ok tt) (Ok vm) st))).
  { intros st R. pose proof R as (R1 & R2 & R3 & R4 & R5). unfold get_energy_model, validate_for_run. rewrite R1. destruct R5 as [R5|[R5 R6]].
    - rewrite R5, R3. destruct (partial_build M blk n' O) as [Eb|Eb].
      + rewrite Eb. cbn [fst snd]. split; [left; split; reflexivity|]. unfold ready. cbn [ym_validated ym_variables ym_mapping ym_results ym_energy_model]. split; [exact R1|]. split; [exact R2|]. split; [exact R3|]. split; [exact R4|]. right. split; [exact Eb|reflexivity].
      + rewrite Eb. cbn [fst snd]. split; [right; split; reflexivity|exact R].
    - rewrite R6. cbn [fst snd]. split; [left; auto|exact R]. }
  assert (Eval : forall st, ready st -> (blk = [] /\ fst (evaluate_model np_pow usage target fuels tables name installations (Ok tt) (Ok vm) st) = Ok tt \/
      build (map fst blk) = Err ValueError /\ fst (evaluate_model np_pow usage target fuels tables name installations (Ok tt) (Ok vm) st) = Err ValueError) /\
      ready (snd (evaluate_model np_pow usage target fuels tables name installations (Ok tt) (Ok vm) st))).
  { intros st R. destruct (Model' st R) as [A B]. unfold evaluate_model. destruct (get_energy_model np_pow target fuels tables name installations (Ok tt) (Ok vm) st) as [r st1]. cbn [fst snd] in A, B.
    pose proof B as (B1 & B2 & B3 & B4 & B5). destruct A as [[A1 ->]|[A1 ->]]; [|cbn [fst snd]; split; [right; auto|exact B]].
    rewrite B2, B3, B4. cbn [get_energy_containers empty_graph gr_graph nodes map evaluate_kept fst snd]. split; [left; auto|]. unfold ready. cbn. repeat split; auto. }
  assert (Next : forall c st, ready st -> ready (snd (step c st))).
  { intros c st R. pose proof R as (R1 & _). unfold step. destruct c; cbn [do_call].
    - unfold validate_for_run. rewrite R1. exact R.
    - unfold get_periods, validate_for_run. rewrite R1. exact R.
    - destruct (Model' st R) as [_ Y]. destruct (get_energy_model _ _ _ _ _ _ _ _ st). exact Y.
    - destruct (Eval st R) as [_ Y]. destruct (evaluate_model _ _ _ _ _ _ _ _ _ st). exact Y.
    - exact R. }
  assert (St : forall h, (~ used h /\ do_calls np_pow usage target fuels tables name installations (Ok tt) (Ok vm) h new_model = new_model) \/
                         (used h /\ ready (do_calls np_pow usage target fuels tables name installations (Ok tt) (Ok vm) h new_model))).
  { assert (R : forall h st, ready st -> ready (do_calls np_pow usage target fuels tables name installations (Ok tt) (Ok vm) h st)) by
      (induction h as [|c h IH]; intros st Hst; cbn [do_calls]; [exact Hst|apply IH; exact (Next c st Hst)]).
    induction h as [|c h IH]; [left; split; [intros (c & [] & _)|reflexivity]|]. cbn [do_calls].
    assert (D : needs_model c \/ exists id, c = GetContainerResult id) by (destruct c; cbn; eauto).
    destruct D as [D|(id & ->)].
    - right. split; [exists c; split; [now left|exact D]|]. apply R. exact (proj2 (First c D)).
    - cbn [do_call snd]. destruct IH as [[I1 I2]|[I1 I2]]; [left|right]; (split; [|exact I2]).
      + intros (c & [<-|Hc] & Hn); [destruct Hn|]. apply I1. exists c. auto.
      + destruct I1 as (c & Hc & Hn). exists c. split; [now right|exact Hn]. }
  intros answer. subst answer. unfold answer_after. fold step. split; [|split; [|split]].
  - intros h c Hu Hc. destruct (St h) as [[_ ->]|[U _]]; [exact (proj1 (First c Hc))|contradiction].
  - intros h id. unfold step. cbn [do_call fst]. destruct (St h) as [[_ ->]|[_ (_ & _ & _ & -> & _)]]; reflexivity.
  - intros h Hu. destruct (St h) as [[U _]|[_ (R1 & R2 & _)]]; [contradiction|]. unfold step. cbn [do_call]. unfold get_periods, validate_for_run. rewrite R1, R2. split; reflexivity.
  - destruct (partial_build M blk n' O) as [Eb|Eb]; [right|left]; intros h Hu; (destruct (St h) as [[U _]|[_ R]]; [contradiction|]); unfold step; cbn [do_call];
      destruct (Model' _ R) as [A B]; destruct (Eval _ R) as [C D];
      destruct (get_energy_model np_pow target fuels tables name installations (Ok tt) (Ok vm) _) as [r st1]; destruct (evaluate_model np_pow usage target fuels tables name installations (Ok tt) (Ok vm) _) as [r2 st2]; cbn [fst snd] in *.
    + assert (~ build (map fst blk) = Err ValueError) as Nb by (rewrite Eb; discriminate). destruct A as [[_ ->]|[A _]]; [|contradiction]. destruct C as [[_ ->]|[C _]]; [|contradiction].
      destruct B as (_ & _ & -> & _). rewrite Eb. split; reflexivity.
    + assert (blk <> []) as Nb by (intros ->; discriminate). destruct A as [[A _]|[_ ->]]; [contradiction|]. destruct C as [[C _]|[_ ->]]; [contradiction|]. split; reflexivity.
Qed.

(** ** A refused text is accepted the second time *)
Definition lc_vm : variables_map := mkVM [mkPeriod 0 86400] [0%Z; 86400%Z] [].
Definition lc_run : period := mkPeriod 0 86400.
Definition lc_peat : yaml_installation direct_model :=
  mkYI "site" (Some (TDPlain "peat"%string)) None None []
    [mkYF "flare" None (TDPlain (mkDirect FUEL (INumber (qz 5)) None (mkCommon None None None)))] [].
Theorem lifecycle_again_refuted_proof : ~ (forall vm target fuels tables name (installations : list (yaml_installation direct_model)) e h,
  map_model (fun x _ => x) vm target fuels tables name installations = Err e ->
  answer_after (fun x _ => x) (direct_evaluate (fun x _ => x)) target fuels tables name installations (Ok tt) (Ok vm) h ValidateForRun = Err e /\
  answer_after (fun x _ => x) (direct_evaluate (fun x _ => x)) target fuels tables name installations (Ok tt) (Ok vm) h EvaluateEnergyUsage = Err e).
Proof.
  intros H. specialize (H lc_vm lc_run [("gas"%string, [])] [] "asset"%string [lc_peat]).
  assert (E : exists e, map_model (fun x _ => x) lc_vm lc_run [("gas"%string, [])] [] "asset"%string [lc_peat] = Err e) by (vm_compute; eexists; reflexivity).
  destruct E as (e & E). destruct (H e [ValidateForRun] E) as [H1 _].
  assert (X : answer_after (fun x _ => x) (direct_evaluate (fun x _ => x)) lc_run [("gas"%string, [])] [] "asset"%string [lc_peat] (Ok tt) (Ok lc_vm) [ValidateForRun] ValidateForRun = Ok Done) by (vm_compute; reflexivity).
  rewrite X in H1. discriminate H1.
Qed.

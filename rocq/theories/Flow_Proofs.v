(** Flow diagrams: proofs. *)
From Coq Require Import PeanoNat String Permutation Lia.
From Verif Require Import Base BaseLemmas Time_Model Graph_Model Graph_Spec Graph_Proofs3 Totals_Proofs5 Flow_Model Flow_Spec.
Local Open Scope list_scope.

Lemma bind_Ok : forall {A B} (r : result A) (k : A -> result B) y, (do x <- r; k x) = Ok y -> exists x, r = Ok x /\ k x = Ok y.
Proof. intros A B [x|e] k y E; [exists x; auto|discriminate E]. Qed.
Lemma Forall2_right_in : forall {A B} (R : A -> B -> Prop) l m y, Forall2 R l m -> In y m -> exists x, In x l /\ R x y.
Proof. intros A B R l m y F. induction F as [|a b l m H F IH]; intros J; [destruct J|]. destruct J as [<-|J]; [exists a; split; [left; reflexivity|exact H]|]. destruct (IH J) as (x & X & Y). exists x. split; [right; exact X|exact Y]. Qed.

(** ** Every diagram is closed *)
Section Closed.
Variable g : graph.
Variable container : node_id -> option component.
Variable whole : period.
Definition good (x : flow_node) : Prop := forall sub inner, sub_of x = Some sub -> within sub inner -> closed inner /\ period_of inner = whole.
Lemma parts_good : forall f consumer part, (forall id b x, f id b = Ok x -> ref_of x = Component id /\ good x) -> consumer_parts g container f consumer = Ok part ->
  (forall x, In x (fst part) -> good x) /\ (forall e r, In e (snd part) -> r = from_node e \/ r = to_node e -> r = FuelInput \/ r = EmissionOutput \/ In r (map ref_of (fst part))).
Proof.
  intros f consumer part H E. unfold consumer_parts in E. apply bind_Ok in E as (c & _ & E). apply bind_Ok in E as (x & Ex & E). destruct (H _ _ _ Ex) as [Rx Gx]. cbv zeta in E.
  assert (forall l e r, In e (if is_fuel_consumer c then [mkFlowEdge FuelInput (Component consumer) FuelFlow; mkFlowEdge (Component consumer) EmissionOutput EmissionFlow]
    else if is_emitter c then [mkFlowEdge (Component consumer) EmissionOutput EmissionFlow] else []) -> r = from_node e \/ r = to_node e -> r = FuelInput \/ r = EmissionOutput \/ In r (map ref_of (x :: l))) as Q.
  { intros l e r J R. assert (In (Component consumer) (map ref_of (x :: l))) as K by (left; exact Rx). destruct (is_fuel_consumer c); [|destruct (is_emitter c)]; cbn in J.
    - destruct J as [<-|[<-|[]]]; cbn in R; destruct R as [->| ->]; auto.
    - destruct J as [<-|[]]; cbn in R; destruct R as [->| ->]; auto.
    - destruct J. }
  destruct (is_provider c).
  - apply bind_Ok in E as (electric & _ & E). apply bind_Ok in E as (shown & Es & E). injection E as <-. apply mapM_Ok in Es. cbn [fst snd]. split.
    + intros y [<-|J]; [exact Gx|]. destruct (Forall2_right_in _ _ _ _ Es J) as (e & _ & Ee). exact (proj2 (H _ _ _ Ee)).
    + intros e r J R. apply in_app_iff in J as [J|J]; [exact (Q shown e r J R)|]. apply in_map_iff in J as (t & <- & J). cbn in R. right. right. destruct R as [->| ->]; [left; exact Rx|]. right.
      clear - H Es J. induction Es as [|a b l m A F IH]; [destruct J|]. destruct J as [->|J]; [left; exact (proj1 (H _ _ _ A))|right; exact (IH J)].
  - injection E as <-. cbn [fst snd]. split; [intros y [<-|[]]; exact Gx|]. intros e r J R. exact (Q [] e r J R).
Qed.
Lemma all_flows : forall f, In f [FuelFlow; EmissionFlow; ElectricityFlow].
Proof. intros []; cbn; auto. Qed.
Lemma fde_good : forall f id sub, (forall id b x, f id b = Ok x -> ref_of x = Component id /\ good x) -> get_fde g container whole f id = Ok (Some sub) -> forall inner, within sub inner -> closed inner /\ period_of inner = whole.
Proof.
  intros f id sub H E. unfold get_fde in E. apply bind_Ok in E as (consumers & _ & E). destruct consumers as [|c0 cs]; [discriminate E|]. apply bind_Ok in E as (parts & Ep & E). apply bind_Ok in E as (c & _ & E). injection E as <-. apply mapM_Ok in Ep.
  assert (forall part, In part parts -> (forall x, In x (fst part) -> good x) /\ (forall e r, In e (snd part) -> r = from_node e \/ r = to_node e -> r = FuelInput \/ r = EmissionOutput \/ In r (map ref_of (fst part)))) as Q.
  { intros part J. destruct (Forall2_right_in _ _ _ _ Ep J) as (k & _ & K). exact (parts_good f k part H K). }
  intros inner W. inversion W as [|d x s i J S V]; subst.
  - split; [|reflexivity]. intros e J. cbn in J |- *. apply in_concat in J as (l & L & J). apply in_map_iff in L as (part & <- & P).
    assert (forall r, r = from_node e \/ r = to_node e -> FuelInput = r \/ EmissionOutput = r \/ In r (map ref_of (concat (map fst parts)))) as R.
    { intros r R. destruct (proj2 (Q part P) e r J R) as [->|[->|K]]; auto. right. right. apply in_map_iff in K as (x & <- & K). apply in_map. apply in_concat. exists (fst part). split; [apply in_map; exact P|exact K]. }
    split; [apply R; auto|]. split; [apply R; auto|]. apply all_flows.
  - cbn in J. destruct J as [<-|[<-|J]]; [discriminate S|discriminate S|]. apply in_concat in J as (l & L & J). apply in_map_iff in L as (part & <- & P). exact (proj1 (Q part P) x J s inner S V).
Qed.
Lemma node_good : forall depth id b x, get_node g container whole depth id b = Ok x -> ref_of x = Component id /\ good x.
Proof.
  induction depth as [|depth IH]; intros id b x E; [discriminate E|]. cbn [get_node] in E. apply bind_Ok in E as (c & _ & E). apply bind_Ok in E as (t & _ & E). apply bind_Ok in E as (sub & Es & E). injection E as <-. split; [reflexivity|].
  intros s inner S W. cbn in S. subst sub. destruct b; [|discriminate Es]. exact (fde_good _ id s IH Es inner W).
Qed.
End Closed.

Lemma closed_proof : forall g container whole depth d, get_energy_flow_diagram g container whole depth = Ok d -> forall inner, within d inner -> closed inner /\ period_of inner = whole.
Proof.
  intros g container whole depth d E. unfold get_energy_flow_diagram in E. apply bind_Ok in E as (all & _ & E). cbv zeta in E. apply bind_Ok in E as (shown & Es & E). injection E as <-. apply mapM_Ok in Es.
  intros inner W. inversion W as [|d x s i J S V]; subst.
  - split; [|reflexivity]. intros e J. cbn in J |- *. apply in_flat_map in J as (x & X & J). assert (In (ref_of x) (map ref_of (shown ++ [emission_node]))) as K by (apply in_map, in_app_iff; left; exact X).
    assert (In EmissionOutput (map ref_of (shown ++ [emission_node]))) as L by (rewrite map_app; apply in_app_iff; right; left; reflexivity).
    destruct J as [<-|[<-|[]]]; cbn; auto.
  - cbn in J. destruct J as [<-|J]; [discriminate S|]. apply in_app_iff in J as [J|[<-|[]]]; [|discriminate S]. destruct (Forall2_right_in _ _ _ _ Es J) as (k & _ & K). exact (proj2 (node_good g container whole depth k true x K) s inner S V).
Qed.

(** ** Models that are laid out as YAML lays them out *)
Section Laid.
Variable regs : list registration.
Variable container : node_id -> option component.
Variable whole : period.
Variable g : graph.
Hypothesis laid : laid_out regs container.
Hypothesis built : build regs = Ok g.
Lemma kids : forall v, In v (map fst regs) -> get_children g v = Ok (children_of regs v).
Proof. intros v V. destruct laid as [H _]. destruct (hierarchy_proof regs H) as (g' & E & _ & _ & C & _). rewrite built in E. injection E as <-. exact (C v V). Qed.
Lemma containers_are : get_energy_containers g = map fst regs.
Proof. destruct laid as [H _]. destruct (hierarchy_proof regs H) as (g' & E & C & _). rewrite built in E. injection E as <-. exact C. Qed.
Lemma reg_in : forall c p, In (c, p) regs -> In c (map fst regs).
Proof. intros c p I. change c with (fst (c, p)). apply in_map. exact I. Qed.
Lemma kind_unique : forall k k' id, is_a container k id -> is_a container k' id -> k = k'.
Proof. intros k k' id [n A] [n' B]. rewrite A in B. injection B as _ B. exact B. Qed.
Lemma known : forall id, In id (map fst regs) -> exists name k, container id = Some (mkComponent name k).
Proof.
  intros id I. apply in_map_iff in I as ([c p] & <- & I). cbn. destruct laid as (_ & A & B). destruct p as [p|]; [|destruct (A c I) as [n E]; eauto].
  destruct (B c p I) as [[_ [n E]]|[[_ [[n E]|[[e [n E]]|[n E]]]]|[_ [e [n E]]]]]; eauto.
Qed.
(** nothing is below these *)
Lemma childless : forall id k, is_a container k id -> k <> Asset -> k <> Installation -> k <> GeneratorSet -> children_of regs id = [].
Proof.
  intros id k K A B C. destruct (children_of regs id) as [|c l] eqn:E; [reflexivity|]. exfalso. assert (In (c, Some id) regs) as I by (apply children_in; rewrite E; left; reflexivity).
  destruct laid as (_ & _ & L). destruct (L c id I) as [[P _]|[[P _]|[P _]]]; pose proof (kind_unique _ _ _ K P); congruence.
Qed.
Lemma type_spec : forall name k, k <> Asset -> exists t, get_node_type (mkComponent name k) = Ok t /\ shown_type k t.
Proof. intros name [| | |e|e|] N; [congruence|..]; try (eexists; split; reflexivity); destruct e; eexists; split; reflexivity. Qed.
Lemma leaf_ok : forall depth id k, In id (map fst regs) -> is_a container k id -> k <> Asset -> k <> Installation -> k <> GeneratorSet -> exists x, get_node g container whole (S depth) id true = Ok x /\ plain_node container id x.
Proof.
  intros depth id k I [name K] A B C. cbn [get_node]. unfold get_container at 1. rewrite K. cbn [of_option Base.bind]. destruct (type_spec name k A) as (t & -> & T). cbn [Base.bind].
  unfold get_fde. rewrite (kids id I), (childless id k (ex_intro _ name K) A B C). cbn [Base.bind]. eexists. split; [reflexivity|]. split; [|reflexivity]. exists name, k, t, None. auto.
Qed.
Lemma generator_ok : forall depth id, is_a container GeneratorSet id -> exists x, get_node g container whole (S depth) id false = Ok x /\ plain_node container id x.
Proof.
  intros depth id [name K]. cbn [get_node]. unfold get_container at 1. rewrite K. eexists. split; [reflexivity|]. split; [|reflexivity]. exists name, GeneratorSet, TGenerator, None. repeat split. exact K.
Qed.
(** one consumer of an installation *)
Lemma part_ok : forall depth i c, In (c, Some i) regs -> is_a container Installation i ->
  exists part, consumer_parts g container (get_node g container whole (S depth)) c = Ok part /\ Forall2 (plain_node container) (c :: if generator container c then children_of regs c else []) (fst part)
    /\ forall e, In e (snd part) <-> (e = mkFlowEdge FuelInput (Component c) FuelFlow /\ ~ is_a container VentingEmitter c) \/ e = mkFlowEdge (Component c) EmissionOutput EmissionFlow
         \/ exists t, In (t, Some c) regs /\ e = mkFlowEdge (Component c) (Component t) ElectricityFlow.
Proof.
  intros depth i c I Ki. pose proof (reg_in _ _ I) as R. destruct laid as (_ & _ & L).
  assert (is_a container GeneratorSet c \/ (exists e, is_a container (FuelConsumer e) c) \/ is_a container VentingEmitter c) as K.
  { destruct (L c i I) as [[P _]|[[_ P]|[P _]]]; [pose proof (kind_unique _ _ _ Ki P); discriminate|exact P|pose proof (kind_unique _ _ _ Ki P); discriminate]. }
  unfold consumer_parts. destruct K as [[name K]|[[q [name K]]|[name K]]].
  - assert (generator container c = true) as -> by (unfold generator; rewrite K; reflexivity). unfold get_container. rewrite K. cbn [of_option Base.bind is_provider c_kind negb is_fuel_consumer].
    destruct (generator_ok depth c (ex_intro _ name K)) as (x & -> & X). cbn [Base.bind]. rewrite (kids c R). cbn [Base.bind].
    assert (exists shown, mapM (fun e => get_node g container whole (S depth) e true) (children_of regs c) = Ok shown /\ Forall2 (plain_node container) (children_of regs c) shown) as (shown & -> & F).
    { assert (forall e, In e (children_of regs c) -> exists x, get_node g container whole (S depth) e true = Ok x /\ plain_node container e x) as Q.
      { intros e J. apply children_in in J. destruct (L e c J) as [[P _]|[[P _]|[_ [q P]]]]; try (pose proof (kind_unique _ _ _ (ex_intro _ name K) P); discriminate). apply (leaf_ok depth e (ElectricityConsumer q) (reg_in _ _ J) P); discriminate. }
      revert Q. generalize (children_of regs c) as l. induction l as [|e l IH]; intros Q; [exists []; split; [reflexivity|constructor]|].
      destruct (Q e (or_introl eq_refl)) as (y & E1 & E2). destruct IH as (ys & E3 & E4); [intros a A; apply Q; right; exact A|]. exists (y :: ys). cbn [mapM]. rewrite E1. cbn [Base.bind]. rewrite E3. split; [reflexivity|constructor; assumption]. }
    cbn [Base.bind]. eexists. split; [reflexivity|]. split; [constructor; assumption|]. cbn [snd]. intros e. cbn [app In]. rewrite in_map_iff. split.
    + intros [<-|[<-|(t & <- & J)]]; [|auto|].
      * left. split; [reflexivity|]. intros V. pose proof (kind_unique _ _ _ V (ex_intro _ name K)). discriminate.
      * right. right. exists t. split; [apply children_in; exact J|reflexivity].
    + intros [[-> _]|[->|(t & J & ->)]]; auto. right. right. exists t. split; [reflexivity|apply children_in; exact J].
  - assert (generator container c = false) as -> by (unfold generator; rewrite K; reflexivity). assert (children_of regs c = []) as Z by (apply (childless c (FuelConsumer q)); [exists name; exact K|discriminate..]).
    unfold get_container. rewrite K. cbn [of_option Base.bind is_provider c_kind negb is_fuel_consumer]. destruct (leaf_ok depth c (FuelConsumer q) R (ex_intro _ name K)) as (x & -> & X); try discriminate. cbn [Base.bind].
    eexists. split; [reflexivity|]. split; [constructor; [exact X|constructor]|]. cbn [snd In]. intros e. split.
    + intros [<-|[<-|[]]]; [left; split; [reflexivity|]; intros V; pose proof (kind_unique _ _ _ V (ex_intro _ name K)); discriminate|auto].
    + intros [[-> _]|[->|(t & J & ->)]]; auto. apply children_in in J. rewrite Z in J. destruct J.
  - assert (generator container c = false) as -> by (unfold generator; rewrite K; reflexivity). assert (children_of regs c = []) as Z by (apply (childless c VentingEmitter); [exists name; exact K|discriminate..]).
    unfold get_container. rewrite K. cbn [of_option Base.bind is_provider c_kind negb is_fuel_consumer is_emitter]. destruct (leaf_ok depth c VentingEmitter R (ex_intro _ name K)) as (x & -> & X); try discriminate. cbn [Base.bind].
    eexists. split; [reflexivity|]. split; [constructor; [exact X|constructor]|]. cbn [snd In]. intros e. split.
    + intros [<-|[]]. auto.
    + intros [[_ V]|[->|(t & J & ->)]]; [exfalso; apply V; exists name; exact K|auto|]. apply children_in in J. rewrite Z in J. destruct J.
Qed.
Lemma parts_ok : forall depth i l, is_a container Installation i -> (forall c, In c l -> In (c, Some i) regs) ->
  exists parts, mapM (consumer_parts g container (get_node g container whole (S depth))) l = Ok parts
    /\ Forall2 (plain_node container) (flat_map (fun c => c :: if generator container c then children_of regs c else []) l) (concat (map fst parts))
    /\ forall e, In e (concat (map snd parts)) <-> exists c, In c l /\ ((e = mkFlowEdge FuelInput (Component c) FuelFlow /\ ~ is_a container VentingEmitter c) \/ e = mkFlowEdge (Component c) EmissionOutput EmissionFlow
         \/ exists t, In (t, Some c) regs /\ e = mkFlowEdge (Component c) (Component t) ElectricityFlow).
Proof.
  intros depth i l Ki. induction l as [|c l IH]; intros H.
  - exists []. split; [reflexivity|]. split; [constructor|]. intros e. cbn. split; [intros []|intros (c & [] & _)].
  - destruct (part_ok depth i c (H c (or_introl eq_refl)) Ki) as (p & E1 & E2 & E3). destruct IH as (ps & F1 & F2 & F3); [intros d D; apply H; right; exact D|]. exists (p :: ps). cbn [mapM]. rewrite E1. cbn [Base.bind]. rewrite F1. split; [reflexivity|]. cbn [flat_map map concat]. split; [apply Forall2_app; assumption|].
    intros e. rewrite in_app_iff, E3, F3. split.
    + intros [X|(d & D & X)]; [exists c; split; [left; reflexivity|exact X]|exists d; split; [right; exact D|exact X]].
    + intros (d & [<-|D] & X); [left; exact X|right; exists d; auto].
Qed.
Lemma installation_ok : forall depth i, In i (map fst regs) -> is_a container Installation i -> exists x, get_node g container whole (S (S depth)) i true = Ok x /\ installation_shown regs container whole i x.
Proof.
  intros depth i I Ki. pose proof Ki as [name K]. remember (S depth) as d1. cbn [get_node]. unfold get_container at 1. rewrite K. cbn [of_option Base.bind get_node_type c_kind c_name]. unfold get_fde. rewrite (kids i I). cbn [Base.bind].
  destruct (children_of regs i) as [|c0 cs] eqn:Ec.
  - cbn [Base.bind]. eexists. split; [reflexivity|]. split; [exists name, Installation, TInstallation, None; repeat split; exact K|]. rewrite Ec. reflexivity.
  - subst d1. destruct (parts_ok depth i (c0 :: cs) Ki) as (parts & -> & F & Q); [intros c C; apply children_in; rewrite Ec; exact C|]. cbn [Base.bind]. unfold get_container. rewrite K. cbn [of_option Base.bind c_name].
    eexists. split; [reflexivity|]. split; [exists name, Installation, TInstallation; eexists; split; [exact K|split; [reflexivity|reflexivity]]|]. rewrite Ec. exists name, (concat (map fst parts)), (concat (map snd parts)).
    split; [exact Ki|]. split; [exists Installation; exact K|]. split; [reflexivity|]. split; [unfold consumers_shown; rewrite Ec; exact F|].
    intros e. rewrite Q. rewrite <- Ec. split.
    + intros (c & C & X). apply children_in in C. destruct X as [[-> V]|[->|(t & T & ->)]]; [apply burns; assumption|apply emits; assumption|apply supplies; assumption].
    + intros X. inversion X as [c C V|c C|c t C T]; subst; exists c; (split; [apply children_in; exact C|]); auto. right. right. exists t. auto.
Qed.
End Laid.

(** ** The whole diagram *)
Lemma area_proof : forall regs container whole g depth, laid_out regs container -> build regs = Ok g -> (2 <= depth)%nat ->
  exists shown edges, get_energy_flow_diagram g container whole depth = Ok (mkDiagram None "Area" whole ([fuel_node] ++ shown ++ [emission_node]) edges [FuelFlow; EmissionFlow])
    /\ Forall2 (installation_shown regs container whole) (installations regs container) shown
    /\ (forall e, In e edges <-> exists i, In i (installations regs container) /\ (e = mkFlowEdge FuelInput (Component i) FuelFlow \/ e = mkFlowEdge (Component i) EmissionOutput EmissionFlow)).
Proof.
  intros regs container whole g depth laid built D. destruct depth as [|[|depth]]; [lia|lia|]. clear D. unfold get_energy_flow_diagram. rewrite (containers_are regs container g laid built).
  assert (exists all, mapM (fun id => do c <- get_container container id; Ok (id, c)) (map fst regs) = Ok all /\ map fst (filter (fun p => match c_kind (snd p) with Installation => true | _ => false end) all) = installations regs container) as (all & -> & Ei).
  { unfold installations. pose proof (known regs container laid) as N. revert N. generalize (map fst regs) as l. induction l as [|id l IH]; intros N; [exists []; split; reflexivity|].
    destruct (N id (or_introl eq_refl)) as (name & k & K). destruct IH as (all & E & F); [intros c C; apply N; right; exact C|]. exists ((id, mkComponent name k) :: all). cbn [mapM]. unfold get_container at 1. rewrite K. cbn [of_option Base.bind]. rewrite E. split; [reflexivity|].
    cbn [filter snd c_kind map]. rewrite K. destruct k; cbn [map fst]; rewrite F; reflexivity. }
  cbn [Base.bind]. cbv zeta. rewrite Ei.
  assert (exists shown, mapM (fun i => get_node g container whole (S (S depth)) i true) (installations regs container) = Ok shown /\ Forall2 (installation_shown regs container whole) (installations regs container) shown) as (shown & -> & F).
  { assert (forall i, In i (installations regs container) -> exists x, get_node g container whole (S (S depth)) i true = Ok x /\ installation_shown regs container whole i x) as Q.
    { intros i J. unfold installations in J. apply filter_In in J as [J K]. apply (installation_ok regs container whole g laid built depth i J). unfold is_a. destruct (container i) as [[name [| | | | |]]|]; try discriminate K. exists name. reflexivity. }
    revert Q. generalize (installations regs container) as l. induction l as [|e l IH]; intros Q; [exists []; split; [reflexivity|constructor]|].
    destruct (Q e (or_introl eq_refl)) as (y & E1 & E2). destruct IH as (ys & E3 & E4); [intros a A; apply Q; right; exact A|]. exists (y :: ys). cbn [mapM]. rewrite E1. cbn [Base.bind]. rewrite E3. split; [reflexivity|constructor; assumption]. }
  cbn [Base.bind]. eexists. eexists. split; [reflexivity|]. split; [exact F|]. clear - F. revert F. generalize (installations regs container) as l. induction 1 as [|i x l m X F IH]; intros e.
  - cbn. split; [intros []|intros (i & [] & _)].
  - cbn [flat_map]. rewrite in_app_iff, IH. destruct X as [(name & k & t & sub & _ & _ & ->) _]. cbn [In]. split.
    + intros [[<-|[<-|[]]]|(j & J & X)]; [exists i; auto|exists i; auto|exists j; auto].
    + intros (j & [<-|J] & [->| ->]); auto; right; exists j; auto.
Qed.

Lemma NoDup_flat : forall {A B} (f : A -> list B) l, NoDup l -> (forall a, In a l -> NoDup (f a)) -> (forall a b x, In a l -> In b l -> In x (f a) -> In x (f b) -> a = b) -> NoDup (flat_map f l).
Proof.
  intros A B f. induction l as [|a l IH]; intros N E D; cbn [flat_map]; [constructor|]. inversion N as [|? ? X Y]; subst.
  assert (NoDup (flat_map f l)) as Q by (apply IH; [exact Y|intros b J; apply E; right; exact J|intros b c x J K; apply D; right; assumption]).
  assert (forall x, In x (f a) -> ~ In x (flat_map f l)) as Z.
  { intros x J K. apply in_flat_map in K as (b & K & L). apply X. rewrite (D a b x (or_introl eq_refl) (or_intror K) J L). exact K. }
  clear - Q Z E. pose proof (E a (or_introl eq_refl)) as Na. clear E. induction (f a) as [|x m IHm]; [exact Q|]. inversion Na as [|? ? U V]; subst. cbn [app]. constructor.
  - rewrite in_app_iff. intros [K|K]; [exact (U K)|exact (Z x (or_introl eq_refl) K)].
  - apply IHm; [intros y J; apply Z; right; exact J|exact V].
Qed.
Lemma plain_components : forall container l xs, Forall2 (plain_node container) l xs -> flat_map node_components xs = l.
Proof.
  intros container l xs F. induction F as [|a x l xs [(name & k & t & sub & _ & _ & ->) S] F IH]; [reflexivity|]. cbn in S. subst sub. cbn. f_equal. exact IH.
Qed.
Lemma installation_components : forall regs container whole i x, installation_shown regs container whole i x -> node_components x = i :: consumers_shown regs container i.
Proof.
  intros regs container whole i x [(name & k & t & sub & _ & _ & ->) H]. unfold consumers_shown. destruct (children_of regs i) as [|c cs] eqn:E; cbn [sub_of] in H.
  - subst sub. reflexivity.
  - destruct H as (n & shown & edges & _ & _ & -> & F & _). unfold consumers_shown in F. rewrite E in F. cbn [node_components diagram_components app flat_map]. rewrite (plain_components _ _ _ F). reflexivity.
Qed.
Lemma once_proof : forall regs container whole g depth d, laid_out regs container -> build regs = Ok g -> (2 <= depth)%nat -> get_energy_flow_diagram g container whole depth = Ok d ->
  NoDup (diagram_components d) /\ forall id, In id (diagram_components d) <-> In id (map fst regs) /\ ~ is_a container Asset id.
Proof.
  intros regs container whole g depth d laid built D E. destruct (area_proof regs container whole g depth laid built D) as (shown & edges & E' & F & _). rewrite E' in E. assert (d = mkDiagram None "Area" whole ([fuel_node] ++ shown ++ [emission_node]) edges [FuelFlow; EmissionFlow]) as -> by congruence. clear E.
  assert (diagram_components (mkDiagram None "Area" whole ([fuel_node] ++ shown ++ [emission_node]) edges [FuelFlow; EmissionFlow]) = flat_map (fun i => i :: consumers_shown regs container i) (installations regs container)) as ->.
  { cbn [diagram_components app flat_map]. rewrite flat_map_app. cbn [flat_map node_components fuel_node emission_node app]. rewrite app_nil_r. clear - F. induction F as [|i x l m X F IH]; [reflexivity|]. cbn [flat_map]. rewrite (installation_components _ _ _ _ _ X), IH. reflexivity. }
  clear E' F shown edges. pose proof laid as (H & LA & L).
  assert (forall c p q, In (c, Some p) regs -> In (c, Some q) regs -> p = q) as PU by (intros c p q A B; pose proof (parent_unique _ _ _ _ H A B) as X; congruence).
  assert (forall i, In i (installations regs container) <-> In i (map fst regs) /\ is_a container Installation i) as II.
  { intros i. unfold installations, is_a. rewrite filter_In. split; intros [A B]; (split; [exact A|]).
    - destruct (container i) as [[name [| | | | |]]|]; try discriminate B. exists name. reflexivity.
    - destruct B as [name ->]. reflexivity. }
  assert (forall c, generator container c = true <-> is_a container GeneratorSet c) as GG.
  { intros c. unfold generator, is_a. split; [|intros [name ->]; reflexivity]. destruct (container c) as [[name [| | | | |]]|]; try discriminate. exists name. reflexivity. }
  assert (forall i x, In x (consumers_shown regs container i) <-> In (x, Some i) regs \/ exists c, In (c, Some i) regs /\ is_a container GeneratorSet c /\ In (x, Some c) regs) as CS.
  { intros i x. unfold consumers_shown. rewrite in_flat_map. split.
    - intros (c & C & [<-|J]); [left; apply children_in; exact C|]. destruct (generator container c) eqn:G; [|destruct J]. right. exists c. apply children_in in C. apply children_in in J. apply GG in G. auto.
    - intros [J|(c & C & G & J)]; [exists x; split; [apply children_in; exact J|left; reflexivity]|]. exists c. split; [apply children_in; exact C|]. right. apply GG in G. rewrite G. apply children_in. exact J. }
  assert (forall k k' id, is_a container k id -> is_a container k' id -> k = k') as KU by apply kind_unique.
  assert (forall x c, In (x, Some c) regs -> is_a container Installation c -> is_a container GeneratorSet x \/ (exists e, is_a container (FuelConsumer e) x) \/ is_a container VentingEmitter x) as K1.
  { intros x c J K. destruct (L x c J) as [[P _]|[[_ P]|[P _]]]; [discriminate (KU _ _ _ K P)|exact P|discriminate (KU _ _ _ K P)]. }
  assert (forall x c, In (x, Some c) regs -> is_a container GeneratorSet c -> exists e, is_a container (ElectricityConsumer e) x) as K2.
  { intros x c J K. destruct (L x c J) as [[P _]|[[P _]|[_ P]]]; [discriminate (KU _ _ _ K P)|discriminate (KU _ _ _ K P)|exact P]. }
  assert (forall x c, In (x, Some c) regs -> is_a container Installation c -> is_a container Installation x -> False) as K3.
  { intros x c J K X. destruct (K1 x c J K) as [P|[[e P]|P]]; discriminate (KU _ _ _ X P). }
  assert (forall x c, In (x, Some c) regs -> is_a container GeneratorSet c -> is_a container Installation x -> False) as K4.
  { intros x c J K X. destruct (K2 x c J K) as [e P]. discriminate (KU _ _ _ X P). }
  split.
  - apply NoDup_flat.
    + apply NoDup_filter. exact (proj1 H).
    + intros i J. apply II in J as [J K]. constructor.
      * rewrite CS. intros [X|(c & C & G & X)]; [exact (K3 i i X K K)|exact (K4 i c X G K)].
      * unfold consumers_shown. apply NoDup_flat; [apply children_nodup; exact H| |].
        { intros c C. apply children_in in C. destruct (generator container c) eqn:G; [|repeat constructor; intros []]. apply GG in G. constructor; [|apply children_nodup; exact H]. intros X. apply children_in in X. destruct (K2 c c X G) as [e P]. discriminate (KU _ _ _ G P). }
        { intros a b x A B X Y. apply children_in in A. apply children_in in B. assert (forall c, In x (if generator container c then children_of regs c else []) -> is_a container GeneratorSet c /\ In (x, Some c) regs) as Q.
          { intros c J'. destruct (generator container c) eqn:G; [|destruct J']. apply GG in G. apply children_in in J'. auto. }
          destruct X as [<-|X], Y as [Y|Y]; [congruence| | |].
          - apply Q in Y as [Gb Y]. exfalso. pose proof (PU _ _ _ A Y) as Z. subst b. discriminate (KU _ _ _ K Gb).
          - subst b. apply Q in X as [Ga X]. pose proof (PU _ _ _ B X) as Z. subst a. discriminate (KU _ _ _ K Ga).
          - apply Q in X as [Ga X]. apply Q in Y as [Gb Y]. exact (PU _ _ _ X Y). }
    + intros a b x A B X Y. apply II in A as [_ A]. apply II in B as [_ B].
      assert (forall i, is_a container Installation i -> In x (i :: consumers_shown regs container i) -> x = i \/ (In (x, Some i) regs \/ exists c, In (c, Some i) regs /\ is_a container GeneratorSet c /\ In (x, Some c) regs)) as Q by (intros i _ [<-|J]; [auto|right; apply CS; exact J]).
      apply (Q a A) in X. apply (Q b B) in Y. destruct X as [->|[X|(c & C & G & X)]], Y as [Y|[Y|(c' & C' & G' & Y)]].
      * exact Y.
      * exfalso. exact (K3 a b Y B A).
      * exfalso. exact (K4 a c' Y G' A).
      * subst b. exfalso. exact (K3 x a X A B).
      * exact (PU _ _ _ X Y).
      * pose proof (PU _ _ _ X Y) as Z. subst c'. discriminate (KU _ _ _ A G').
      * subst b. exfalso. exact (K4 x c X G B).
      * pose proof (PU _ _ _ X Y) as Z. subst c. discriminate (KU _ _ _ B G).
      * pose proof (PU _ _ _ X Y) as Z. subst c'. exact (PU _ _ _ C C').
  - intros id. rewrite in_flat_map. split.
    + intros (i & I & J). apply II in I as [I K]. destruct J as [<-|J]; [split; [exact I|intros X; discriminate (KU _ _ _ K X)]|]. apply CS in J. destruct J as [J|(c & C & G & J)].
      * split; [exact (reg_in regs _ _ J)|]. intros X. destruct (K1 id i J K) as [P|[[e P]|P]]; discriminate (KU _ _ _ X P).
      * split; [exact (reg_in regs _ _ J)|]. intros X. destruct (K2 id c J G) as [e P]. discriminate (KU _ _ _ X P).
    + intros [I N]. apply in_map_iff in I as ([c p] & E & I). cbn in E. subst c. destruct p as [p|]; [|exfalso; apply N; exact (LA id I)].
      assert (forall q, In (id, Some q) regs -> is_a container Installation q -> exists i, In i (installations regs container) /\ In id (i :: consumers_shown regs container i)) as Q1.
      { intros q J K. exists q. split; [apply II; split; [apply (proj2 H id); exact J|exact K]|]. right. apply CS. left. exact J. }
      destruct (L id p I) as [[_ K]|[[K _]|[K _]]].
      * exists id. split; [apply II; split; [exact (reg_in regs _ _ I)|exact K]|left; reflexivity].
      * exact (Q1 p I K).
      * assert (In p (map fst regs)) as P by (apply (proj2 H id); exact I). apply in_map_iff in P as ([c q] & E & P). cbn in E. subst c. destruct q as [q|]; [|discriminate (KU _ _ _ K (LA p P))].
        destruct (L p q P) as [[_ X]|[[X _]|[_ [e X]]]]; [discriminate (KU _ _ _ K X)| |discriminate (KU _ _ _ K X)].
        exists q. split; [apply II; split; [apply (proj2 H p); exact P|exact X]|]. right. apply CS. right. exists p. auto.
Qed.

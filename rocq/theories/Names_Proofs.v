(** Names: proofs for C124. *)
From Coq Require Import String PeanoNat.
From Verif Require Import Base BaseLemmas Names_Model Names_Spec.
Local Open Scope string_scope.
Local Open Scope list_scope.

Lemma mem_In : forall x l, mem x l = true <-> In x l.
Proof.
  intros x l. unfold mem. rewrite existsb_exists. split.
  - intros (y & H & E). apply String.eqb_eq in E. now subst.
  - intros H. exists x. split; [exact H|apply String.eqb_refl].
Qed.
Lemma mem_not : forall x l, mem x l = false <-> ~ In x l.
Proof. intros. rewrite <- mem_In. destruct (mem x l); intuition congruence. Qed.
Lemma add_In : forall x y l, In y (add_to_set x l) <-> y = x \/ In y l.
Proof.
  intros. unfold add_to_set. destruct (mem x l) eqn:E.
  - apply mem_In in E. intuition (subst; auto).
  - rewrite in_app_iff. cbn. intuition congruence.
Qed.
Lemma add_NoDup : forall x l, NoDup l -> NoDup (add_to_set x l).
Proof.
  intros. unfold add_to_set. destruct (mem x l) eqn:E; [assumption|]. apply mem_not in E.
  apply NoDup_Add with (a := x) (l := l); [|tauto]. replace l with (l ++ []) at 1 by apply app_nil_r. apply Add_app.
Qed.

Notation occ := (count_occ string_dec).
Lemma step_inv : forall names seen dups pre,
  (forall x, In x seen <-> In x pre) -> (forall x, In x dups <-> (2 <= occ pre x)%nat) -> NoDup dups ->
  let st := fold_left duplicates_step names (seen, dups) in
  (forall x, In x (snd st) <-> (2 <= occ (pre ++ names) x)%nat) /\ NoDup (snd st).
Proof.
  induction names as [|n names IH]; intros seen dups pre S D N.
  - cbn. rewrite app_nil_r. tauto.
  - cbn [fold_left]. replace (pre ++ n :: names) with ((pre ++ [n]) ++ names) by now rewrite <- app_assoc.
    destruct (mem n seen) eqn:E.
    + replace (duplicates_step (seen, dups) n) with (seen, add_to_set n dups) by (unfold duplicates_step; now rewrite E).
      apply mem_In in E. apply IH.
      * intro x. rewrite in_app_iff, <- S. cbn. intuition (subst; auto).
      * intro x. rewrite add_In, D, count_occ_app. cbn.
        assert (P : (1 <= occ pre n)%nat) by (apply count_occ_In, S, E).
        destruct (string_dec n x) as [->|Q]; [|intuition (subst; try congruence; lia)]. split; intros; [lia|now left].
      * now apply add_NoDup.
    + replace (duplicates_step (seen, dups) n) with (add_to_set n seen, dups) by (unfold duplicates_step; now rewrite E).
      apply mem_not in E. apply IH.
      * intro x. rewrite add_In, in_app_iff, S. cbn. intuition.
      * intro x. rewrite D, count_occ_app. cbn.
        assert (P : occ pre n = 0%nat) by (apply count_occ_not_In; rewrite <- S; exact E).
        destruct (string_dec n x) as [<-|Q]; lia.
      * exact N.
Qed.

Lemma duplicates_proof : forall names,
  NoDup (get_duplicates names) /\ forall n, In n (get_duplicates names) <-> (2 <= count_occ string_dec names n)%nat.
Proof.
  intro names. destruct (step_inv names [] [] []) as (A & B); [tauto| |constructor|].
  { intro x. cbn. lia. }
  split; [exact B|exact A].
Qed.

Lemma refuse_duplicates_ok : forall names, refuse_duplicates names = Ok tt <-> NoDup names.
Proof.
  intro names. destruct (duplicates_proof names) as (_ & D). unfold refuse_duplicates.
  rewrite (NoDup_count_occ string_dec). destruct (get_duplicates names) as [|d ds] eqn:E.
  - split; [|reflexivity]. intros _ x. destruct (Nat.le_gt_cases 2 (occ names x)) as [H|H]; [|lia]. apply D in H. destruct H.
  - split; [discriminate|]. intros H. specialize (H d). assert (2 <= occ names d)%nat by (apply D; now left). lia.
Qed.
Lemma refuse_duplicates_err : forall names, refuse_duplicates names <> Ok tt -> refuse_duplicates names = Err ValueError.
Proof. intros names. unfold refuse_duplicates. destruct (get_duplicates names); congruence. Qed.

Lemma lists_proof : forall names,
  (validate_unique_time_series_names names = Ok tt <-> NoDup names) /\ (ensure_unique_emission_names names = Ok tt <-> NoDup names) /\
  (assert_unique_names names = Ok tt <-> NoDup names).
Proof.
  intro names. split; [apply refuse_duplicates_ok|]. split; [apply refuse_duplicates_ok|].
  unfold assert_unique_names, set_of.
  assert (G : forall l s, NoDup s -> let f := fold_left (fun s n => add_to_set n s) l s in
     NoDup f /\ (length f <= length s + length l)%nat /\ (forall x, In x f <-> In x s \/ In x l) /\
     (length f = length s + length l -> NoDup (s ++ l))%nat).
  { induction l as [|n l IH]; intros s N.
    - cbn. rewrite Nat.add_0_r, app_nil_r. intuition.
    - cbn [fold_left]. destruct (IH (add_to_set n s) (add_NoDup n s N)) as (A & B & C & D).
      split; [exact A|]. assert (L : (length (add_to_set n s) <= S (length s))%nat) by (unfold add_to_set; destruct (mem n s); rewrite ?app_length; cbn; lia).
      split; [cbn [length]; lia|]. split; [intro x; rewrite C, add_In; cbn; intuition|].
      intros E. cbn [length] in E. unfold add_to_set in *. destruct (mem n s) eqn:M; [lia|].
      rewrite app_length in D. cbn [length] in D. rewrite <- app_assoc in D. apply D. rewrite app_length in B. cbn [length] in B. lia. }
  destruct (G names [] (NoDup_nil _)) as (A & B & C & D). cbn [length app] in *.
  destruct (Nat.eqb_spec (length names) (length (fold_left (fun s n => add_to_set n s) names []))) as [E|E].
  - split; [intros _; apply D; cbn; lia|reflexivity].
  - split; [discriminate|]. intros N. exfalso. apply E. apply Nat.le_antisymm; [|cbn in B; lia].
    apply NoDup_incl_length; [exact N|]. intros x H. apply C. now right.
Qed.

(** Distinct names of distinct places. *)
Lemma NoDup_tagged : forall A B (L : list (A * B)), NoDup (map snd L) ->
  (NoDup (map fst L) <-> forall a b b', In (a, b) L -> In (a, b') L -> b = b').
Proof.
  induction L as [|[a b] L IH]; cbn; intros N.
  - split; [intros _ ? ? ? []|constructor].
  - inversion N as [|? ? N1 N2]; subst. specialize (IH N2). split.
    + intros M. inversion M as [|? ? M1 M2]; subst. pose proof (proj1 IH M2) as K.
      intros x y y' P Q. destruct P as [P|P]; destruct Q as [Q|Q].
      * congruence.
      * injection P as <- <-. exfalso. apply M1. apply (in_map fst) in Q. exact Q.
      * injection Q as <- <-. exfalso. apply M1. apply (in_map fst) in P. exact P.
      * eapply K; eassumption.
    + intros H. constructor.
      * intros I. apply in_map_iff in I as ([a' b'] & E & I). cbn in E. subst a'.
        assert (b = b') by (apply (H a); [now left|now right]). subst. apply N1. now apply (in_map snd) in I.
      * apply IH. intros x y y' P Q. apply (H x); now right.
Qed.
Lemma NoDup_flat_map : forall A B (f : A -> list B) l,
  NoDup l -> (forall x, In x l -> NoDup (f x)) -> (forall x y z, In x l -> In y l -> In z (f x) -> In z (f y) -> x = y) -> NoDup (flat_map f l).
Proof.
  induction l as [|a l IH]; cbn; intros N F D; [constructor|]. inversion N as [|? ? N1 N2]; subst.
  assert (G : NoDup (flat_map f l)) by (apply IH; [assumption|intros; apply F; now right|intros x y z P Q; apply D; now right]).
  clear IH. assert (H : NoDup (f a)) by (apply F; now left).
  assert (K : forall z, In z (f a) -> ~ In z (flat_map f l)).
  { intros z P Q. apply in_flat_map in Q as (y & Y & Z). apply N1. rewrite (D a y z); auto. }
  revert H K. generalize (f a). induction l0 as [|z zs IHz]; cbn; intros H K; [exact G|].
  inversion H; subst. constructor; [rewrite in_app_iff; intros [P|P]; [contradiction|apply (K z); auto]|]. apply IHz; auto.
Qed.
Lemma NoDup_app_l : forall A (l m : list A), NoDup l -> NoDup m -> (forall x, In x l -> ~ In x m) -> NoDup (l ++ m).
Proof.
  induction l as [|a l IH]; cbn; intros m N M D; [exact M|]. inversion N; subst. constructor.
  - rewrite in_app_iff. intros [P|P]; [contradiction|apply (D a); auto].
  - apply IH; auto.
Qed.

Lemma enumerate_map : forall A (l : list A), map snd (enumerate l) = l.
Proof.
  intros A l. unfold enumerate. generalize 0%nat. induction l as [|a l IH]; intros n; [reflexivity|]. cbn. now rewrite IH.
Qed.
Lemma enumerate_fst : forall A (l : list A), map fst (enumerate l) = seq 0 (length l).
Proof.
  intros A l. unfold enumerate. generalize 0%nat. induction l as [|a l IH]; intros n; [reflexivity|]. cbn. now rewrite IH.
Qed.
Lemma enumerate_In : forall A (l : list A) i x, In (i, x) (enumerate l) <-> nth_error l i = Some x.
Proof.
  intros A l. unfold enumerate.
  assert (G : forall n i x, In (i, x) (combine (seq n (length l)) l) <-> (n <= i)%nat /\ nth_error l (i - n) = Some x).
  { induction l as [|a l IH]; intros n i x.
    - cbn. split; [intros []|]. intros (_ & H). destruct (i - n)%nat; discriminate.
    - cbn [length seq combine In]. rewrite IH. split.
      + intros [[= <- <-]|(H & E)]; [split; [lia|]; now rewrite Nat.sub_diag|]. split; [lia|].
        replace (i - n)%nat with (S (i - S n)) by lia. exact E.
      + intros (H & E). destruct (Nat.eq_dec n i) as [->|D].
        * rewrite Nat.sub_diag in E. injection E as ->. now left.
        * right. split; [lia|]. replace (i - n)%nat with (S (i - S n)) in E by lia. exact E. }
  intros i x. rewrite G, Nat.sub_0_r. intuition lia.
Qed.
Lemma enumerate_NoDup : forall A (l : list A), NoDup (enumerate l).
Proof. intros. apply (NoDup_map_inv fst). rewrite enumerate_fst. apply seq_NoDup. Qed.
Lemma enumerate_tagged : forall A B (f : nat -> B) (l : list A), (forall i j, f i = f j -> i = j) -> NoDup (map (fun x => f (fst x)) (enumerate l)).
Proof.
  intros A B f l I. rewrite <- (map_map fst f), enumerate_fst. apply FinFun.Injective_map_NoDup; [intros x y; apply I|apply seq_NoDup].
Qed.

(** The names with their places. *)
Definition tagged_generator (i : nat) (x : nat * generator_set) : list (string * place) :=
  (g_name (snd x), PGeneratorSet i (fst x)) :: map (fun y => (c_name (snd y), PElectricityConsumer i (fst x) (fst y))) (enumerate (g_consumers (snd x))).
Definition tagged_installation (x : nat * installation) : list (string * place) :=
  [(i_name (snd x), PInstallation (fst x))]
  ++ map (fun y => (c_name (snd y), PFuelConsumer (fst x) (fst y))) (enumerate (listed (i_fuel_consumers (snd x))))
  ++ flat_map (tagged_generator (fst x)) (enumerate (listed (i_generator_sets (snd x))))
  ++ map (fun y => (snd y, PVentingEmitter (fst x) (fst y))) (enumerate (listed (i_venting_emitters (snd x)))).
Definition tagged (model_name : string) (l : list installation) : list (string * place) :=
  (model_name, PModel) :: flat_map tagged_installation (enumerate l).

Lemma map_flat_map : forall A B C (f : B -> C) (g : A -> list B) l, map f (flat_map g l) = flat_map (fun x => map f (g x)) l.
Proof. induction l as [|a l IH]; cbn; [reflexivity|]. now rewrite map_app, IH. Qed.
Lemma flat_map_snd : forall A B C (g : B -> list C) (l : list (A * B)), flat_map (fun x => g (snd x)) l = flat_map g (map snd l).
Proof. induction l as [|a l IH]; cbn; [reflexivity|]. now rewrite IH. Qed.
Lemma flat_map_ext2 : forall A B (f g : A -> list B) l, (forall x, f x = g x) -> flat_map f l = flat_map g l.
Proof. induction l as [|a l IH]; cbn; intros H; [reflexivity|]. now rewrite H, IH. Qed.

Lemma tagged_names : forall m l, map fst (tagged m l) = m :: flat_map installation_names l.
Proof.
  intros m l. unfold tagged. cbn [map fst]. f_equal. rewrite map_flat_map.
  rewrite (flat_map_ext2 _ _ _ (fun x => installation_names (snd x))).
  - now rewrite flat_map_snd, enumerate_map.
  - intros [i x]. unfold tagged_installation, installation_names. cbn [fst snd]. rewrite !map_app, !map_map. cbn [map fst app snd].
    f_equal. f_equal; [|f_equal].
    + change (map (fun y => c_name (snd y)) (enumerate (or_empty (i_fuel_consumers x))) = map c_name (or_empty (i_fuel_consumers x))).
      now rewrite <- (map_map snd c_name), enumerate_map.
    + rewrite map_flat_map. rewrite (flat_map_ext2 _ _ _ (fun y => g_name (snd y) :: map c_name (g_consumers (snd y)))).
      * rewrite (flat_map_snd _ _ _ (fun g => g_name g :: map c_name (g_consumers g))), enumerate_map. reflexivity.
      * intros [j g]. unfold tagged_generator. cbn [map fst snd]. f_equal. rewrite map_map. cbn [fst].
        now rewrite <- (map_map snd c_name), enumerate_map.
    + change (map (fun y => snd y) (enumerate (or_empty (i_venting_emitters x))) = or_empty (i_venting_emitters x)). apply enumerate_map.
Qed.
Lemma tagged_In : forall m l n p, In (n, p) (tagged m l) <-> name_at m l p = Some n.
Proof.
  intros m l n p. unfold tagged. cbn [In]. rewrite in_flat_map.
  assert (G : forall i x, In (n, p) (tagged_installation (i, x)) <->
     (p = PInstallation i /\ n = i_name x) \/
     (exists j c, p = PFuelConsumer i j /\ nth_error (listed (i_fuel_consumers x)) j = Some c /\ n = c_name c) \/
     (exists j g, nth_error (listed (i_generator_sets x)) j = Some g /\
        ((p = PGeneratorSet i j /\ n = g_name g) \/ exists k c, p = PElectricityConsumer i j k /\ nth_error (g_consumers g) k = Some c /\ n = c_name c)) \/
     (exists j, p = PVentingEmitter i j /\ nth_error (listed (i_venting_emitters x)) j = Some n)).
  { intros i x. unfold tagged_installation. cbn [fst snd]. rewrite !in_app_iff. cbn [In].
    rewrite in_flat_map, !in_map_iff. split.
    - intros [[[= <- <-]|[]]|[([j c] & [= <- <-] & H)|[([j g] & H & K)|([j e] & [= <- <-] & H)]]].
      + now left.
      + right. left. exists j, c. apply enumerate_In in H. auto.
      + right. right. left. apply enumerate_In in H. exists j, g. split; [exact H|].
        destruct K as [[= <- <-]|K]; [now left|]. apply in_map_iff in K as ([k c] & [= <- <-] & K). apply enumerate_In in K.
        right. exists k, c. auto.
      + right. right. right. apply enumerate_In in H. exists j. auto.
    - intros [(-> & ->)|[(j & c & -> & H & ->)|[(j & g & H & K)|(j & -> & H)]]].
      + left. now left.
      + right. left. exists (j, c). split; [reflexivity|]. now apply enumerate_In.
      + right. right. left. exists (j, g). split; [now apply enumerate_In|]. destruct K as [(-> & ->)|(k & c & -> & K & ->)].
        * now left.
        * right. apply in_map_iff. exists (k, c). split; [reflexivity|]. now apply enumerate_In.
      + right. right. right. exists (j, n). split; [reflexivity|]. now apply enumerate_In. }
  split.
  - intros [[= <- <-]|([i x] & H & K)]; [reflexivity|]. apply enumerate_In in H. apply G in K.
    destruct K as [(-> & ->)|[(j & c & -> & E & ->)|[(j & g & E & [(-> & ->)|(k & c & -> & E' & ->)])|(j & -> & E)]]]; cbn; rewrite H, ?E, ?E'; reflexivity.
  - destruct p as [|i|i j|i j|i j k|i j]; cbn.
    + intros [= ->]. now left.
    + destruct (nth_error l i) as [x|] eqn:E; [|discriminate]. intros [= <-]. right. exists (i, x). split; [now apply enumerate_In|].
      apply G. now left.
    + destruct (nth_error l i) as [x|] eqn:E; [|discriminate]. destruct (nth_error _ j) as [c|] eqn:F; [|discriminate]. intros [= <-].
      right. exists (i, x). split; [now apply enumerate_In|]. apply G. right. left. eauto.
    + destruct (nth_error l i) as [x|] eqn:E; [|discriminate]. destruct (nth_error _ j) as [g|] eqn:F; [|discriminate]. intros [= <-].
      right. exists (i, x). split; [now apply enumerate_In|]. apply G. right. right. left. eauto 6.
    + destruct (nth_error l i) as [x|] eqn:E; [|discriminate]. destruct (nth_error _ j) as [g|] eqn:F; [|discriminate].
      destruct (nth_error _ k) as [c|] eqn:H; [|discriminate]. intros [= <-].
      right. exists (i, x). split; [now apply enumerate_In|]. apply G. right. right. left. exists j, g. split; [exact F|]. right. eauto.
    + destruct (nth_error l i) as [x|] eqn:E; [|discriminate]. intros F.
      right. exists (i, x). split; [now apply enumerate_In|]. apply G. right. right. right. eauto.
Qed.
Lemma tagged_places : forall m l, NoDup (map snd (tagged m l)).
Proof.
  intros m l. unfold tagged. cbn [map snd]. rewrite map_flat_map.
  assert (W : forall x z, In z (map snd (tagged_installation x)) ->
     match z with PModel => False | PInstallation i | PFuelConsumer i _ | PGeneratorSet i _ | PElectricityConsumer i _ _ | PVentingEmitter i _ => i = fst x end).
  { intros [i x] z H. apply in_map_iff in H as ([n p] & <- & H). cbn [snd]. unfold tagged_installation in H. cbn [fst snd] in *.
    rewrite !in_app_iff in H. destruct H as [[[= <- <-]|[]]|[H|[H|H]]].
    - reflexivity.
    - apply in_map_iff in H as (y & [= <- <-] & _). reflexivity.
    - apply in_flat_map in H as (y & _ & [[= <- <-]|H]); [reflexivity|]. apply in_map_iff in H as (k & [= <- <-] & _). reflexivity.
    - apply in_map_iff in H as (y & [= <- <-] & _). reflexivity. }
  constructor.
  { intros H. apply in_flat_map in H as (x & _ & H). apply W in H. exact H. }
  apply NoDup_flat_map.
  - apply enumerate_NoDup.
  - intros [i x] _. unfold tagged_installation. cbn [fst snd map app]. rewrite !map_app, !map_map. cbn [snd]. rewrite map_flat_map.
    assert (A1 : NoDup (map (fun y : nat * consumer => PFuelConsumer i (fst y)) (enumerate (listed (i_fuel_consumers x))))) by (apply (enumerate_tagged _ _ (PFuelConsumer i)); congruence).
    assert (A2 : NoDup (map (fun y : nat * string => PVentingEmitter i (fst y)) (enumerate (listed (i_venting_emitters x))))) by (apply (enumerate_tagged _ _ (PVentingEmitter i)); congruence).
    assert (W2 : forall y z, In z (map snd (tagged_generator i y)) -> match z with PGeneratorSet _ j | PElectricityConsumer _ j _ => j = fst y | _ => False end).
    { intros y z H. apply in_map_iff in H as ([n p] & <- & H). cbn [snd]. destruct H as [[= <- <-]|H]; [reflexivity|].
      apply in_map_iff in H as (k & [= <- <-] & _). reflexivity. }
    assert (A3 : NoDup (flat_map (fun y => map snd (tagged_generator i y)) (enumerate (listed (i_generator_sets x))))).
    { apply NoDup_flat_map; [apply enumerate_NoDup| |].
      - intros [j g] _. unfold tagged_generator. cbn [fst snd map]. rewrite map_map. cbn [snd]. constructor.
        + intros H. apply in_map_iff in H as (k & [=] & _).
        + apply (enumerate_tagged _ _ (PElectricityConsumer i j)); congruence.
      - intros [j g] [j' g'] z P Q Z Z'. apply W2 in Z. apply W2 in Z'. cbn [fst] in *.
        assert (j = j') by (destruct z; try contradiction; congruence). subst j'. apply enumerate_In in P, Q. congruence. }
    constructor.
    + rewrite !in_app_iff. intros [H|[H|H]].
      * apply in_map_iff in H as (y & [=] & _).
      * apply in_flat_map in H as (y & _ & H). apply W2 in H. exact H.
      * apply in_map_iff in H as (y & [=] & _).
    + apply NoDup_app_l; [exact A1|apply NoDup_app_l; [exact A3|exact A2|]|].
      * intros z H K. apply in_flat_map in H as (y & _ & H). apply W2 in H. apply in_map_iff in K as (k & <- & _). exact H.
      * intros z H K. apply in_map_iff in H as (y & <- & _). rewrite in_app_iff in K. destruct K as [K|K].
        -- apply in_flat_map in K as (k & _ & K). apply W2 in K. exact K.
        -- apply in_map_iff in K as (k & [=] & _).
  - intros [i x] [i' x'] z P Q Z Z'. apply W in Z. apply W in Z'. cbn [fst] in *.
    assert (i = i') by (destruct z; try contradiction; congruence). subst i'. apply enumerate_In in P, Q. congruence.
Qed.

Lemma components_proof : forall model_name installations, model_name <> "" ->
  (validate_unique_component_names (Some model_name) installations = Ok tt <-> each_name_once model_name installations) /\
  (validate_unique_component_names (Some model_name) installations <> Ok tt ->
   validate_unique_component_names (Some model_name) installations = Err ValueError).
Proof.
  intros m l H. unfold validate_unique_component_names. destruct (String.eqb_spec m ""); [contradiction|].
  split; [|apply refuse_duplicates_err]. rewrite refuse_duplicates_ok, <- tagged_names, (NoDup_tagged _ _ _ (tagged_places m l)).
  unfold each_name_once. setoid_rewrite tagged_In. split; eauto.
Qed.

(** ** References *)

Definition by_key (c : configuration) : list (string * (entity * path)) :=
  map (fun '(i, m) => (m_name m, (EModel m, AtIndex SFacilityInputs i))) (enumerate (facility_inputs c))
  ++ map (fun '(i, m) => (m_name m, (EModel m, AtIndex SModels i))) (enumerate (models c))
  ++ map (fun '(i, f) => (n_name f, (EFuel f, AtIndex SFuelTypes i))) (enumerate (fuel_types c))
  ++ map (fun '(k, p) => (k, (EPipeline p, AtKey SProcessPipelines k))) (process_pipelines c)
  ++ map (fun '(k, u) => (k, (EUnit u, AtKey SProcessUnits k))) (process_units c)
  ++ map (fun '(k, f) => (k, (EFluidDefinition f, AtKey SFluids k))) (fluids c)
  ++ map (fun '(i, s) => (n_name s, (ESimulation s, AtIndex SProcessSimulations i))) (enumerate (process_simulations c))
  ++ map (fun '(i, s) => (n_name s, (EPumpSimulation s, AtIndex SPumpProcessSimulations i))) (enumerate (pump_process_simulations c))
  ++ map (fun '(k, m) => (k, (EModel m, AtKey SFluidModels k))) (fluid_models c)
  ++ map (fun '(k, s) => (k, (EStream s, AtKey SInletStreams k))) (inlet_streams c).

Lemma enumerated_names : forall A B (l : list A) (f : A -> string) (g : nat -> A -> B),
  map fst (map (fun '(i, x) => (f x, g i x)) (enumerate l)) = map f l.
Proof.
  intros. rewrite map_map. rewrite <- (enumerate_map _ l) at 2. rewrite map_map. apply map_ext. intros [i x]. reflexivity.
Qed.
Lemma keyed_names : forall A B (l : list (string * A)) (g : string -> A -> B), map fst (map (fun '(k, x) => (k, g k x)) l) = map fst l.
Proof. intros. rewrite map_map. apply map_ext. intros [i x]. reflexivity. Qed.
Lemma by_key_names : forall c, map fst (by_key c) = references_checked c.
Proof.
  intros c. unfold by_key, references_checked. rewrite !map_app.
  rewrite (enumerated_names _ _ _ m_name (fun i m => (EModel m, AtIndex SFacilityInputs i))),
    (enumerated_names _ _ _ m_name (fun i m => (EModel m, AtIndex SModels i))),
    (enumerated_names _ _ _ n_name (fun i f => (EFuel f, AtIndex SFuelTypes i))),
    (enumerated_names _ _ _ n_name (fun i f => (ESimulation f, AtIndex SProcessSimulations i))),
    (enumerated_names _ _ _ n_name (fun i f => (EPumpSimulation f, AtIndex SPumpProcessSimulations i))),
    (keyed_names _ _ _ (fun k p => (EPipeline p, AtKey SProcessPipelines k))), (keyed_names _ _ _ (fun k p => (EUnit p, AtKey SProcessUnits k))),
    (keyed_names _ _ _ (fun k p => (EFluidDefinition p, AtKey SFluids k))), (keyed_names _ _ _ (fun k p => (EModel p, AtKey SFluidModels k))),
    (keyed_names _ _ _ (fun k p => (EStream p, AtKey SInletStreams k))). reflexivity.
Qed.
Lemma in_enumerated : forall A B (l : list A) (f : A -> string) (g : nat -> A -> B) n z,
  In (n, z) (map (fun '(i, x) => (f x, g i x)) (enumerate l)) <-> exists i x, nth_error l i = Some x /\ n = f x /\ z = g i x.
Proof.
  intros. rewrite in_map_iff. split.
  - intros ([i x] & [= <- <-] & H). apply enumerate_In in H. eauto.
  - intros (i & x & H & -> & ->). exists (i, x). split; [reflexivity|]. now apply enumerate_In.
Qed.
Lemma in_keyed : forall A B (l : list (string * A)) (g : string -> A -> B) n z,
  In (n, z) (map (fun '(k, x) => (k, g k x)) l) <-> exists x, In (n, x) l /\ z = g n x.
Proof.
  intros. rewrite in_map_iff. split.
  - intros ([i x] & [= <- <-] & H). eauto.
  - intros (x & H & ->). exists (n, x). auto.
Qed.
Lemma by_key_In : forall c n e p, In (n, (e, p)) (by_key c) <-> defined c n e p.
Proof.
  intros c n e p. unfold by_key. rewrite !in_app_iff.
  rewrite (in_enumerated _ _ _ m_name (fun i m => (EModel m, AtIndex SFacilityInputs i))),
    (in_enumerated _ _ _ m_name (fun i m => (EModel m, AtIndex SModels i))),
    (in_enumerated _ _ _ n_name (fun i f => (EFuel f, AtIndex SFuelTypes i))),
    (in_enumerated _ _ _ n_name (fun i f => (ESimulation f, AtIndex SProcessSimulations i))),
    (in_enumerated _ _ _ n_name (fun i f => (EPumpSimulation f, AtIndex SPumpProcessSimulations i))),
    (in_keyed _ _ _ (fun k p => (EPipeline p, AtKey SProcessPipelines k))), (in_keyed _ _ _ (fun k p => (EUnit p, AtKey SProcessUnits k))),
    (in_keyed _ _ _ (fun k p => (EFluidDefinition p, AtKey SFluids k))), (in_keyed _ _ _ (fun k p => (EModel p, AtKey SFluidModels k))),
    (in_keyed _ _ _ (fun k p => (EStream p, AtKey SInletStreams k))).
  split.
  - intros [(i & x & H & -> & [= -> ->])|[(i & x & H & -> & [= -> ->])|[(i & x & H & -> & [= -> ->])|[(x & H & [= -> ->])|[(x & H & [= -> ->])|
      [(x & H & [= -> ->])|[(i & x & H & -> & [= -> ->])|[(i & x & H & -> & [= -> ->])|[(x & H & [= -> ->])|(x & H & [= -> ->])]]]]]]]]]; constructor; assumption.
  - intros []; eauto 30.
Qed.

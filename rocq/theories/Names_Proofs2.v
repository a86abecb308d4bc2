(** References: proofs for C124 and C125. *)
From Coq Require Import String PeanoNat.
From Verif Require Import Base BaseLemmas Names_Model Names_Spec Names_Proofs.
Local Open Scope string_scope.
Local Open Scope list_scope.

Lemma enumerated_paths : forall A (l : list A) (f : A -> string) (g : A -> entity) s,
  map (fun x => snd (snd x)) (map (fun '(i, x) => (f x, (g x, AtIndex s i))) (enumerate l)) = map (AtIndex s) (seq 0 (length l)).
Proof. intros. rewrite map_map, <- (enumerate_fst _ l), map_map. apply map_ext. intros [i x]. reflexivity. Qed.
Lemma keyed_paths : forall A (l : list (string * A)) (g : A -> entity) s,
  map (fun x : string * (entity * path) => snd (snd x)) (map (fun '(k, x) => (k, (g x, AtKey s k))) l) = map (AtKey s) (map fst l).
Proof. intros. rewrite !map_map. apply map_ext. intros [i x]. reflexivity. Qed.
Definition section_of (p : path) : section_name := match p with AtIndex s _ => s | AtKey s _ => s end.
Lemma index_section : forall s l p, In p (map (AtIndex s) l) -> section_of p = s.
Proof. intros s l p H. apply in_map_iff in H as (i & <- & _). reflexivity. Qed.
Lemma key_section : forall s l p, In p (map (AtKey s) l) -> section_of p = s.
Proof. intros s l p H. apply in_map_iff in H as (i & <- & _). reflexivity. Qed.
Lemma index_NoDup : forall s n, NoDup (map (AtIndex s) (seq 0 n)).
Proof. intros. apply FinFun.Injective_map_NoDup; [intros x y; congruence|apply seq_NoDup]. Qed.
Lemma key_NoDup : forall s l, NoDup l -> NoDup (map (AtKey s) l).
Proof. intros. apply FinFun.Injective_map_NoDup; [intros x y; congruence|assumption]. Qed.
Ltac sections H := match type of H with In _ (map (AtIndex _) _) => apply index_section in H | In _ (map (AtKey _) _) => apply key_section in H end.
Lemma by_key_paths : forall c, dictionaries c -> NoDup (map (fun x => snd (snd x)) (by_key c)).
Proof.
  intros c (D1 & D2 & D3 & D4 & D5). unfold by_key. rewrite !map_app.
  rewrite (enumerated_paths _ _ m_name EModel SFacilityInputs), (enumerated_paths _ _ m_name EModel SModels),
    (enumerated_paths _ _ n_name EFuel), (enumerated_paths _ _ n_name ESimulation), (enumerated_paths _ _ n_name EPumpSimulation),
    (keyed_paths _ _ EPipeline), (keyed_paths _ _ EUnit), (keyed_paths _ _ EFluidDefinition), (keyed_paths _ _ EModel), (keyed_paths _ _ EStream).
  repeat (apply NoDup_app_l; [first [apply index_NoDup|apply key_NoDup; assumption]| |
    intros p H K; rewrite ?in_app_iff in K; sections H; repeat (destruct K as [K|K]; [sections K; congruence|]); sections K; congruence]).
  apply key_NoDup; assumption.
Qed.
Lemma by_key_NoDup : forall c, dictionaries c -> NoDup (map snd (by_key c)).
Proof. intros c D. apply (NoDup_map_inv snd). rewrite map_map. apply by_key_paths, D. Qed.

Lemma references_proof : forall c, dictionaries c ->
  (validate_unique_references c = Ok tt <-> one_definition_each c) /\
  (validate_unique_references c <> Ok tt -> validate_unique_references c = Err ValueError).
Proof.
  intros c D. unfold validate_unique_references. split; [|apply refuse_duplicates_err].
  rewrite refuse_duplicates_ok, <- by_key_names, (NoDup_tagged _ _ _ (by_key_NoDup c D)). unfold one_definition_each. split.
  - intros H n e p e' p' P Q. apply by_key_In in P, Q. specialize (H n _ _ P Q). split; congruence.
  - intros H n [e p] [e' p'] P Q. apply by_key_In in P, Q. destruct (H n e p e' p' P Q). congruence.
Qed.

(** ** What the reference service holds *)

Lemma eqb_iff : forall a b : string, String.eqb a b = true <-> a = b.
Proof. intros. apply String.eqb_eq. Qed.
Lemma fold_set_fresh : forall V (l d : list (string * V)), NoDup (map fst (d ++ l)) ->
  fold_left (fun d '(n, e) => dict_set String.eqb n e d) l d = d ++ l.
Proof.
  induction l as [|[n e] l IH]; intros d N; [now rewrite app_nil_r|]. cbn [fold_left].
  rewrite dict_set_keys_notin.
  - rewrite IH; rewrite <- app_assoc; [reflexivity|exact N].
  - apply eqb_iff.
  - rewrite map_app in N. cbn [map fst] in N. apply NoDup_remove_2 in N. rewrite in_app_iff in N. tauto.
Qed.
Lemma same_names : forall c, named_by_key c ->
  map (fun '(k, s) => (n_name s, (EStream s, AtKey SInletStreams k))) (inlet_streams c) = map (fun '(k, s) => (k, (EStream s, AtKey SInletStreams k))) (inlet_streams c) /\
  map (fun '(k, s) => (n_name s, (EPipeline s, AtKey SProcessPipelines k))) (process_pipelines c) = map (fun '(k, s) => (k, (EPipeline s, AtKey SProcessPipelines k))) (process_pipelines c).
Proof.
  intros c (A & B). split; apply map_ext_in; intros [k s] H; [rewrite (A k s H)|rewrite (B k s H)]; reflexivity.
Qed.
Lemma assignments_perm : forall c, named_by_key c -> Permutation (assignments c) (by_key c).
Proof.
  intros c N. destruct (same_names c N) as (E & F). unfold assignments, by_key. rewrite E, F. clear.
  apply Permutation_app_head. apply Permutation_app_head. apply Permutation_app_head.
  match goal with |- Permutation (?s ++ ?u ++ ?f ++ ?p ++ ?si ++ ?ps ++ ?fm) _ => generalize s, u, f, p, si, ps, fm end.
  intros s u f p si ps fm.
  eapply Permutation_trans; [apply Permutation_app_comm|]. rewrite <- !app_assoc.
  eapply Permutation_trans; [rewrite app_assoc; apply Permutation_app_swap_app|]. rewrite <- !app_assoc. apply Permutation_refl.
Qed.
Lemma service_is : forall c, named_by_key c -> validate_unique_references c = Ok tt ->
  reference_service c = assignments c /\ NoDup (map fst (assignments c)).
Proof.
  intros c N U. assert (D : NoDup (map fst (assignments c))).
  { apply refuse_duplicates_ok in U. rewrite <- by_key_names in U.
    apply (Permutation_NoDup (l := map fst (by_key c))); [|exact U]. apply Permutation_map, Permutation_sym, assignments_perm, N. }
  split; [|exact D]. unfold reference_service. rewrite fold_set_fresh; [reflexivity|exact D].
Qed.
Lemma service_get : forall c n e p, named_by_key c -> validate_unique_references c = Ok tt ->
  dict_get String.eqb n (reference_service c) = Some (e, p) <-> defined c n e p.
Proof.
  intros c n e p N U. destruct (service_is c N U) as (-> & D). rewrite <- by_key_In. split.
  - intros H. apply dict_get_In in H; [|apply eqb_iff]. eapply Permutation_in; [apply assignments_perm, N|exact H].
  - intros H. apply dict_get_NoDup; [apply eqb_iff|exact D|]. eapply Permutation_in; [apply Permutation_sym, assignments_perm, N|exact H].
Qed.

Lemma found_proof : forall c, validate_unique_references c = Ok tt -> named_by_key c -> forall n,
  (forall e p, defined c n e p -> resolve_yaml_reference (reference_service c) n = Ok e /\ get_yaml_path (reference_service c) n = Ok p) /\
  ((forall e p, ~ defined c n e p) ->
   resolve_yaml_reference (reference_service c) n = Err ValidationError /\ get_yaml_path (reference_service c) n = Err KeyError).
Proof.
  intros c U N n. unfold resolve_yaml_reference, get_yaml_path. split.
  - intros e p H. apply (service_get c n e p N U) in H. rewrite H. split; reflexivity.
  - intros H. destruct (dict_get String.eqb n (reference_service c)) as [[e p]|] eqn:E; [|split; reflexivity].
    exfalso. apply (H e p). apply (service_get c n e p N U). exact E.
Qed.

(** ** The models that references are checked against *)

Lemma app_NoDup_r : forall A (l m : list A), NoDup (l ++ m) -> NoDup m.
Proof. induction l as [|a l IH]; cbn; intros m H; [exact H|]. inversion H; subst. now apply IH. Qed.
Lemma app_NoDup_ll : forall A (l m : list A), NoDup (l ++ m) -> NoDup l.
Proof. intros A l m H. eapply app_NoDup_r. eapply Permutation_NoDup; [apply Permutation_app_comm|exact H]. Qed.
Lemma model_names : forall c, validate_unique_references c = Ok tt -> NoDup (map m_name (models c ++ facility_inputs c)).
Proof.
  intros c U. apply refuse_duplicates_ok in U. unfold references_checked in U. rewrite app_assoc in U. apply app_NoDup_ll in U.
  rewrite map_app. eapply Permutation_NoDup; [apply Permutation_app_comm|exact U].
Qed.
Lemma fold_models : forall l (d : list (string * model)),
  fold_left (fun d m => dict_set String.eqb (m_name m) m d) l d = fold_left (fun d '(n, e) => dict_set String.eqb n e d) (map (fun m => (m_name m, m)) l) d.
Proof. induction l as [|m l IH]; intros d; [reflexivity|]. cbn [fold_left map]. apply IH. Qed.
Lemma model_types_get : forall c r m, validate_unique_references c = Ok tt ->
  dict_get String.eqb r (get_model_types c) = Some m <-> model_of c r m.
Proof.
  intros c r m U. unfold get_model_types. rewrite fold_models.
  assert (D : NoDup (map fst (map (fun m => (m_name m, m)) (models c ++ facility_inputs c)))) by (rewrite map_map; cbn [fst]; now apply model_names).
  rewrite fold_set_fresh by exact D. cbn [app]. unfold model_of. split.
  - intros H. apply dict_get_In in H; [|apply eqb_iff]. apply in_map_iff in H as (x & [= <- <-] & H). rewrite in_app_iff in H. tauto.
  - intros (<- & H). apply dict_get_NoDup; [apply eqb_iff|exact D|]. apply in_map_iff. exists m. rewrite in_app_iff. tauto.
Qed.
Lemma model_types_none : forall c r, validate_unique_references c = Ok tt ->
  dict_get String.eqb r (get_model_types c) = None <-> forall m, ~ model_of c r m.
Proof.
  intros c r U. split.
  - intros E m H. apply (model_types_get c r m U) in H. congruence.
  - intros H. destruct (dict_get String.eqb r (get_model_types c)) as [m|] eqn:E; [|reflexivity]. exfalso. apply (H m). now apply model_types_get.
Qed.
Lemma model_of_one : forall c r m m', validate_unique_references c = Ok tt -> model_of c r m -> model_of c r m' -> m = m'.
Proof. intros c r m m' U H K. apply (model_types_get c r _ U) in H, K. congruence. Qed.

Lemma type_eqb_eq : forall a b, type_eqb a b = true <-> a = b.
Proof. intros a b. destruct a, b; cbn; split; congruence. Qed.
Lemma of_types_dec : forall types m, existsb (type_eqb (type_of (m_body m))) types = true <-> of_types types m.
Proof.
  intros types m. unfold of_types. rewrite existsb_exists. split.
  - intros (t & H & E). apply type_eqb_eq in E. now rewrite E.
  - intros H. exists (type_of (m_body m)). split; [exact H|]. now apply type_eqb_eq.
Qed.
Lemma of_types_no : forall types m, existsb (type_eqb (type_of (m_body m))) types = false <-> ~ of_types types m.
Proof. intros. rewrite <- of_types_dec. destruct (existsb _ types); intuition congruence. Qed.
Lemma of_filter : forall types m, of_types (filter (fun t => negb (type_eqb t TWithTurbine)) types) m <-> of_types types m /\ type_of (m_body m) <> TWithTurbine.
Proof.
  intros. unfold of_types. rewrite filter_In. split; intros (A & B); (split; [exact A|]).
  - intros E. rewrite E in B. discriminate.
  - destruct (type_eqb (type_of (m_body m)) TWithTurbine) eqn:E; [|reflexivity]. apply type_eqb_eq in E. contradiction.
Qed.

Lemma checked_proof : forall c types r, validate_unique_references c = Ok tt ->
  match check_field_model_reference types (get_model_types c) r with
  | Accepted => right_reference c types r
  | NotFound => missing_reference c types r
  | WrongType => wrong_reference c types r
  end.
Proof.
  intros c types r U. unfold check_field_model_reference, check_model_reference.
  destruct (dict_get String.eqb r (get_model_types c)) as [m|] eqn:E.
  - apply (model_types_get c r m U) in E. destruct (existsb _ types) eqn:T.
    + apply of_types_dec in T. destruct m as [n b x]. destruct b as [|ct| |sf ss|vf vc|gf gc|ms mt|compressor turbine| | | | |]; try (eexists; split; [exact E|]; split; [exact T|]; intros ? ? D0; discriminate D0).
      destruct (dict_get String.eqb compressor (get_model_types c)) as [k|] eqn:F.
      * apply (model_types_get c _ k U) in F. destruct (existsb _ (filter _ types)) eqn:G.
        -- apply of_types_dec in G. apply of_filter in G as (G & K). exists (mk_model n (CompressorWithTurbine compressor turbine) x).
           split; [exact E|]. split; [exact T|]. intros k0 t0 [= <- <-]. exists k. auto.
        -- apply of_types_no in G. right. exists (mk_model n (CompressorWithTurbine compressor turbine) x), compressor, turbine, k.
           split; [exact E|]. split; [exact T|]. split; [reflexivity|]. split; [exact F|]. rewrite of_filter in G.
           destruct (existsb (type_eqb (type_of (m_body k))) types) eqn:Q.
           ++ apply of_types_dec in Q. right. destruct (type_eqb (type_of (m_body k)) TWithTurbine) eqn:Z; [now apply type_eqb_eq|].
              exfalso. apply G. split; [exact Q|]. intros Y. apply type_eqb_eq in Y. congruence.
           ++ apply of_types_no in Q. now left.
      * pose proof (proj1 (model_types_none c compressor U) F) as F'. right. exists (mk_model n (CompressorWithTurbine compressor turbine) x), compressor, turbine. auto.
    + apply of_types_no in T. left. exists m. auto.
  - left. exact (proj1 (model_types_none c r U) E).
Qed.
(** The three exclude one another, so each answer is given exactly when it is right. *)
Lemma checked_exact_proof : forall c types r, validate_unique_references c = Ok tt ->
  (check_field_model_reference types (get_model_types c) r = Accepted <-> right_reference c types r) /\
  (check_field_model_reference types (get_model_types c) r = NotFound <-> missing_reference c types r) /\
  (check_field_model_reference types (get_model_types c) r = WrongType <-> wrong_reference c types r).
Proof.
  intros c types r U. pose proof (checked_proof c types r U) as H.
  assert (X1 : right_reference c types r -> missing_reference c types r -> False).
  { intros (m & A & B & C) [N|(m' & k & t & A' & B' & C' & N)]; [exact (N m A)|].
    assert (m' = m) by (eapply model_of_one; eassumption). subst m'. destruct (C k t C') as (x & X & _). exact (N x X). }
  assert (X2 : right_reference c types r -> wrong_reference c types r -> False).
  { intros (m & A & B & C) [(m' & A' & N)|(m' & k & t & x & A' & B' & C' & X & N)]; (assert (m' = m) by (eapply model_of_one; eassumption); subst m').
    - contradiction.
    - destruct (C k t C') as (x' & X' & P & Q). assert (x' = x) by (eapply model_of_one; eassumption). subst x'. destruct N; contradiction. }
  assert (X3 : missing_reference c types r -> wrong_reference c types r -> False).
  { intros [M|(m & k & t & A & B & C & M)] [(m' & A' & N)|(m' & k' & t' & x & A' & B' & C' & X & N)].
    - exact (M m' A').
    - exact (M m' A').
    - assert (m' = m) by (eapply model_of_one; eassumption). subst m'. contradiction.
    - assert (m' = m) by (eapply model_of_one; eassumption). subst m'. assert (k' = k) by congruence. subst k'. exact (M x X). }
  destruct (check_field_model_reference types (get_model_types c) r); repeat split; intros; auto; try discriminate; exfalso; eauto.
Qed.

(** Proofs about comparing results: whole models. *)
From Coq Require Import String PeanoNat.
From Verif Require Import QcTac Base BaseLemmas Num Input_Proofs System_Proofs3 Time_Model Time_Spec Time_Proofs Time_Proofs2 Simple_Model Simple_Spec Simple_Proofs Simple_Proofs2.
Local Open Scope list_scope.


Lemma taken_nth : forall A is (vs vs' : list A) k y, taken is vs vs' -> nth_error is k = Some y -> exists w, nth_error vs' k = Some w /\ nth_error vs y = Some w.
Proof. intros A is vs vs' k y F. revert k. induction F as [|a b l m R F IH]; intros [|k] E; try discriminate; cbn in E; [injection E as <-; exists b; auto|]. exact (IH k E). Qed.
Lemma taken_length : forall A is (vs vs' : list A), taken is vs vs' -> List.length vs' = List.length is.
Proof. intros A is vs vs' F. induction F; cbn; auto. Qed.

(** which period of the source each period of the target lies in *)
Definition inside (ps T : list period) (is : list nat) : Prop :=
  List.length is = List.length T /\
  forall j x, nth_error is j = Some x -> exists q u, nth_error ps x = Some q /\ nth_error T j = Some u /\ p_start q <= p_start u /\ p_end u <= p_end q.

Lemma taken_value_back : forall A ps T is (vs vs' : list A) d v, inside ps T is -> taken is vs vs' -> value_on T vs' d v -> value_on ps vs d v.
Proof.
  intros A ps T is vs vs' d v [L H] F (j & u & Eu & Du & Ev).
  assert (j < List.length is)%nat as Hj. { rewrite L. apply nth_error_Some. congruence. }
  destruct (nth_error is j) as [x|] eqn:Ex; [|apply nth_error_None in Ex; lia].
  destruct (H j x Ex) as (q & u' & Q1 & Q2 & Q3 & Q4). destruct (taken_nth _ _ _ _ _ _ F Ex) as (w & W1 & W2).
  exists x, q. split; [exact Q1|]. split; [unfold In_period in *; assert (u' = u) as -> by congruence; lia|congruence].
Qed.

Lemma fitted_value : forall ps T is c c' q d v, contiguous ps -> contiguous T -> inside ps T is -> fitted is T c c' -> NoDup (map fst (c_emissions c)) -> covers T d ->
  (has_value T c' q d v <-> has_value ps c q d v).
Proof.
  intros ps T is c c' q d v C CT IN F N D. split.
  - intros (vs' & E' & V). destruct (series q c) as [vs|] eqn:E.
    + destruct (fitted_series _ _ _ _ _ _ F N E) as (vs2 & E2 & TK). assert (vs2 = vs') as -> by congruence. exists vs. split; [exact E|]. apply (taken_value_back _ ps T is vs vs'); auto.
    + exfalso. destruct q as [| |n].
      * discriminate.
      * destruct F as (_ & _ & _ & _ & _ & _ & _ & F & _). cbn in E, E'. rewrite E in F. rewrite F in E'. injection E' as <-. destruct V as ([|i] & p & _ & _ & X); discriminate.
      * pose proof (fitted_names _ _ _ _ F) as EN. cbn [series] in E, E'. destruct (find _ (c_emissions c)) eqn:X; [discriminate|]. apply find_no_name in X.
        destruct (find _ (c_emissions c')) as [e|] eqn:Y; [|discriminate]. apply find_some in Y as [Y1 Y2]. apply String.eqb_eq in Y2. apply X. rewrite <- EN, <- Y2. now apply in_map.
  - intros (vs & E & V). destruct (fitted_series _ _ _ _ _ _ F N E) as (vs2 & E2 & TK). exists vs2. split; [exact E2|]. destruct IN as [L H]. apply (taken_value _ ps T is vs vs2 d v); auto.
Qed.

(** ** One side of a pair of normalised components *)
Definition origin (r other : results) (i : component_id) (c0 : component) (ps0 : list period) : Prop :=
  (In c0 (r_components r) /\ id_of c0 = i /\ ps0 = r_periods r) \/
  (~ present r i /\ exists o, In o (r_components other) /\ id_of o = i /\ c0 = create_empty_component o /\ ps0 = r_periods other).

Lemma origin_proper : forall r other i c0 ps0, proper r -> proper other -> origin r other i c0 ps0 ->
  proper_component ps0 c0 /\ contiguous ps0 /\ ps0 <> [] /\ id_of c0 = i.
Proof.
  intros r other i c0 ps0 (R1 & R2 & R3 & _) (O1 & O2 & O3 & _) [(I & E & ->)|(NP & o & I & E & -> & ->)].
  - split; [now apply R3|auto].
  - destruct (empty_proper _ _ (O3 o I)) as [P _]. split; [exact P|auto].
Qed.

Lemma unique_component : forall r c c', proper r -> In c (r_components r) -> In c' (r_components r) -> id_of c = id_of c' -> c = c'.
Proof.
  intros r c c' (_ & _ & _ & N) I I' E. apply In_nth_error in I as [k Ek]. apply In_nth_error in I' as [k' Ek'].
  assert (k = k') as ->; [|congruence]. apply (proj1 (NoDup_nth_error _) N).
  - rewrite map_length. apply nth_error_Some. congruence.
  - rewrite !nth_error_map, Ek, Ek'. cbn. now rewrite E.
Qed.

Lemma zeros_value : forall ps d v, value_on ps (zeros (List.length ps)) d v -> v = Some 0%Qc.
Proof. intros ps d v (i & p & _ & _ & E). apply nth_error_In in E. now apply repeat_spec in E. Qed.
Lemma zeros_on : forall ps d, covers ps d -> value_on ps (zeros (List.length ps)) d (Some 0%Qc).
Proof.
  intros ps d (j & u & E & D). exists j, u. split; [exact E|]. split; [exact D|].
  assert (j < List.length ps)%nat as L by (apply nth_error_Some; congruence).
  destruct (nth_error (zeros (List.length ps)) j) as [w|] eqn:W; [|apply nth_error_None in W; rewrite zeros_length in W; lia].
  apply nth_error_In in W. apply repeat_spec in W. now subst.
Qed.

Lemma side_value : forall r other i c0 ps0 names q d v, proper r -> proper other -> origin r other i c0 ps0 -> NoDup names ->
  (forall n, In n names <-> reported r i (Emission n) \/ reported other i (Emission n)) -> covers ps0 d ->
  (has_value ps0 (add_missing names c0) q d v <-> compared r other i q /\ amount r i q d v).
Proof.
  intros r other i c0 ps0 names q d v PR PO O N NM D. destruct (origin_proper _ _ _ _ _ PR PO O) as (P & C & NE & Ei).
  assert (forall n, In n (map fst (c_emissions c0)) -> reported r i (Emission n) \/ reported other i (Emission n)) as KEYS.
  { intros n I. destruct O as [(I0 & E0 & _)|(_ & o & Io & Eo & E0 & _)].
    - left. destruct (find (fun e => String.eqb (fst e) n) (c_emissions c0)) as [e|] eqn:F; [|apply find_no_name in F; contradiction].
      exists c0, (em_rate (snd e)). cbn [series]. rewrite F. auto.
    - right. destruct PO as (_ & _ & PO & _). destruct (empty_proper _ _ (PO o Io)) as [_ EE]. rewrite E0, EE, map_map in I. cbn in I. rewrite map_id in I.
      destruct (find (fun e => String.eqb (fst e) n) (c_emissions o)) as [e|] eqn:F; [|apply find_no_name in F; contradiction].
      exists o, (em_rate (snd e)). cbn [series]. rewrite F. auto. }
  split.
  - intros (vs & E & V).
    assert (compared r other i q) as K.
    { destruct q as [| |n]; cbn; auto. cbn [series] in E. destruct (find _ _) as [e|] eqn:F; [|discriminate]. apply find_some in F as [F1 F2]. apply String.eqb_eq in F2.
      assert (In n (map fst (c_emissions (add_missing names c0)))) as I by (rewrite <- F2; now apply in_map).
      apply names_after in I as [I|I]; [|now apply NM|exact N]. now apply KEYS. }
    split; [exact K|]. destruct (series q c0) as [vs0|] eqn:E0.
    + rewrite (missing_series _ _ _ _ _ P N E0) in E. injection E as <-. destruct O as [(I0 & Ei0 & ->)|(NP & o & Io & Eo & -> & ->)].
      * apply (A_value _ _ c0); auto. exists vs0. auto.
      * destruct PO as (_ & _ & PO & _). rewrite (empty_series _ _ _ _ (PO o Io) E0) in V. apply zeros_value in V. subst v. now apply A_absent.
    + destruct q as [| |n].
      * discriminate.
      * exfalso. rewrite add_missing_ok in E by exact N. cbn in E, E0. congruence.
      * assert (In n names) as In0 by (apply NM; exact K). rewrite (added_series _ _ _ _ P N E0 In0) in E. injection E as <-. apply zeros_value in V. subst v.
        destruct O as [(I0 & Ei0 & ->)|(NP & _)]; [|now apply A_absent]. apply A_no_emission; [exists c0; auto|].
        intros (c & vs & Ic & Ec & Es). assert (c = c0) as -> by (apply (unique_component r); auto; congruence). congruence.
  - intros [K A]. destruct O as [(I0 & Ei0 & ->)|(NP & o & Io & Eo & -> & ->)].
    + destruct A as [c q d v Ic Ec (vs & Es & V)|q d NP|n d _ NR].
      * assert (c = c0) as -> by (apply (unique_component r); auto; congruence). exists vs. split; [|exact V]. now apply (missing_series (r_periods r)).
      * exfalso. apply NP. exists c0. auto.
      * exists (zeros (List.length (r_periods r))). split; [|now apply zeros_on]. apply added_series; auto; [|now apply NM].
        destruct (series (Emission n) c0) as [vs|] eqn:E0; auto. exfalso. apply NR. exists c0, vs. auto.
    + assert (v = Some 0%Qc) as ->.
      { destruct A as [c q d v Ic Ec _|q d _|n d PR' _]; auto; exfalso; apply NP; exists c; auto. }
      assert (proper_component (r_periods other) o) as Po by (destruct PO as (_ & _ & PO & _); now apply PO). exists (zeros (List.length (r_periods other))). split; [|now apply zeros_on].
      assert (exists vs, series q (create_empty_component o) = Some vs) as [vs Es].
      { destruct q as [| |n]; [cbn; eauto|cbn; eauto|]. destruct K as [(c & _ & Ic & Ec & _)|(c & vs & Ic & Ec & Es)]; [exfalso; apply NP; exists c; auto|].
        assert (c = o) as -> by (apply (unique_component other); auto; congruence).
        destruct (empty_proper _ _ Po) as [P' EE]. apply emission_series in Es as (e & Ie & _); [|now destruct Po as (_ & _ & _ & _ & _ & ? & _)].
        exists (zeros (List.length (r_periods other))). apply emission_series; [now destruct P' as (_ & _ & _ & _ & _ & ? & _)|].
        exists (mkEmission n (zeros (List.length (r_periods other)))). split; [|reflexivity]. rewrite EE. apply in_map_iff. exists n. split; [reflexivity|]. apply in_map_iff. exists (n, e). auto. }
      rewrite (empty_series _ _ _ _ Po Es) in Es. now apply (missing_series (r_periods other)).
Qed.

(** ** Subtracting fitted components *)
Lemma sub_value : forall T a b d w, contiguous T ->
  (value_on T (subtract_list a b) d w <-> exists v1 v2, value_on T a d v1 /\ value_on T b d v2 /\ w = nsub v1 v2).
Proof.
  intros T a b d w C. split.
  - intros (i & p & Ep & Dp & Ew). unfold subtract_list in Ew. rewrite nth_error_map2 in Ew.
    destruct (nth_error a i) as [v1|] eqn:E1; [|discriminate]. destruct (nth_error b i) as [v2|] eqn:E2; [|discriminate]. injection Ew as <-.
    exists v1, v2. split; [exists i, p; auto|]. split; [exists i, p; auto|reflexivity].
  - intros (v1 & v2 & (i & p & Ep & Dp & E1) & (j & q & Eq & Dq & E2) & ->).
    assert (i = j) as -> by (apply (contiguous_unique T d i j p q); auto).
    exists j, p. split; [exact Ep|]. split; [exact Dp|]. unfold subtract_list. rewrite nth_error_map2, E1, E2. reflexivity.
Qed.

Definition keyed (c : component) : Prop := NoDup (map fst (c_emissions c)) /\ forall n e, In (n, e) (c_emissions c) -> em_name e = n.
Lemma fitted_keyed : forall is T c c', fitted is T c c' -> NoDup (map fst (c_emissions c)) -> keyed c'.
Proof.
  intros is T c c' F N. pose proof (fitted_names _ _ _ _ F) as EN. split; [now rewrite EN|]. intros n e I. destruct F as (_ & _ & _ & _ & _ & _ & _ & _ & F).
  destruct (Forall2_in_r _ _ _ _ _ _ F I) as ([n' e'] & _ & Q1 & Q2 & _). cbn in *. congruence.
Qed.

Lemma subtract_ok : forall T x y, contiguous T -> id_of x = id_of y -> c_periods x = T -> c_periods y = T -> keyed x -> keyed y ->
  (forall n, In n (map fst (c_emissions x)) <-> In n (map fst (c_emissions y))) -> (exists p, c_power x = Some p) -> (exists p, c_power y = Some p) ->
  (c_unit x = c_unit y -> exists z, subtract_component x y = Ok z /\ id_of z = id_of x /\ c_periods z = T /\
     c_valid z = map2 (fun a b => if a =? 0 then a else b) (c_valid x) (c_valid y) /\
     c_parent z = (if parent_eqb (c_parent x) (c_parent y) then c_parent x else None) /\ c_unit z = c_unit x /\
     forall q d w, has_value T z q d w <-> exists v1 v2, has_value T x q d v1 /\ has_value T y q d v2 /\ w = nsub v1 v2) /\
  (c_unit x <> c_unit y -> subtract_component x y = Err ValueError).
Proof.
  intros T x y C EI EX EY [NX KX] [NY KY] K [px PX] [py PY]. unfold subtract_component.
  assert (id_eqb (id_of x) (id_of y) = true) as -> by (apply id_eqb_spec; exact EI). rewrite EX, EY, periods_eqb_refl. cbn [negb].
  split.
  - intros EU. rewrite EU, String.eqb_refl. cbn [negb]. rewrite PX, PY. cbn [bind].
    destruct (subtract_emissions_ok (c_emissions x) (c_emissions y) NX NY KX KY K) as (es & E1 & E2 & E3 & _ & N & _ & IN). rewrite E1. cbn [bind]. rewrite E2.
    eexists. split; [reflexivity|]. unfold id_of. cbn [c_type c_name c_periods c_valid c_parent c_unit]. split; [reflexivity|]. split; [reflexivity|]. split; [reflexivity|]. split; [reflexivity|]. split; [reflexivity|].
    intros q d w. set (z := mkComponent _ _ _ _ _ _ es _ _ _). destruct q as [| |n].
    + unfold has_value. cbn [series z c_energy]. split.
      * intros (vs & [= <-] & V). apply sub_value in V as (v1 & v2 & V1 & V2 & ->); [|exact C]. exists v1, v2. split; [eauto|]. split; [eauto|reflexivity].
      * intros (v1 & v2 & (a & [= <-] & V1) & (b & [= <-] & V2) & ->). eexists. split; [reflexivity|]. apply sub_value; [exact C|]. eauto.
    + unfold has_value. cbn [series z c_power]. rewrite PX, PY. split.
      * intros (vs & [= <-] & V). apply sub_value in V as (v1 & v2 & V1 & V2 & ->); [|exact C]. exists v1, v2. split; [eauto|]. split; [eauto|reflexivity].
      * intros (v1 & v2 & (a & [= <-] & V1) & (b & [= <-] & V2) & ->). eexists. split; [reflexivity|]. apply sub_value; [exact C|]. eauto.
    + assert (NoDup (map fst (c_emissions z))) as Nz by exact N. split.
      * intros (vs & E & V). apply emission_series in E as (e & Ie & Ee); [|exact Nz]. subst vs. cbn [z c_emissions] in Ie.
        assert (In n (map fst (c_emissions x))) as Ix.
        { assert (In n (map em_name (sort name_leb (map snd (c_emissions x))))) as Q by (rewrite <- E3; apply in_map_iff; exists (n, e); auto).
          apply in_map_iff in Q as (f & Ef & If). apply (Permutation_in f (Permutation_sym (sort_perm _ name_leb (map snd (c_emissions x))))) in If.
          apply in_map_iff in If as ([n' f'] & Eq & If). cbn in Eq. subst f'. pose proof (KX _ _ If) as Q. assert (n' = n) as -> by congruence. apply in_map_iff. exists (n, f). auto. }
        pose proof (proj1 (K n) Ix) as Iy. apply in_map_iff in Ix as ([n1 e1] & En1 & Ix). cbn in En1. subst n1. apply in_map_iff in Iy as ([n2 e2] & En2 & Iy). cbn in En2. subst n2.
        pose proof (IN n e1 e2 Ix Iy) as Iz. assert (e = mkEmission n (subtract_list (em_rate e1) (em_rate e2))) as ->.
        { assert (Some (n, e) = Some (n, mkEmission n (subtract_list (em_rate e1) (em_rate e2)))) as Q; [|congruence].
          transitivity (find (fun e => String.eqb (fst e) n) es); [symmetry|]; apply find_name; auto. }
        cbn [em_rate] in V. apply sub_value in V as (v1 & v2 & V1 & V2 & ->); [|exact C]. exists v1, v2. split; [|split; [|reflexivity]].
        -- exists (em_rate e1). split; [|exact V1]. apply emission_series; eauto.
        -- exists (em_rate e2). split; [|exact V2]. apply emission_series; eauto.
      * intros (v1 & v2 & (a & Ea & V1) & (b & Eb & V2) & ->). apply emission_series in Ea as (e1 & I1 & <-); [|exact NX]. apply emission_series in Eb as (e2 & I2 & <-); [|exact NY].
        exists (subtract_list (em_rate e1) (em_rate e2)). split; [|apply sub_value; eauto]. apply emission_series; [exact Nz|]. eexists. split; [apply (IN n e1 e2 I1 I2)|reflexivity].
  - intros NU. destruct (String.eqb_spec (c_unit x) (c_unit y)); [contradiction|]. reflexivity.
Qed.

(** Proofs about pump and compressor systems: the description, and the series of a setting. *)
From Coq Require Import PeanoNat String.
From Verif Require Import Attributes_Proofs Attributes_Proofs2 QcTac Num Time_Model Time_Spec Time_Proofs Time_Proofs2 Units_Model Rates_Model Rates_Spec Rates_Proofs Rates_Proofs3 Rates_Proofs4
  Base BaseLemmas Expr_Model Expr_Spec Expr_Proofs Vars_Model Vars_Proofs Input_Model Interp_Model Energy_Model Energy_Proofs Energy_Proofs2 Energy_Proofs3 Export_Proofs2 Emitters_Proofs5 Emitters_Spec
  Consumer_Model Consumer_Spec Consumer_Proofs Consumer_Proofs2 Consumer_Proofs3 Consumer_Proofs4 Consumer_Proofs5 Consumer_Proofs6 Consumer_Proofs7 Consumer_Proofs8 Consumer_Proofs9
  Equipment_Model Equipment_Spec Equipment_Proofs Equipment_Proofs2 Equipment_Proofs3 System_Model System_Spec Systems_Model Systems_Spec.
Local Open Scope list_scope.
Local Open Scope nat_scope.

(** ** The description *)
Lemma bind_ok : forall {A B} (r : result A) (k : A -> result B) y, (do x <- r; k x) = Ok y <-> exists x, r = Ok x /\ k x = Ok y.
Proof. intros A B [x|e] k y; cbn [bind]; split; [intros H; exists x; auto|intros (x' & E & H); injection E as ->; exact H|discriminate|intros (x' & E & _); discriminate]. Qed.
Lemma check_one_ok : forall A B (a : option A) (b : option B), check_one_of a b = Ok tt <-> one_of a b.
Proof.
  intros A B [a|] [b|]; unfold check_one_of, one_of; split; try discriminate; auto; try (intros [[H1 H2]|[H1 H2]]; congruence).
  - intros _. left. split; [discriminate|reflexivity].
  - intros _. right. split; [reflexivity|discriminate].
Qed.
Lemma check_count_ok : forall A count (l : option (list A)), check_count count l = Ok tt <-> right_count count l.
Proof.
  intros A count [l|]; unfold check_count, right_count; [|split; [discriminate|reflexivity]]. destruct (Nat.eqb_spec (List.length l) count) as [E|E]; split; try discriminate; auto.
  - intros _ x Ex. injection Ex as <-. exact E.
  - intros H. exfalso. apply E. now apply H.
Qed.
Lemma mapM_unit : forall {A} (f : A -> result unit) l, (exists r, mapM f l = Ok r) <-> forall x, In x l -> f x = Ok tt.
Proof.
  intros A f l. induction l as [|x l IH].
  - split; [intros _ x []|]. intros _. exists []. reflexivity.
  - cbn [mapM]. split.
    + intros (r & E). apply bind_ok in E as ([] & E1 & E). apply bind_ok in E as (r2 & E2 & _). intros y [<-|I]; [exact E1|]. apply IH; eauto.
    + intros H. rewrite (H x) by now left. cbn [bind]. destruct (proj2 IH) as (r & ->); [intros y I; apply H; now right|]. cbn [bind]. eauto.
Qed.
Lemma names_ok : forall cs, check_names cs = Ok tt <-> NoDup (map c_name cs).
Proof.
  intros cs. unfold check_names. rewrite <- (map_length c_name cs). generalize (map c_name cs). intros l. destruct (Nat.eqb_spec (List.length l) (List.length (nodup string_dec l))) as [E|E]; split; try discriminate; auto.
  - intros _. refine (NoDup_incl_NoDup (NoDup_nodup string_dec l) _ _); [lia|]. intros x I. now apply nodup_In in I.
  - intros ND. exfalso. apply E. now rewrite (nodup_fixed_point string_dec ND).
Qed.
Lemma description_ok : forall m, check_description m = Ok tt <-> well_described m.
Proof.
  intros m. unfold check_description. rewrite bind_ok. split.
  - intros (u1 & E1 & H). apply bind_ok in H as ([] & E2 & H). apply bind_ok in H as (u3 & E3 & _). apply names_ok in E2. rewrite map_map in E2.
    assert (forall s, In s (sy_settings m) -> (do _ <- check_one_of (ss_discharge s) (ss_discharges s); check_one_of (ss_suction s) (ss_suctions s)) = Ok tt) as H1 by (apply mapM_unit; eauto).
    assert (forall s, In s (sy_settings m) -> check_setting m s = Ok tt) as H3 by (apply mapM_unit; eauto). split; [exact E2|]. intros s I.
    specialize (H1 s I). apply bind_ok in H1 as ([] & D & S). apply check_one_ok in D, S. split; [exact S|]. split; [exact D|].
    specialize (H3 s I). unfold check_setting in H3. apply bind_ok in H3 as ([] & R1 & H3). apply bind_ok in H3 as ([] & R2 & H3). apply bind_ok in H3 as ([] & R3 & H3). apply bind_ok in H3 as ([] & R4 & H3).
    apply check_count_ok in R1, R2, R3, R4. repeat (split; [assumption|]). intros P. rewrite P in H3. now apply check_count_ok.
  - intros [ND H]. destruct (proj2 (mapM_unit (fun s => do _ <- check_one_of (ss_discharge s) (ss_discharges s); check_one_of (ss_suction s) (ss_suctions s)) (sy_settings m))) as (u1 & E1).
    { intros s I. destruct (H s I) as (S & D & _). apply check_one_ok in S, D. rewrite D. exact S. }
    exists u1. split; [exact E1|]. rewrite (proj2 (names_ok (map fst (sy_consumers m)))) by (rewrite map_map; exact ND). cbn [bind].
    destruct (proj2 (mapM_unit (check_setting m) (sy_settings m))) as (u3 & E3).
    { intros s I. destruct (H s I) as (_ & _ & R1 & R2 & R3 & R4 & R5). unfold check_setting. apply check_count_ok in R1, R2, R3, R4. rewrite R1, R2, R3, R4. cbn [bind].
      destruct (sy_pumps m); [|reflexivity]. apply check_count_ok. now apply R5. }
    rewrite E3. reflexivity.
Qed.
Lemma bind_errors : forall {A B} (r : result A) (k : A -> result B) err, (forall e, r = Err e -> e = err) -> (forall x e, k x = Err e -> e = err) -> forall e, (do x <- r; k x) = Err e -> e = err.
Proof. intros A B [x|e0] k err H1 H2 e; cbn [bind]; [apply H2|]. intros E. injection E as <-. now apply H1. Qed.
Lemma mapM_errors : forall {A B} (f : A -> result B) err l, (forall x e, f x = Err e -> e = err) -> forall e, mapM f l = Err e -> e = err.
Proof.
  intros A B f err l H. induction l as [|x l IH]; cbn [mapM]; [discriminate|]. apply bind_errors; [apply H|]. intros y. apply bind_errors; [exact IH|discriminate].
Qed.
Lemma one_errors : forall A B (a : option A) (b : option B) e, check_one_of a b = Err e -> e = ValidationError.
Proof. intros A B [a|] [b|] e; cbn; congruence. Qed.
Lemma count_errors : forall A count (l : option (list A)) e, check_count count l = Err e -> e = ValidationError.
Proof. intros A count [l|] e; unfold check_count; [destruct (Nat.eqb _ _); congruence|discriminate]. Qed.
Theorem description_proof : forall m,
  (check_description m = Ok tt <-> well_described m) /\ (~ well_described m -> check_description m = Err ValidationError).
Proof.
  intros m. split; [apply description_ok|]. intros H. destruct (check_description m) as [[]|e] eqn:E; [exfalso; apply H; now apply description_ok|]. f_equal. revert E. unfold check_description.
  apply bind_errors. { apply mapM_errors. intros s. apply bind_errors; [apply one_errors|]. intros _. apply one_errors. } intros _.
  apply bind_errors. { intros e'. unfold check_names. destruct (Nat.eqb _ _); congruence. } intros _.
  apply bind_errors; [|discriminate]. apply mapM_errors. intros s. unfold check_setting. repeat (apply bind_errors; [apply count_errors|]; intros _). intros e'. destruct (sy_pumps m); [apply count_errors|discriminate].
Qed.

(** ** Lists of series *)
Definition grid {A} (count n : nat) (vs : list (list A)) : Prop := List.length vs = count /\ forall l, In l vs -> List.length l = n.
Definition col (k : nat) (vs : list (list Qc)) : list Qc := map (fun l => nth k l 0%Qc) vs.
Lemma mapM_cases : forall {A B} (f : A -> result B) err (P : A -> B -> Prop) xs ys,
  Forall2 (fun x y => (f x = Ok y /\ P x y) \/ (f x = Err err /\ ~ P x y)) xs ys ->
  (mapM f xs = Ok ys /\ Forall2 P xs ys) \/ (mapM f xs = Err err /\ ~ Forall2 P xs ys).
Proof.
  intros A B f err P xs ys F. induction F as [|x y xs ys [[E H]|[E H]] F IH].
  - left. split; [reflexivity|constructor].
  - cbn [mapM]. rewrite E. cbn [bind]. destruct IH as [[-> H2]|[-> H2]]; cbn [bind]; [left|right].
    + split; [reflexivity|]. now constructor.
    + split; [reflexivity|]. intros F'. inversion F'; subst. tauto.
  - right. cbn [mapM]. rewrite E. split; [reflexivity|]. intros F'. inversion F'; subst. tauto.
Qed.
Lemma slice_map2 : forall {A B D} (f : A -> B -> D) a b i j, List.length a = List.length b -> slice i j (map2 f a b) = map2 f (slice i j a) (slice i j b).
Proof.
  intros A B D f a b i j L. apply list_ext_nth. intros k. rewrite nth_error_slice, !nth_error_map2, !nth_error_slice. now destruct (k <? j - i).
Qed.
Lemma slice_repeat : forall {A} (x : A) n i j, i <= j -> j <= n -> slice i j (repeat x n) = repeat x (j - i).
Proof.
  intros A x n i j L1 L2. apply list_ext_nth. intros k. rewrite nth_error_slice. destruct (Nat.ltb_spec k (j - i)) as [L|L].
  - rewrite !nth_error_repeat by lia. reflexivity.
  - symmetry. apply nth_error_None. now rewrite repeat_length.
Qed.

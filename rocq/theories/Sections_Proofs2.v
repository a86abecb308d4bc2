(** Dividing the listed units into sections: C94. *)
From Coq Require Import PeanoNat String.
From Verif Require Import QcTac Base BaseLemmas Num Stream_Model Process_Model Process_Spec Process_Proofs2 Sections_Model Sections_Spec Sections_Proofs.
Local Open Scope list_scope.

Lemma same_name : forall items n m u w, distinct_units items -> named items n u -> named items m w -> fst u = fst w -> n = m.
Proof.
  intros items n m u w Hd Hn Hm E. unfold distinct_units, named, listed, ids in *.
  assert ((Some n, u) = (Some m, w)) as Q; [|injection Q as Q _; exact Q].
  induction items as [|x l IH]; [destruct Hn|]. cbn [map] in Hd. apply NoDup_cons_iff in Hd. destruct Hd as (Hx & Hd).
  destruct Hn as [-> | Hn], Hm as [Hm | Hm]; auto.
  - exfalso. apply Hx. cbn. rewrite E. apply (in_map snd) in Hm. apply (in_map fst) in Hm. exact Hm.
  - exfalso. apply Hx. subst x. cbn. rewrite <- E. apply (in_map snd) in Hn. apply (in_map fst) in Hn. exact Hn.
Qed.
Lemma known_iff : forall items cs, distinct_names items ->
  known (entries items) cs <-> forall c name, In c cs -> co_unit c = Some name -> exists u, named items name u.
Proof.
  intros items cs Hd. split; intros H c n Hc E.
  - specialize (H c n Hc E). destruct (dict_get String.eqb n (entries items)) as [i|] eqn:D; [|contradiction].
    apply entries_found in D. destruct D as (u & Hu & _). eauto.
  - destruct (H c n Hc E) as (u & Hu). rewrite (entries_get items n u Hd Hu). discriminate.
Qed.
Lemma placed_in : forall items cs i c, In (i, c) (flat_map (placed (entries items)) cs) ->
  In c cs /\ exists n u, co_unit c = Some n /\ named items n u /\ fst u = i.
Proof.
  intros items cs i c H. apply in_flat_map in H. destruct H as (c' & Hc & H). unfold placed in H.
  destruct (co_unit c') as [n|] eqn:E; [|destruct H]. destruct (dict_get String.eqb n (entries items)) as [j|] eqn:D; [|destruct H].
  destruct H as [H|[]]. injection H as -> ->. split; [exact Hc|]. apply entries_found in D. destruct D as (u & Hu & Hi). eauto.
Qed.
Lemma in_placed : forall items cs c n u, distinct_names items -> In c cs -> co_unit c = Some n -> named items n u ->
  In (fst u, c) (flat_map (placed (entries items)) cs).
Proof.
  intros items cs c n u Hd Hc E Hu. apply in_flat_map. exists c. split; [exact Hc|]. unfold placed. rewrite E, (entries_get items n u Hd Hu).
  left. reflexivity.
Qed.
Lemma once_iff : forall items cs, distinct_names items -> distinct_units items -> known (entries items) cs ->
  NoDup (map co_unit cs) <-> NoDup (map fst (flat_map (placed (entries items)) cs)) /\ (List.length (filter unnamed cs) <= 1)%nat.
Proof.
  intros items cs Hn Hu. induction cs as [|c cs IH]; intros Hk.
  - cbn. split; [intros _; split; [constructor|lia]|constructor].
  - assert (known (entries items) cs) as Hk' by (intros c' n' Hc; apply Hk; now right).
    specialize (IH Hk'). cbn [map flat_map filter]. unfold placed at 1, unnamed at 1. rewrite NoDup_cons_iff, IH. destruct (co_unit c) as [n|] eqn:E.
    + pose proof (Hk c n (or_introl eq_refl) E) as K. destruct (dict_get String.eqb n (entries items)) as [i|] eqn:D; [|contradiction].
      apply entries_found in D. destruct D as (u & Hu' & Hi). cbn [app map fst]. rewrite NoDup_cons_iff.
      assert (In (Some n) (map co_unit cs) <-> In i (map fst (flat_map (placed (entries items)) cs))) as Q; [|tauto].
      split; intros H; apply in_map_iff in H.
      * destruct H as (c' & E' & Hc'). subst i. change (fst u) with (fst (fst u, c')). apply in_map. eapply in_placed; eauto.
      * destruct H as ((j & c') & Hj & H). cbn in Hj. subst j. apply placed_in in H. destruct H as (Hc' & m & w & E' & Hw & Hi').
        assert (n = m) as -> by (eapply same_name; [exact Hu|exact Hu'|exact Hw|congruence]). apply in_map_iff. eauto.
    + cbn [app map List.length]. assert (In None (map co_unit cs) <-> (1 <= List.length (filter unnamed cs))%nat) as Q; [|split; [intros (H1 & H2 & H3); split; [exact H2|]; assert (~ (1 <= List.length (filter unnamed cs))%nat) by tauto; lia
        |intros (H1 & H2); split; [intros P; apply Q in P; lia|split; [exact H1|lia]]]].
      split; intros H.
      * apply in_map_iff in H. destruct H as (c' & E' & Hc'). assert (In c' (filter unnamed cs)) as F by (apply filter_In; split; [exact Hc'|unfold unnamed; now rewrite E']).
        destruct (filter unnamed cs); [destruct F|cbn; lia].
      * destruct (filter unnamed cs) as [|c' l] eqn:F; [cbn in H; lia|]. assert (In c' (filter unnamed cs)) as G by (rewrite F; now left).
        apply filter_In in G. destruct G as (Hc' & G). unfold unnamed in G. apply in_map_iff. exists c'. split; [|exact Hc'].
        destruct (co_unit c'); [discriminate|reflexivity].
Qed.

Definition bu_of (items : list item) (cs : list constraint) := flat_map (placed (entries items)) cs.
Lemma at_none : forall items cs u, distinct_names items -> distinct_units items -> In u (listed items) ->
  dict_get Nat.eqb (fst u) (bu_of items cs) = None <-> ~ constrained items cs u.
Proof.
  intros items cs u Hn Hu Hin. split.
  - intros H (c & n & Hc & E & Hnm). apply dict_get_None in H; [|exact neqb_eq]. apply H.
    change (fst u) with (fst (fst u, c)). apply in_map. eapply in_placed; eauto.
  - intros H. destruct (dict_get Nat.eqb (fst u) (bu_of items cs)) as [c|] eqn:E; [|reflexivity]. exfalso. apply H.
    apply dict_get_In in E; [|exact neqb_eq]. apply placed_in in E. destruct E as (Hc & n & w & E & Hw & Hi).
    exists c, n. split; [exact Hc|]. split; [exact E|].
    rewrite <- (same_unit items w u Hu (named_listed _ _ _ Hw) Hin Hi). exact Hw.
Qed.
Lemma at_some : forall items cs u c, distinct_units items -> In u (listed items) ->
  dict_get Nat.eqb (fst u) (bu_of items cs) = Some c -> In c cs /\ exists n, co_unit c = Some n /\ named items n u.
Proof.
  intros items cs u c Hu Hin E. apply dict_get_In in E; [|exact neqb_eq]. apply placed_in in E. destruct E as (Hc & n & w & E & Hw & Hi).
  split; [exact Hc|]. exists n. split; [exact E|]. rewrite <- (same_unit items w u Hu (named_listed _ _ _ Hw) Hin Hi). exact Hw.
Qed.

(** Every constraint with a unit is at one of the units *)
Lemma filter_split : forall A (f : A -> bool) l, Permutation (filter (fun x => negb (f x)) l ++ filter f l) l.
Proof.
  intros A f l. induction l as [|a l IH]; [constructor|]. cbn [filter]. destruct (f a); cbn [negb app].
  - rewrite <- Permutation_middle. now constructor.
  - now constructor.
Qed.
Lemma placed_snd : forall names cs, known names cs -> map snd (flat_map (placed names) cs) = filter (fun c => negb (unnamed c)) cs.
Proof.
  intros names. induction cs as [|c cs IH]; intros Hk; [reflexivity|]. cbn [flat_map filter]. rewrite map_app, IH by (intros c' n' Hc; apply Hk; now right).
  unfold placed at 1, unnamed at 2. destruct (co_unit c) as [n|] eqn:E; [|reflexivity].
  specialize (Hk c n (or_introl eq_refl) E). destruct (dict_get String.eqb n names); [reflexivity|contradiction].
Qed.
Lemma at_unit_fst : forall bu us x, In x (map fst (flat_map (at_unit bu) us)) -> In x (ids us).
Proof.
  intros bu us x H. apply in_map_iff in H. destruct H as ((i & c) & <- & H). apply in_flat_map in H. destruct H as (u & Hu & H).
  unfold at_unit in H. destruct (dict_get Nat.eqb (fst u) bu); [|destruct H]. destruct H as [H|[]]. injection H as <- <-. cbn [fst]. apply (in_map fst us u Hu).
Qed.
Lemma at_unit_nodup : forall bu us, NoDup (ids us) -> NoDup (map fst (flat_map (at_unit bu) us)).
Proof.
  intros bu us. induction us as [|u us IH]; intros H; [constructor|]. cbn [ids map flat_map] in *. apply NoDup_cons_iff in H. destruct H as (Hu & H).
  rewrite map_app. unfold at_unit at 1. destruct (dict_get Nat.eqb (fst u) bu); cbn [map app]; [|auto].
  constructor; [|auto]. cbn. intros Hin. apply Hu. apply at_unit_fst in Hin. exact Hin.
Qed.
Lemma nodup_map_inv : forall A B (f : A -> B) l, NoDup (map f l) -> NoDup l.
Proof. intros A B f l H. apply NoDup_map_inv with (f := f). exact H. Qed.
Lemma at_units : forall items cs, distinct_units items -> NoDup (map fst (bu_of items cs)) ->
  Permutation (flat_map (at_unit (bu_of items cs)) (listed items)) (bu_of items cs).
Proof.
  intros items cs Hu Hb. apply NoDup_Permutation.
  - apply nodup_map_inv with (f := fst). now apply at_unit_nodup.
  - apply nodup_map_inv with (f := fst). exact Hb.
  - intros (i & c). split; intros H.
    + apply in_flat_map in H. destruct H as (u & Hin & H). unfold at_unit in H.
      destruct (dict_get Nat.eqb (fst u) (bu_of items cs)) as [c'|] eqn:E; [|destruct H]. destruct H as [H|[]]. injection H as <- <-.
      apply dict_get_In in E; [exact E|exact neqb_eq].
    + pose proof H as H'. apply placed_in in H'. destruct H' as (Hc & n & u & E & Hnm & Hi). apply in_flat_map. exists u.
      split; [now apply named_listed in Hnm|]. unfold at_unit. rewrite Hi.
      rewrite (dict_get_NoDup _ _ Nat.eqb i c (bu_of items cs) neqb_eq Hb H). left. reflexivity.
Qed.

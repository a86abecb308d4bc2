(** Dividing the listed units into sections: C94. *)
From Coq Require Import PeanoNat String ListDec.
From Verif Require Import QcTac Base BaseLemmas Num Stream_Model Process_Model Process_Spec Process_Proofs2 Sections_Model Sections_Spec Sections_Proofs Sections_Proofs2.
Local Open Scope list_scope.

Lemma last_opt_split : forall A (l : list A) a, last_opt l = Some a -> l = removelast l ++ [a].
Proof.
  intros A l a H. destruct (exists_last (l := l)) as (front & b & ->); [intros ->; discriminate|].
  rewrite last_opt_snoc in H. injection H as ->. now rewrite removelast_last.
Qed.
Lemma last_opt_none : forall A (l : list A), last_opt l = None -> l = [].
Proof. intros A [|a l] H; [reflexivity|discriminate]. Qed.
Lemma snoc_split : forall A (x y : A) earlier later l, l ++ [x] = earlier ++ y :: later ->
  (later = [] /\ x = y /\ l = earlier) \/ (exists later', later = later' ++ [x] /\ l = earlier ++ y :: later').
Proof.
  intros A x y earlier later l H. destruct later as [|z later] using rev_ind.
  - apply app_inj_tail in H. left. intuition.
  - right. exists later. change (y :: later ++ [z]) with ((y :: later) ++ [z]) in H. rewrite app_assoc in H. apply app_inj_tail in H.
    destruct H as (-> & ->). auto.
Qed.

Definition closed_section (items : list item) (cs : list constraint) (s : section) : Prop :=
  exists n front u, co_unit (s_constraint s) = Some n /\ s_units s = front ++ [u] /\ named items n u /\ s_target s = fst u /\
    forall w, In w front -> ~ constrained items cs w.
Lemma concat_in : forall (ss : list section) s w, In s ss -> In w (s_units s) -> In w (concat (map s_units ss)).
Proof. intros ss s w Hs Hw. apply in_concat. exists (s_units s). split; [now apply in_map|exact Hw]. Qed.
Lemma walk_sections : forall items cs ss tr, distinct_names items -> distinct_units items -> known (entries items) cs ->
  NoDup (map fst (bu_of items cs)) -> walk (bu_of items cs) (listed items) [] = (ss, tr) ->
  concat (map s_units ss) ++ tr = listed items /\ (forall w, In w tr -> ~ constrained items cs w) /\
  (forall s, In s ss -> closed_section items cs s) /\ Permutation (map s_constraint ss) (filter (fun c => negb (unnamed c)) cs).
Proof.
  intros items cs ss tr Hn Hu Hk Hb W. apply walk_parts in W; [|intros w []]. destruct W as (H1 & H2 & H3 & H4). cbn [app] in H1.
  assert (forall w, In w tr -> In w (listed items)) as Htr by (intros w Hw; rewrite <- H1; apply in_or_app; auto).
  assert (forall s w, In s ss -> In w (s_units s) -> In w (listed items)) as Hss
    by (intros s w Hs Hw; rewrite <- H1; apply in_or_app; left; eapply concat_in; eauto).
  split; [exact H1|]. split; [|split].
  - intros w Hw. apply (at_none items cs w Hn Hu (Htr w Hw)). now apply H2.
  - intros s Hs. rewrite Forall_forall in H3. destruct (H3 s Hs) as (front & u & Eu & Et & Ec & Hf).
    assert (In u (listed items)) as Iu by (apply (Hss s u Hs); rewrite Eu; apply in_or_app; right; now left).
    destruct (at_some items cs u _ Hu Iu Ec) as (_ & n & En & Hnm). exists n, front, u.
    split; [exact En|]. split; [exact Eu|]. split; [exact Hnm|]. split; [exact Et|].
    intros w Hw. assert (In w (listed items)) as Iw by (apply (Hss s w Hs); rewrite Eu; apply in_or_app; now left).
    apply (at_none items cs w Hn Hu Iw). now apply Hf.
  - apply (Permutation_map snd) in H4 || idtac. assert (map s_constraint ss = map snd (map (fun s => (s_target s, s_constraint s)) ss)) as -> by now rewrite map_map.
    rewrite H4, <- (placed_snd (entries items) cs Hk). apply Permutation_map. apply at_units; assumption.
Qed.

Lemma partition_start : forall items cs ss, partition_items items cs = Ok ss ->
  distinct_names items /\ cs <> [] /\ partition (listed items) (entries items) cs = Ok ss.
Proof.
  intros items cs ss H. unfold partition_items in H. destruct (register_items items) as (R1 & R2).
  destruct (register items []) as [names|e] eqn:R; [|discriminate]. cbn [bind] in H.
  assert (distinct_names items) as Hd.
  { apply entries_nodup. destruct (register_ok items [] (NoDup_nil _)) as (Q1 & Q2). cbn [app] in Q1, Q2.
    destruct (ListDec.NoDup_dec String.string_dec (map fst (entries items))) as [D|D]; [exact D|]. rewrite (Q2 D) in R. discriminate R. }
  specialize (R1 Hd). injection R1 as ->. split; [exact Hd|]. destruct cs as [|c cs]; [discriminate|]. split; [discriminate|exact H].
Qed.

Lemma none_unnamed : forall cs, filter unnamed cs = [] <-> forall c, In c cs -> co_unit c <> None.
Proof.
  intros cs. split.
  - intros H c Hc E. assert (In c (filter unnamed cs)) as F by (apply filter_In; split; [exact Hc|unfold unnamed; now rewrite E]). rewrite H in F. destruct F.
  - intros H. destruct (filter unnamed cs) as [|c l] eqn:F; [reflexivity|]. exfalso.
    assert (In c (filter unnamed cs)) as G by (rewrite F; now left). apply filter_In in G. destruct G as (Hc & G). apply (H c Hc).
    unfold unnamed in G. destruct (co_unit c); [discriminate|reflexivity].
Qed.
Lemma an_unnamed : forall cs c l, filter unnamed cs = c :: l -> In c cs /\ co_unit c = None.
Proof.
  intros cs c l F. assert (In c (filter unnamed cs)) as G by (rewrite F; now left). apply filter_In in G. destruct G as (Hc & G). split; [exact Hc|].
  unfold unnamed in G. destruct (co_unit c); [discriminate|reflexivity].
Qed.

Lemma closed_ends : forall items cs s later, closed_section items cs s -> ends_well items cs s later.
Proof.
  intros items cs s later (n & front & u & En & Eu & Hnm & Et & Hf). unfold ends_well. rewrite En. exists front, u, [].
  split; [exact Eu|]. split; [exact Hnm|]. split; [exact Et|]. split; [|left; reflexivity]. rewrite app_nil_r. exact Hf.
Qed.
Lemma existsb_none : forall us, existsb is_compressor us = false <-> forall w, In w us -> ~ compresses w.
Proof.
  intros us. induction us as [|u us IH]; cbn; [split; [intros _ w []|reflexivity]|]. rewrite orb_false_iff, IH, compressor_iff_not. split.
  - intros (A & B) w [<-|Hw]; auto.
  - intros H. split; [apply H; now left|]. intros w Hw. apply H. now right.
Qed.

Lemma division_ok : forall items cs ss, distinct_units items -> partition_items items cs = Ok ss ->
  fitting items cs /\ division items cs ss.
Proof.
  intros items cs ss Hu H. apply partition_start in H. destruct H as (Hn & Hne & H). unfold partition in H.
  destruct (collect (entries items) cs [] None) as [[bu t]|] eqn:C; [|discriminate]. cbn [bind] in H.
  apply collect_inv in C; [|constructor]. destruct C as (Hk & Ebu & Hb & Ht). cbn [app listopt] in Ebu, Ht. fold (bu_of items cs) in Ebu. subst bu.
  destruct (walk (bu_of items cs) (listed items) []) as [ss0 tr] eqn:W. pose proof (walk_sections items cs ss0 tr Hn Hu Hk Hb W) as (H1 & H2 & H3 & H4).
  assert (NoDup (map co_unit cs)) as Honce.
  { apply (once_iff items cs Hn Hu Hk). split; [exact Hb|]. rewrite <- Ht. destruct t; cbn; lia. }
  assert (forall c name, In c cs -> co_unit c = Some name -> exists u, named items name u) as Hkn by now apply known_iff.
  pose proof (filter_split _ unnamed cs) as Hp. rewrite <- Ht in Hp.
  destruct t as [t|]; cbn [listopt] in *.
  - destruct (last_opt tr) as [u|] eqn:L; [|discriminate]. cbn [of_option bind] in H. injection H as <-.
    destruct (an_unnamed cs t [] (eq_sym Ht)) as (It & Et).
    apply last_opt_split in L.
    assert (In u tr) as Iu by (rewrite L; apply in_or_app; right; now left). split.
    + constructor; auto.
      * intros _. exists (concat (map s_units ss0) ++ removelast tr), u. rewrite <- app_assoc, <- L. split; [now symmetry|]. auto.
      * intros Hno. exfalso. apply (Hno t It Et).
    + split; [rewrite map_app, concat_app; cbn [map concat s_units]; rewrite app_nil_r; exact H1|]. split.
      * rewrite map_app. cbn [map s_constraint]. rewrite H4. exact Hp.
      * intros earlier s later E. apply snoc_split in E. destruct E as [(-> & <- & _)|(later' & -> & E)].
        -- unfold ends_well. cbn [s_constraint s_units s_target]. rewrite Et. split; [reflexivity|]. exists (removelast tr), u. auto.
        -- apply closed_ends. apply H3. rewrite E. apply in_or_app. right. now left.
  - destruct (existsb is_compressor tr) eqn:X; [discriminate|]. rewrite existsb_none in X. rewrite app_nil_r in Hp.
    assert (forall c, In c cs -> co_unit c <> None) as Hall by now apply none_unnamed.
    assert (fitting items cs) as Hfit.
    { constructor; auto.
      - intros (c & Hc & E). exfalso. apply (Hall c Hc E).
      - intros _ front u rest El Hcomp.
        destruct (existsb (fun w : unit_ => match dict_get Nat.eqb (fst w) (bu_of items cs) with Some _ => true | None => false end) (u :: rest)) eqn:B.
        + apply existsb_exists in B. destruct B as (w & Hw & B). exists w. split; [exact Hw|].
          destruct (dict_get Nat.eqb (fst w) (bu_of items cs)) as [c|] eqn:D; [|discriminate].
          assert (In w (listed items)) as Iw by (rewrite El; apply in_or_app; now right).
          destruct (at_some items cs w c Hu Iw D) as (Hc & n & En & Hw'). exists c, n. auto.
        + exfalso. destruct (walk_suffix (bu_of items cs) (u :: rest) front []) as (tt & Htt).
          * intros w Hw. destruct (dict_get Nat.eqb (fst w) (bu_of items cs)) as [c|] eqn:D; [|reflexivity]. exfalso.
            assert (existsb (fun w : unit_ => match dict_get Nat.eqb (fst w) (bu_of items cs) with Some _ => true | None => false end) (u :: rest) = true) as B'
              by (apply existsb_exists; exists w; rewrite D; auto). congruence.
          * rewrite <- El, W in Htt. cbn [snd] in Htt. apply (X u); [rewrite Htt; apply in_or_app; right; now left|exact Hcomp]. }
    split; [exact Hfit|].
    assert (Permutation (map s_constraint ss0) cs) as Hp' by (rewrite H4; exact Hp).
    destruct (last_opt ss0) as [s|] eqn:L.
    + pose proof (last_opt_split _ _ _ L) as Ls. destruct tr as [|w tr].
      * injection H as <-. rewrite app_nil_r in H1. split; [exact H1|]. split; [exact Hp'|].
        intros earlier s' later E. apply closed_ends. apply H3. rewrite E. apply in_or_app. right. now left.
      * injection H as <-. rewrite Ls in H1, Hp'. rewrite map_app, concat_app in H1. cbn [map concat] in H1. rewrite app_nil_r, <- app_assoc in H1.
        split; [rewrite map_app, concat_app; cbn [map concat s_units]; rewrite app_nil_r; exact H1|]. split; [rewrite map_app in *; exact Hp'|].
        intros earlier s' later E. apply snoc_split in E. destruct E as [(-> & <- & _)|(later' & -> & E)].
        -- destruct (H3 s) as (n & front & u & En & Eu & Hnm & Et & Hf); [rewrite Ls; apply in_or_app; right; now left|].
           unfold ends_well. cbn [s_constraint s_units s_target]. rewrite En. exists front, u, (w :: tr). rewrite Eu, <- app_assoc.
           split; [reflexivity|]. split; [exact Hnm|]. split; [exact Et|]. split; [|right; auto].
           intros v Hv. apply in_app_or in Hv. destruct Hv; auto.
        -- apply closed_ends. apply H3. rewrite Ls, E. apply in_or_app. left. apply in_or_app. right. now left.
    + apply last_opt_none in L. subst ss0. cbn [map] in Hp'. apply Permutation_nil in Hp'. contradiction.
Qed.

Lemma not_ok_names : forall items cs, (forall n : string, True) -> partition_items items cs = Err ValidationError \/ distinct_names items.
Proof.
  intros items cs _. destruct (ListDec.NoDup_dec String.string_dec (map fst (entries items))) as [D|D]; [right; now apply entries_nodup|].
  left. rewrite entries_nodup in D. unfold partition_items. rewrite (proj2 (register_items items) D). reflexivity.
Qed.
Lemma accepted_proof : forall items cs, distinct_units items -> ((exists ss, partition_items items cs = Ok ss) <-> fitting items cs).
Proof.
  intros items cs Hu. split; [intros (ss & H); now apply division_ok in H|]. intros [Fn Fs Fo Fk Ft Fc].
  unfold partition_items. rewrite (proj1 (register_items items) Fn). cbn [bind].
  assert (known (entries items) cs) as Hk by now apply known_iff. pose proof (proj1 (once_iff items cs Fn Hu Hk) Fo) as (Hb & Hl).
  destruct (collect_ok (entries items) cs [] None Hk Hb Hl) as (t & C). pose proof C as C'. apply collect_inv in C'; [|constructor].
  destruct C' as (_ & _ & _ & Ht). cbn [app listopt] in C, Ht. fold (bu_of items cs) in C.
  destruct (walk (bu_of items cs) (listed items) []) as [ss0 tr] eqn:W. pose proof (walk_sections items cs ss0 tr Fn Hu Hk Hb W) as (H1 & H2 & H3 & H4).
  assert (exists ss, partition (map snd items) (entries items) cs = Ok ss) as (ss & P); [|destruct cs; [contradiction|eauto]].
  unfold partition. rewrite C. cbn [bind]. fold (listed items). rewrite W. destruct t as [t|]; cbn [listopt] in Ht.
  - destruct (last_opt tr) as [u|] eqn:L; [cbn [of_option bind]; eauto|]. exfalso. apply last_opt_none in L. subst tr. rewrite app_nil_r in H1.
    destruct (an_unnamed cs t [] (eq_sym Ht)) as (It & Et). destruct Ft as (front & u & El & Hnc); [eauto|].
    destruct (last_opt ss0) as [s|] eqn:L; [|apply last_opt_none in L; subst ss0; rewrite <- H1 in El; destruct front; discriminate].
    apply last_opt_split in L. destruct (H3 s) as (n & f & w & En & Eu & Hnm & _ & _); [rewrite L; apply in_or_app; right; now left|].
    rewrite L, map_app, concat_app in H1. cbn [map concat] in H1. rewrite app_nil_r, Eu, app_assoc in H1. rewrite <- H1 in El. apply app_inj_tail in El.
    destruct El as (_ & ->). apply Hnc.
    assert (In (s_constraint s) cs) as Hc.
    { apply (Permutation_in (l := map s_constraint ss0)) in H4 || idtac. assert (In (s_constraint s) (filter (fun c => negb (unnamed c)) cs)) as F
        by (apply (Permutation_in _ H4); apply in_map; rewrite L; apply in_or_app; right; now left). apply filter_In in F. tauto. }
    exists (s_constraint s), n. auto.
  - assert (existsb is_compressor tr = false) as ->.
    { apply existsb_none. intros u Iu Hcomp. apply in_split in Iu. destruct Iu as (a & b & ->). rewrite app_assoc in H1.
      destruct (Fc (proj1 (none_unnamed cs) (eq_sym Ht)) _ u b (eq_sym H1) Hcomp) as (w & Iw & Hw). apply (H2 w); [|exact Hw]. apply in_or_app. now right. }
    destruct (last_opt ss0) as [s|], tr; eauto.
Qed.
Lemma refusal_proof : forall items cs e, distinct_units items -> partition_items items cs = Err e ->
  e = ValidationError \/
  e = IndexError /\ (exists c, In c cs /\ co_unit c = None) /\ ~ exists front u, listed items = front ++ [u] /\ ~ constrained items cs u.
Proof.
  intros items cs e Hu H. destruct (not_ok_names items cs (fun _ => I)) as [P|Hn]; [left; congruence|].
  unfold partition_items in H. rewrite (proj1 (register_items items) Hn) in H. cbn [bind] in H. fold (listed items) in H.
  destruct cs as [|c0 cs0]; [left; congruence|]. set (cs := c0 :: cs0) in *. unfold partition in H.
  destruct (collect (entries items) cs [] None) as [[bu t]|e'] eqn:C; [|cbn [bind] in H; injection H as <-; left; eapply collect_err; exact C].
  cbn [bind] in H. apply collect_inv in C; [|constructor]. destruct C as (Hk & Ebu & Hb & Ht). cbn [app listopt] in Ebu, Ht. fold (bu_of items cs) in Ebu. subst bu.
  destruct (walk (bu_of items cs) (listed items) []) as [ss0 tr] eqn:W. pose proof (walk_sections items cs ss0 tr Hn Hu Hk Hb W) as (H1 & H2 & H3 & H4).
  destruct t as [t|]; cbn [listopt] in Ht.
  - destruct (last_opt tr) as [u|] eqn:L; [discriminate|]. cbn [of_option bind] in H. injection H as <-. right. split; [reflexivity|].
    destruct (an_unnamed cs t [] (eq_sym Ht)) as (It & Et). split; [eauto|]. intros (front & u & El & Hnc).
    assert (fitting items cs) as F.
    { constructor; auto.
      - unfold cs; discriminate.
      - apply (once_iff items cs Hn Hu Hk). split; [exact Hb|]. rewrite <- Ht. cbn; lia.
      - now apply known_iff.
      - eauto.
      - intros Hno. exfalso. apply (Hno t It Et). }
    apply (accepted_proof items cs Hu) in F. destruct F as (ss & F). unfold partition_items in F.
    rewrite (proj1 (register_items items) Hn) in F. cbn [bind] in F. fold (listed items) in F. unfold cs in F at 1. unfold partition in F.
    destruct (collect_ok (entries items) cs [] None Hk Hb) as (t' & C); [cbn [listopt app]; rewrite <- Ht; cbn; lia|].
    cbn [app] in C. fold (bu_of items cs) in C. rewrite C in F. cbn [bind] in F. rewrite W in F.
    apply collect_inv in C; [|constructor]. destruct C as (_ & _ & _ & Ht'). cbn [listopt app] in Ht'. rewrite <- Ht in Ht'. destruct t' as [t'|]; [|discriminate].
    rewrite L in F. discriminate.
  - destruct (existsb is_compressor tr); [left; congruence|]. destruct (last_opt ss0), tr; discriminate.
Qed.

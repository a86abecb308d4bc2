(** The division of a pipeline into sections is determined by its units and constraints. *)
From Coq Require Import PeanoNat String Lia.
From Verif Require Import QcTac Base BaseLemmas Num Stream_Model Process_Model Process_Spec Sections_Model Sections_Spec.
Local Open Scope list_scope.

Lemma first_split : forall A (P : A -> Prop) f1 f2 u1 u2 (r1 r2 : list A), f1 ++ u1 :: r1 = f2 ++ u2 :: r2 ->
  (forall w, In w f1 -> ~ P w) -> (forall w, In w f2 -> ~ P w) -> P u1 -> P u2 -> f1 = f2 /\ u1 = u2 /\ r1 = r2.
Proof.
  intros A P. induction f1 as [|a f1 IH]; intros [|b f2] u1 u2 r1 r2 E H1 H2 P1 P2; cbn [app] in E; injection E as E1 E2.
  - auto.
  - subst. elim (H2 b (or_introl eq_refl) P1).
  - subst. elim (H1 u2 (or_introl eq_refl) P2).
  - subst. destruct (IH f2 u1 u2 r1 r2 E2) as (-> & -> & ->); auto; intros w I; [apply H1|apply H2]; now right.
Qed.
Lemma same_constraint : forall (cs : list constraint) c1 c2, NoDup (map co_unit cs) -> In c1 cs -> In c2 cs -> co_unit c1 = co_unit c2 -> c1 = c2.
Proof.
  induction cs as [|c cs IH]; intros c1 c2 N I1 I2 E; [destruct I1|]. cbn [map] in N. inversion N as [|? ? N1 N2]; subst.
  destruct I1 as [->|I1], I2 as [->|I2]; auto.
  - elim N1. rewrite E. now apply in_map.
  - elim N1. rewrite <- E. now apply in_map.
Qed.
Lemma one_name : forall items n1 n2 u, distinct_units items -> named items n1 u -> named items n2 u -> n1 = n2.
Proof.
  unfold distinct_units, named, listed. induction items as [|[o w] items IH]; intros n1 n2 u N I1 I2; [destruct I1|].
  cbn in N. inversion N as [|? ? N1 N2]; subst.
  assert (forall name, In (Some name, u) items -> In (fst u) (ids (map snd items))) as Ip.
  { intros name I. unfold ids. apply (in_map fst). apply (in_map snd) in I. exact I. }
  destruct I1 as [E1|I1], I2 as [E2|I2].
  - congruence.
  - injection E1 as _ E1. subst w. elim N1. exact (Ip _ I2).
  - injection E2 as _ E2. subst w. elim N1. exact (Ip _ I1).
  - exact (IH n1 n2 u N2 I1 I2).
Qed.

Section Unique.
  Variables (items : list item) (cs : list constraint).
  Hypothesis U : distinct_units items.
  Hypothesis N : NoDup (map co_unit cs).
  Definition run_of (ss : list section) (units : list unit_) : Prop :=
    concat (map s_units ss) = units /\ (forall s, In s ss -> In (s_constraint s) cs) /\
    (forall earlier s later, ss = earlier ++ s :: later -> ends_well items cs s later) /\
    (forall c, In c cs -> co_unit c = None -> exists s, In s ss /\ s_constraint s = c).
  Lemma run_tail : forall s ss units name, run_of (s :: ss) units -> co_unit (s_constraint s) = Some name -> run_of ss (concat (map s_units ss)).
  Proof.
    intros s ss units name (H1 & H2 & H3 & H4) E. split; [reflexivity|]. split; [intros x I; apply H2; now right|]. split.
    - intros earlier x later Es. apply (H3 (s :: earlier) x later). cbn. congruence.
    - intros c I Ec. destruct (H4 c I Ec) as (x & [->|Ix] & Ex); [congruence|eauto].
  Qed.
  Lemma run_nil : forall s ss, run_of (s :: ss) [] -> False.
  Proof.
    intros s ss (H1 & _ & H3 & _). specialize (H3 [] s ss eq_refl). unfold ends_well in H3. cbn [map concat] in H1. apply app_eq_nil in H1 as [H1 _]. rewrite H1 in H3.
    destruct (co_unit (s_constraint s)); [destruct H3 as (f & u & r & E & _)|destruct H3 as (_ & f & u & E & _)]; destruct f; discriminate.
  Qed.
  Lemma run_unique : forall ss1 ss2 units, run_of ss1 units -> run_of ss2 units -> ss1 = ss2.
  Proof.
    induction ss1 as [|s1 r1 IH]; intros [|s2 r2] units R1 R2; [reflexivity| | |].
    - assert (units = []) as -> by (destruct R1; auto). elim (run_nil _ _ R2).
    - assert (units = []) as -> by (destruct R2; auto). elim (run_nil _ _ R1).
    - pose proof R1 as (C1 & I1 & E1 & O1). pose proof R2 as (C2 & I2 & E2 & O2). cbn [map concat] in C1, C2.
      pose proof (E1 [] s1 r1 eq_refl) as W1. pose proof (E2 [] s2 r2 eq_refl) as W2. unfold ends_well in W1, W2.
      assert (In (s_constraint s1) cs) as J1 by (apply I1; now left). assert (In (s_constraint s2) cs) as J2 by (apply I2; now left).
      destruct (co_unit (s_constraint s1)) as [n1|] eqn:K1, (co_unit (s_constraint s2)) as [n2|] eqn:K2.
      + destruct W1 as (f1 & u1 & t1 & S1 & M1 & T1 & F1 & L1). destruct W2 as (f2 & u2 & t2 & S2 & M2 & T2 & F2 & L2).
        destruct (first_split _ (constrained items cs) f1 f2 u1 u2 (t1 ++ concat (map s_units r1)) (t2 ++ concat (map s_units r2))) as (-> & -> & Er).
        { rewrite S1, <- app_assoc in C1. rewrite S2, <- app_assoc in C2. cbn [app] in C1, C2. congruence. }
        { intros w I. apply F1. apply in_or_app. now left. } { intros w I. apply F2. apply in_or_app. now left. }
        { exists (s_constraint s1), n1. auto. } { exists (s_constraint s2), n2. auto. }
        assert (s_constraint s1 = s_constraint s2) as Ec. { apply (same_constraint cs); auto. rewrite K1, K2. f_equal. exact (one_name items n1 n2 u2 U M1 M2). }
        assert (forall ta tb ra rb, ta ++ concat (map s_units ra) = tb ++ concat (map s_units rb) -> (forall w, In w (f2 ++ ta) -> ~ constrained items cs w) -> ra = [] ->
          run_of rb (concat (map s_units rb)) -> (exists s, s_constraint s = s_constraint s2 /\ run_of (s :: ra) units) -> tb = [] -> ta = []) as Q.
        { intros ta tb ra rb E F -> Rb (s & Es & _ & _ & _ & Os) ->. cbn [map concat app] in E. rewrite app_nil_r in E. destruct rb as [|s' rb]; [exact E|]. exfalso.
          destruct Rb as (_ & Ib & Eb & Ob). specialize (Eb [] s' rb eq_refl). unfold ends_well in Eb. assert (In (s_constraint s') cs) as Js by (apply Ib; now left).
          destruct (co_unit (s_constraint s')) as [n'|] eqn:K'.
          - destruct Eb as (f & u & t & Eu & Mu & _). apply (F u). { apply in_or_app. right. rewrite E. cbn [map concat]. rewrite Eu. apply in_or_app. left. apply in_or_app. right. now left. }
            exists (s_constraint s'), n'. auto.
          - destruct (Os (s_constraint s') Js K') as (x & [->|[]] & Ex). congruence. }
        assert (run_of r1 (concat (map s_units r1))) as R1' by exact (run_tail _ _ _ _ R1 K1). assert (run_of r2 (concat (map s_units r2))) as R2' by exact (run_tail _ _ _ _ R2 K2).
        assert (t1 = t2 /\ r1 = r2) as [-> ->].
        { assert (t1 = [] -> t2 = [] -> t1 = t2 /\ r1 = r2) as Both.
          { intros -> ->. split; [reflexivity|]. cbn [app] in Er. apply (IH r2 (concat (map s_units r1))); [exact R1'|]. rewrite Er. exact R2'. }
          destruct L1 as [L1|[L1 _]], L2 as [L2|[L2 _]].
          - auto.
          - apply Both; [exact L1|]. apply (Q t2 t1 r2 r1); auto. exists s2. split; [reflexivity|exact R2].
          - apply Both; [|exact L2]. apply (Q t1 t2 r1 r2); auto. exists s1. split; [exact Ec|exact R1].
          - subst r1 r2. cbn [map concat] in Er. rewrite !app_nil_r in Er. auto. }
        f_equal. destruct s1 as [a1 b1 c1], s2 as [a2 b2 c2]. cbn in *. congruence.
      + exfalso. destruct W1 as (f1 & u1 & t1 & S1 & M1 & _). destruct W2 as (-> & f2 & u2 & S2 & _ & F2). cbn [map concat] in C2. rewrite app_nil_r in C2.
        apply (F2 u1). { rewrite C2, <- C1, S1. apply in_or_app. left. apply in_or_app. right. now left. } exists (s_constraint s1), n1. auto.
      + exfalso. destruct W2 as (f1 & u1 & t1 & S1 & M1 & _). destruct W1 as (-> & f2 & u2 & S2 & _ & F2). cbn [map concat] in C1. rewrite app_nil_r in C1.
        apply (F2 u1). { rewrite C1, <- C2, S1. apply in_or_app. left. apply in_or_app. right. now left. } exists (s_constraint s2), n2. auto.
      + destruct W1 as (-> & f1 & u1 & S1 & T1 & _). destruct W2 as (-> & f2 & u2 & S2 & T2 & _). cbn [map concat] in C1, C2. rewrite app_nil_r in C1, C2.
        assert (s_constraint s1 = s_constraint s2) as Ec by (apply (same_constraint cs); congruence).
        assert (f1 ++ [u1] = f2 ++ [u2]) as Eu by congruence. apply app_inj_tail in Eu as [-> ->].
        f_equal. destruct s1 as [a1 b1 c1], s2 as [a2 b2 c2]. cbn in *. congruence.
  Qed.
End Unique.

Lemma unique_proof : forall items cs ss1 ss2, distinct_units items -> fitting items cs -> division items cs ss1 -> division items cs ss2 -> ss1 = ss2.
Proof.
  intros items cs ss1 ss2 U F (A1 & A2 & A3) (B1 & B2 & B3).
  assert (forall ss, concat (map s_units ss) = listed items -> Permutation (map s_constraint ss) cs ->
    (forall earlier s later, ss = earlier ++ s :: later -> ends_well items cs s later) -> run_of items cs ss (listed items)) as R.
  { intros ss H1 H2 H3. split; [exact H1|]. split.
    - intros s I. apply (Permutation_in _ H2). now apply in_map.
    - split; [exact H3|]. intros c I _. apply (Permutation_in _ (Permutation_sym H2)) in I. apply in_map_iff in I as (s & E & I). eauto. }
  apply (run_unique items cs U (ft_once _ _ F) ss1 ss2 (listed items)); apply R; assumption.
Qed.

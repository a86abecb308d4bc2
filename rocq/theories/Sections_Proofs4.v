(** Validating and assembling the sections: C95 and C96. *)
From Coq Require Import PeanoNat String ListDec.
From Verif Require Import QcTac Base BaseLemmas Num Stream_Model Process_Model Process_Spec Process_Proofs2 Sections_Model Sections_Spec Sections_Proofs
  Sections_Proofs2 Sections_Proofs3.
Local Open Scope list_scope.

(** ** Validation *)
Lemma outside_iff : forall u, is_outside u = true <-> changes_flow u.
Proof.
  intros [i k]. unfold is_outside, changes_flow. cbn. destruct k; split; try discriminate; try (intros [(x & Q)|(x & Q)]; discriminate); eauto.
Qed.
Lemma existsb_some : forall us, existsb is_compressor us = true <-> exists u, In u us /\ compresses u.
Proof. intros us. rewrite existsb_exists. split; intros (u & H1 & H2); exists u; split; auto; now apply compressor_iff. Qed.
Lemma existsb_outside : forall us, existsb is_outside us = false <-> forall u, In u us -> ~ changes_flow u.
Proof.
  intros us. induction us as [|u us IH]; cbn; [split; [intros _ w []|reflexivity]|]. rewrite orb_false_iff, IH. split.
  - intros (A & B) w [<-|Hw]; auto. intros C. apply outside_iff in C. congruence.
  - intros H. split; [|intros w Hw; apply H; now right]. destruct (is_outside u) eqn:O; [|reflexivity]. apply outside_iff in O. exfalso. apply (H u); auto.
Qed.
Lemma validate_section_iff : forall s, (validate_section s = Ok tt /\ acceptable_section s) \/ (validate_section s = Err ValidationError /\ ~ acceptable_section s).
Proof.
  intros s. unfold validate_section, acceptable_section. cbv zeta. pose proof (existsb_some (s_units s)) as C.
  destruct (existsb is_compressor (s_units s)); cbn [negb andb].
  2: { right. split; [reflexivity|]. intros (H & _). apply C in H. discriminate. }
  pose proof (existsb_outside (s_units s)) as O.
  assert (exists u, In u (s_units s) /\ compresses u) as Hc by now apply C.
  destruct (co_control (s_constraint s)), (co_anti_surge (s_constraint s)); cbn [required_anti_surge anti_surge_eqb negb andb];
    try (right; split; [reflexivity|]; intros (_ & H1 & H2 & H3 & _); first [now apply H1 | specialize (H2 eq_refl); discriminate
      | specialize (H3 (or_introl eq_refl)); discriminate | specialize (H3 (or_intror eq_refl)); discriminate]);
    try (left; split; [reflexivity|]; split; [exact Hc|]; split; [discriminate|]; split; [try discriminate; reflexivity|]; split; [try (intros [Q|Q]; discriminate); reflexivity|discriminate]);
    (destruct (existsb is_outside (s_units s)); [right|left]; (split; [reflexivity|]);
      [intros (_ & _ & _ & _ & H); assert (true = false) by (apply O; apply H; reflexivity); discriminate
      |split; [exact Hc|]; split; [discriminate|]; split; [try discriminate; reflexivity|]; split; [intros [Q|Q]; discriminate|intros _; apply O; reflexivity]]).
Qed.
Lemma validate_iff : forall ss, (validate ss = Ok tt /\ Forall acceptable_section ss) \/ (validate ss = Err ValidationError /\ ~ Forall acceptable_section ss).
Proof.
  induction ss as [|s ss IH]; [left; split; [reflexivity|constructor]|]. cbn [validate].
  destruct (validate_section_iff s) as [(-> & H)|(-> & H)]; cbn [bind].
  - destruct IH as [(-> & F)|(-> & F)]; [left|right]; (split; [reflexivity|]).
    + now constructor.
    + intros G. apply F. now inversion G.
  - right. split; [reflexivity|]. intros G. apply H. now inversion G.
Qed.
Lemma build_proof : forall items cs ss, build_sections items cs = Ok ss <-> partition_items items cs = Ok ss /\ Forall acceptable_section ss.
Proof.
  intros items cs ss. unfold build_sections. destruct (partition_items items cs) as [ss'|e]; cbn [bind]; [|split; [discriminate|intros (H & _); discriminate]].
  destruct (validate_iff ss') as [(-> & F)|(-> & F)]; cbn [bind]; split.
  - intros H. injection H as <-. auto.
  - intros (H & _). exact H.
  - discriminate.
  - intros (H & G). injection H as ->. contradiction.
Qed.
Lemma build_refusal_proof : forall items cs ss, partition_items items cs = Ok ss -> ~ Forall acceptable_section ss -> build_sections items cs = Err ValidationError.
Proof.
  intros items cs ss P N. unfold build_sections. rewrite P. cbn [bind]. destruct (validate_iff ss) as [(_ & F)|(-> & _)]; [contradiction|reflexivity].
Qed.

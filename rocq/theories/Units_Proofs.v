(** Proofs about units. *)
From Verif Require Import QcTac Base BaseLemmas Units_Model Units_Spec.

Lemma unit_eqb_spec : forall a b, unit_eqb a b = true <-> a = b.
Proof. intros a b; unfold unit_eqb; destruct (unit_eq_dec a b); split; intros; congruence. Qed.

Ltac nz := let H := fresh in intro H; apply (f_equal this) in H; vm_compute in H; discriminate.

Theorem unit_to_same_amount_proof : forall a b f x, unit_to a b = Ok f -> same_amount a x b (f x).
Proof.
  intros a b f x H. unfold unit_to in H. destruct (unit_eqb a b) eqn:E.
  - apply unit_eqb_spec in E. subst b. injection H as <-. unfold same_amount. destruct (meaning a) as [[q s] z]. auto.
  - destruct (unit_registry a b) as [g|] eqn:R; [|discriminate]. injection H as ->.
    destruct a, b; cbn in R; try discriminate; injection R as <-; unfold same_amount; cbn [meaning];
      (split; [reflexivity|]); unfold EARTH_GRAVITY;
      apply Qc_eq_Qeq; unfold qz, qc, inject_Z; qc_push; change (this 0%Qc) with 0%Q; change (this 1%Qc) with 1%Q;
      first [field | unfold Qdiv, Qinv; cbn; ring].
Qed.

Lemma meaning_size_nonzero : forall u q s z, meaning u = (q, s, z) -> s <> 0%Qc.
Proof. intros u q s z H. destruct u; injection H as <- <- <-; nz. Qed.

Lemma same_amount_functional : forall a x b y y', same_amount a x b y -> same_amount a x b y' -> y = y'.
Proof.
  intros a x b y y'. unfold same_amount. destruct (meaning a) as [[qa sa] za], (meaning b) as [[qb sb] zb] eqn:Eb.
  intros [_ H1] [_ H2]. apply meaning_size_nonzero in Eb.
  assert (y * sb = y' * sb)%Qc as H by (transitivity (x * sa + za - zb)%Qc; [rewrite H1|rewrite H2]; ring).
  apply (f_equal (fun v => v / sb)%Qc) in H. unfold Qcdiv in H. rewrite <- !Qcmult_assoc, Qcmult_inv_r, !Qcmult_1_r in H by assumption. exact H.
Qed.
Lemma same_amount_sym : forall a x b y, same_amount a x b y -> same_amount b y a x.
Proof. intros a x b y. unfold same_amount. destruct (meaning a) as [[? ?] ?], (meaning b) as [[? ?] ?]. intuition. Qed.
Lemma same_amount_trans : forall a x b y c z, same_amount a x b y -> same_amount b y c z -> same_amount a x c z.
Proof.
  intros a x b y c z. unfold same_amount. destruct (meaning a) as [[? ?] ?], (meaning b) as [[? ?] ?], (meaning c) as [[? ?] ?].
  intros [-> H1] [-> H2]. split; auto. now rewrite H1.
Qed.
Lemma same_amount_refl : forall a x, same_amount a x a x.
Proof. intros a x; unfold same_amount; destruct (meaning a) as [[? ?] ?]; auto. Qed.

Theorem unit_round_trip_proof : forall a b f g x, unit_to a b = Ok f -> unit_to b a = Ok g -> g (f x) = x.
Proof.
  intros a b f g x Hf Hg. pose proof (unit_to_same_amount_proof _ _ _ x Hf) as H1.
  pose proof (unit_to_same_amount_proof _ _ _ (f x) Hg) as H2.
  eapply same_amount_functional; [eapply same_amount_trans; [exact H1|exact H2]|apply same_amount_refl].
Qed.
Theorem unit_path_proof : forall a b c f g h x,
  unit_to a b = Ok f -> unit_to b c = Ok g -> unit_to a c = Ok h -> g (f x) = h x.
Proof.
  intros a b c f g h x Hf Hg Hh. eapply same_amount_functional.
  - eapply same_amount_trans; [exact (unit_to_same_amount_proof _ _ _ x Hf)|exact (unit_to_same_amount_proof _ _ _ (f x) Hg)].
  - exact (unit_to_same_amount_proof _ _ _ x Hh).
Qed.
Lemma unit_to_refl_proof : forall a, unit_to a a = Ok (fun x => x).
Proof. intros a; unfold unit_to. assert (unit_eqb a a = true) as -> by now apply unit_eqb_spec. reflexivity. Qed.

(** every registered conversion has its inverse registered, but for MWd to GWh *)
Theorem unit_to_back_proof : forall a b f, unit_to a b = Ok f ->
  (a = MEGA_WATT_DAYS /\ b = GIGA_WATT_HOURS) \/ exists g, unit_to b a = Ok g.
Proof.
  intros a b f H. unfold unit_to in *. destruct (unit_eqb a b) eqn:E.
  - apply unit_eqb_spec in E. subst. right. assert (unit_eqb b b = true) as -> by now apply unit_eqb_spec. eauto.
  - assert (unit_eqb b a = false) as ->.
    { destruct (unit_eqb b a) eqn:E'; auto. apply unit_eqb_spec in E'. subst. assert (unit_eqb a a = true) by now apply unit_eqb_spec. congruence. }
    destruct a, b; cbn in H; try discriminate; try (right; eexists; reflexivity). left; auto.
Qed.
Theorem rate_volume_unit_proof : forall u v, rate_to_volume u = Ok v <-> volume_to_rate v = Ok u.
Proof. intros u v; destruct u, v; cbn; split; congruence. Qed.
(** converting a rate and converting the corresponding volume use the same factor *)
Theorem rate_volume_conversion_proof : forall u v u' v' f g x,
  rate_to_volume u = Ok u' -> rate_to_volume v = Ok v' ->
  unit_to u v = Ok f -> unit_to u' v' = Ok g -> f x = g x.
Proof.
  intros u v u' v' f g x H1 H2 H3 H4.
  destruct u; cbn in H1; try discriminate; injection H1 as <-;
  destruct v; cbn in H2; try discriminate; injection H2 as <-; cbn in H3, H4; try discriminate;
  injection H3 as <-; injection H4 as <-; reflexivity.
Qed.

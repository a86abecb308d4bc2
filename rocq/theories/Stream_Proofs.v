(** Mixing of streams. *)
From Coq Require Import List Bool ZArith Lia Permutation PeanoNat.
From Verif Require Import QcTac Num Base BaseLemmas Search_Model Stream_Model Stream_Spec System_Proofs2 Rates_Proofs.
Import ListNotations.
Local Open Scope Qc_scope.

Lemma qsum_nonneg : forall l, (forall x, In x l -> 0 <= x) -> 0 <= qsum l.
Proof.
  induction l as [|x l IH]; intros H; cbn; [qc_lra|].
  pose proof (H x (or_introl eq_refl)). specialize (IH (fun y Hy => H y (or_intror Hy))). unfold qsum in IH. qc_lra.
Qed.
Lemma qsum_div : forall (l : list Qc) t, t <> 0 -> qsum (map (fun v => v / t) l) = qsum l / t.
Proof.
  intros l t Ht. induction l as [|x l IH]; cbn; [unfold Qcdiv; ring|]. unfold qsum in IH. rewrite IH. field. assumption.
Qed.
Lemma qsum_nth : forall (l : list Qc), qsum l = qsum (map (fun i => nth i l 0) (seq 0 (length l))).
Proof.
  intros l. f_equal. apply list_ext_nth.
  intros i. destruct (lt_dec i (length l)) as [H|H].
  - rewrite nth_error_map. rewrite (nth_error_nth' l 0 H).
    assert (E : nth_error (seq 0 (length l)) i = Some i).
    { rewrite (nth_error_nth' _ O) by (rewrite seq_length; assumption). rewrite seq_nth by assumption. reflexivity. }
    rewrite E. reflexivity.
  - rewrite (proj2 (nth_error_None l i)) by lia. symmetry. apply nth_error_None. rewrite map_length, seq_length. lia.
Qed.

Lemma existsb_negative : forall l, existsb (fun v => Qcltb v 0) l = false <-> forall x, In x l -> 0 <= x.
Proof.
  intros l; split.
  - intros H x Hx. destruct (Qcltb x 0) eqn:E.
    + assert (existsb (fun v => Qcltb v 0) l = true) by (apply existsb_exists; exists x; split; assumption). congruence.
    + apply Qcltb_ge in E. assumption.
  - intros H. apply Bool.not_true_is_false. intros E. apply existsb_exists in E. destruct E as [x [Hx E]].
    apply Qcltb_lt in E. specialize (H x Hx). qc_lra.
Qed.

Lemma div_nonneg : forall x t, 0 <= x -> 0 < t -> 0 <= x / t.
Proof.
  intros x t Hx Ht. assert (E : x = x / t * t) by (field; intros ->; revert Ht; apply Qclt_not_eq || (intros; qc_lra)).
  destruct (Qclt_le_dec (x / t) 0) as [H|H]; [|assumption]. exfalso. qc_nra.
Qed.

Lemma normalized_ok : forall c, proper_composition c ->
  normalized c = Return (map (fun v => v / qsum c) c) /\ qsum (map (fun v => v / qsum c) c) = 1 /\
  (forall x, In x (map (fun v => v / qsum c) c) -> 0 <= x).
Proof.
  intros c [Hl [Hn Hs]]. assert (Hne : qsum c <> 0) by (intros E; rewrite E in Hs; revert Hs; apply Qclt_not_le || (intros; qc_lra); qc_lra).
  assert (Hnn : forall x, In x (map (fun v => v / qsum c) c) -> 0 <= x).
  { intros x Hx. apply in_map_iff in Hx. destruct Hx as [v [<- Hv]]. apply div_nonneg; [apply Hn; assumption|assumption]. }
  split; [|split].
  - unfold normalized. destruct (Qceqb (qsum c) 0) eqn:E; [apply Qceqb_eq in E; contradiction|].
    unfold mk_composition. rewrite (proj2 (existsb_negative _) Hnn). reflexivity.
  - rewrite qsum_div by assumption. field. assumption.
  - assumption.
Qed.

Lemma nth_normalized : forall c i, nth i (map (fun v => v / qsum c) c) 0 = mole_fraction c i.
Proof.
  intros c i. unfold mole_fraction. destruct (lt_dec i (length c)) as [H|H].
  - rewrite (nth_indep _ 0 (0 / qsum c)) by (rewrite map_length; assumption).
    rewrite (map_nth (fun v => v / qsum c)). reflexivity.
  - rewrite !nth_overflow by (rewrite ?map_length; lia). unfold Qcdiv. ring.
Qed.

Lemma mole_fraction_sum : forall c, proper_composition c -> qsum (map (mole_fraction c) (seq 0 11)) = 1.
Proof.
  intros c Hc. destruct (normalized_ok c Hc) as [_ [H _]]. rewrite <- H.
  rewrite (qsum_nth (map (fun v => v / qsum c) c)). rewrite map_length, (proj1 Hc).
  f_equal. apply map_ext. intros i. symmetry. apply nth_normalized.
Qed.
Lemma mole_fraction_nonneg : forall c i, proper_composition c -> 0 <= mole_fraction c i.
Proof.
  intros c i [Hl [Hn Hs]]. unfold mole_fraction. apply div_nonneg; [|assumption].
  destruct (lt_dec i (length c)) as [H|H]; [apply Hn, nth_In; assumption|]. rewrite nth_overflow by lia. qc_lra.
Qed.
Lemma qsum_pos_exists : forall A (f g : A -> Qc) l, (forall x, In x l -> 0 <= f x) -> 0 < qsum (map f l) ->
  (forall x, In x l -> 0 < g x) -> 0 < qsum (map (fun x => f x * g x) l).
Proof.
  intros A f g l. induction l as [|x l IH]; intros Hf Hs Hg; cbn in *; [assumption|].
  pose proof (Hf x (or_introl eq_refl)) as Hx. pose proof (Hg x (or_introl eq_refl)) as Hgx.
  assert (Hrest : 0 <= qsum (map f l)) by (apply qsum_nonneg; intros y Hy; apply in_map_iff in Hy; destruct Hy as [z [<- Hz]]; apply Hf; right; assumption).
  assert (Hrest2 : 0 <= qsum (map (fun x => f x * g x) l)).
  { apply qsum_nonneg. intros y Hy. apply in_map_iff in Hy. destruct Hy as [z [<- Hz]].
    pose proof (Hf z (or_intror Hz)). pose proof (Hg z (or_intror Hz)). qc_nra. }
  destruct (Qclt_le_dec 0 (f x)) as [H|H].
  - unfold qsum in Hrest2. assert (0 < f x * g x) by qc_nra. qc_lra.
  - assert (E : f x = 0) by (apply Qcle_antisym; assumption). rewrite E in *.
    specialize (IH (fun y Hy => Hf y (or_intror Hy))). unfold qsum in *.
    assert (Hr : 0 < fold_right Qcplus 0 (map f l)) by qc_lra. specialize (IH Hr (fun y Hy => Hg y (or_intror Hy))). qc_lra.
Qed.
Lemma weights_positive : forall i, (i < 11)%nat -> 0 < nth i molecular_weights 0.
Proof.
  intros i Hi. do 11 (destruct i as [|i]; [vm_compute; reflexivity|]). lia.
Qed.
Lemma average_positive : forall c, proper_composition c -> 0 < average_molar_mass c.
Proof.
  intros c Hc. unfold average_molar_mass. apply qsum_pos_exists.
  - intros i _. apply mole_fraction_nonneg; assumption.
  - rewrite (mole_fraction_sum c Hc). vm_compute; reflexivity.
  - intros i Hi. apply in_seq in Hi. apply weights_positive. lia.
Qed.

(** FluidComposition.molar_mass_mixture is that average. *)
Lemma molar_mass_proof : forall c, proper_composition c -> molar_mass_mixture c = Return (average_molar_mass c).
Proof.
  intros c Hc. destruct (normalized_ok c Hc) as [H [_ Hn]]. unfold molar_mass_mixture. rewrite H. cbn [obind]. f_equal.
  unfold average_molar_mass.
  assert (E : map (fun p => if Qcltb 0 (fst p) then fst p * snd p else 0) (combine (map (fun v => v / qsum c) c) molecular_weights)
    = map (fun i => mole_fraction c i * nth i molecular_weights 0) (seq 0 11)).
  { apply list_ext_nth. intros i. rewrite !nth_error_map.
    destruct (lt_dec i 11) as [Hi|Hi].
    - assert (E1 : nth_error (combine (map (fun v => v / qsum c) c) molecular_weights) i = Some (mole_fraction c i, nth i molecular_weights 0)).
      { rewrite (nth_error_nth' _ (0, 0)).
        - rewrite combine_nth by (rewrite map_length, (proj1 Hc); reflexivity). rewrite nth_normalized. reflexivity.
        - rewrite combine_length, map_length, (proj1 Hc). cbn. lia. }
      rewrite E1. assert (E2 : nth_error (seq 0 11) i = Some i).
      { rewrite (nth_error_nth' _ O) by (rewrite seq_length; assumption). rewrite seq_nth by assumption. reflexivity. }
      rewrite E2. cbn [option_map fst snd]. f_equal. destruct (Qcltb 0 (mole_fraction c i)) eqn:E; [reflexivity|].
      apply Qcltb_ge in E. pose proof (mole_fraction_nonneg c i Hc).
      assert (E0 : mole_fraction c i = 0) by (apply Qcle_antisym; assumption). rewrite E0. ring.
    - rewrite (proj2 (nth_error_None _ i)) by (rewrite combine_length, map_length, (proj1 Hc); cbn; lia).
      rewrite (proj2 (nth_error_None _ i)) by (rewrite seq_length; lia). reflexivity. }
  rewrite E. reflexivity.
Qed.

(** ** The component balance *)
Definition mole_rate (s : stream) : Qc := s_mass_rate s / s_molar_mass s.

Lemma add_rates_nth : forall a b i, length a = length b -> nth i (add_rates a b) 0 = nth i a 0 + nth i b 0.
Proof.
  intros a b i H. unfold add_rates. destruct (lt_dec i (length a)) as [Hi|Hi].
  - assert (E : nth_error (map (fun p => fst p + snd p) (combine a b)) i = Some (nth i a 0 + nth i b 0)).
    { rewrite nth_error_map, (nth_error_nth' _ (0, 0)) by (rewrite combine_length; lia). rewrite combine_nth by assumption. reflexivity. }
    apply nth_error_nth. exact E.
  - rewrite !nth_overflow; [ring|lia|lia|]. rewrite map_length, combine_length. lia.
Qed.

Lemma nth_ext_11 : forall (l m : list Qc), length l = 11%nat -> length m = 11%nat ->
  (forall i, (i < 11)%nat -> nth i l 0 = nth i m 0) -> l = m.
Proof. intros l m Hl Hm H. apply (nth_ext l m 0 0); [congruence|]. intros i Hi. apply H. lia. Qed.

Lemma nth_seq_map : forall (f : nat -> Qc) n i, (i < n)%nat -> nth i (map f (seq 0 n)) 0 = f i.
Proof.
  intros f n i Hi. rewrite (nth_indep _ 0 (f O)) by (rewrite map_length, seq_length; assumption).
  rewrite map_nth, seq_nth by assumption. reflexivity.
Qed.

Lemma component_rates_ok : forall streams acc,
  Forall proper_stream streams -> length acc = 11%nat ->
  component_rates acc (combine streams (map mole_rate streams)) =
  Return (map (fun i => nth i acc 0 + qsum (map (fun s => mole_rate s * mole_fraction (fm_composition (s_model s)) i) streams)) (seq 0 11)).
Proof.
  induction streams as [|s streams IH]; intros acc Hp Hl; cbn [combine map component_rates].
  - f_equal. apply nth_ext_11; [assumption|rewrite map_length; apply seq_length|].
    intros i Hi. rewrite (nth_seq_map (fun i => nth i acc 0 + qsum [])) by assumption. cbn. ring.
  - inversion Hp as [|? ? Hs Hp']; subst. destruct (normalized_ok _ (proj1 Hs)) as [En _]. rewrite En. cbn [obind].
    assert (Hlen : length (map (fun x => mole_rate s * x) (map (fun v => v / qsum (fm_composition (s_model s))) (fm_composition (s_model s)))) = 11%nat)
      by (rewrite !map_length; exact (proj1 (proj1 Hs))).
    rewrite IH; [|assumption|unfold add_rates; rewrite map_length, combine_length, Hl, Hlen; reflexivity].
    f_equal. apply map_ext. intros i. rewrite add_rates_nth by (rewrite Hl, Hlen; reflexivity).
    assert (E : nth i (map (fun x => mole_rate s * x) (map (fun v => v / qsum (fm_composition (s_model s))) (fm_composition (s_model s)))) 0
       = mole_rate s * mole_fraction (fm_composition (s_model s)) i).
    { rewrite <- nth_normalized. destruct (lt_dec i 11) as [Hi|Hi].
      - rewrite (nth_indep _ 0 (mole_rate s * 0)) by (rewrite Hlen; assumption). rewrite (map_nth (fun x => mole_rate s * x)). reflexivity.
      - rewrite !nth_overflow; [ring| |].
        + rewrite map_length, (proj1 (proj1 Hs)). lia.
        + rewrite Hlen. lia. }
    rewrite E. unfold qsum. cbn [map fold_right]. ring.
Qed.

Lemma mole_rate_nonneg : forall s, proper_stream s -> 0 <= mole_rate s.
Proof.
  intros s [Hc [Hm Hr]]. unfold mole_rate. apply div_nonneg; [assumption|]. rewrite Hm. apply average_positive; assumption.
Qed.
Lemma mole_rate_mass : forall s, proper_stream s -> mole_rate s * average_molar_mass (fm_composition (s_model s)) = s_mass_rate s.
Proof.
  intros s [Hc [Hm Hr]]. unfold mole_rate. rewrite Hm. field. pose proof (average_positive _ Hc) as H. intros E. rewrite E in H.
  revert H. apply Qclt_not_le || idtac. qc_lra.
Qed.

Lemma qsum_zero : forall l, (forall x, In x l -> 0 <= x) -> qsum l = 0 -> forall x, In x l -> x = 0.
Proof.
  induction l as [|y l IH]; intros Hn Hs x Hx; [destruct Hx|]. cbn in Hs.
  pose proof (Hn y (or_introl eq_refl)) as Hy. pose proof (qsum_nonneg l (fun z Hz => Hn z (or_intror Hz))) as Hr.
  unfold qsum in Hr.
  assert (y = 0) by qc_lra. assert (Hs' : qsum l = 0) by (unfold qsum; qc_lra).
  destruct Hx as [<-|Hx]; [assumption|]. apply IH; [intros z Hz; apply Hn; right; assumption|assumption|assumption].
Qed.
Lemma qsum_allzero : forall l, (forall x, In x l -> x = 0) -> qsum l = 0.
Proof.
  induction l as [|y l IH]; intros H; [reflexivity|]. cbn. rewrite (H y (or_introl eq_refl)).
  specialize (IH (fun z Hz => H z (or_intror Hz))). unfold qsum in IH. rewrite IH. ring.
Qed.

Lemma qmin_spec : forall l x, (qmin x l = x \/ In (qmin x l) l) /\ qmin x l <= x /\ forall y, In y l -> qmin x l <= y.
Proof.
  induction l as [|z l IH]; intros x; cbn [qmin].
  - split; [left; reflexivity|]. split; [qc_lra|]. intros y [].
  - destruct (IH (Qcmin x z)) as [H1 [H2 H3]]. unfold Qcmin in *.
    destruct (Qcleb x z) eqn:E.
    + apply Qcleb_le in E. split; [destruct H1; [left; assumption|right; right; assumption]|]. split; [assumption|].
      intros y [<-|Hy]; [qc_lra|apply H3; assumption].
    + apply Qcleb_gt in E. split; [destruct H1 as [H1|H1]; [right; left; congruence|right; right; assumption]|]. split; [qc_lra|].
      intros y [<-|Hy]; [assumption|apply H3; assumption].
Qed.

Lemma eos_eqb_spec : forall a b, eos_eqb a b = true <-> a = b.
Proof. intros [] []; cbn; split; congruence. Qed.

(** the mixed composition *)
Definition mixed_composition (streams : list stream) : composition :=
  map (fun i => qsum (map (fun s => mole_rate s * mole_fraction (fm_composition (s_model s)) i) streams) / qsum (map mole_rate streams)) (seq 0 11).

Lemma mixed_sum : forall streams, Forall proper_stream streams -> 0 < qsum (map mole_rate streams) ->
  qsum (mixed_composition streams) = 1.
Proof.
  intros streams Hp Ht. unfold mixed_composition.
  set (N := qsum (map mole_rate streams)) in *.
  assert (HN : N <> 0) by (intros E; rewrite E in Ht; qc_lra).
  assert (E : qsum (map (fun i => qsum (map (fun s => mole_rate s * mole_fraction (fm_composition (s_model s)) i) streams) / N) (seq 0 11)) =
    qsum (map (fun v => v / N) (map (fun i => qsum (map (fun s => mole_rate s * mole_fraction (fm_composition (s_model s)) i) streams)) (seq 0 11))))
    by (rewrite map_map; reflexivity).
  rewrite E, qsum_div by assumption.
  rewrite (qsum_swap nat stream (fun i s => mole_rate s * mole_fraction (fm_composition (s_model s)) i)).
  assert (E2 : qsum (map (fun b => qsum (map (fun a => mole_rate b * mole_fraction (fm_composition (s_model b)) a) (seq 0 11))) streams) = N).
  { unfold N. apply qsum_ext_in. intros s Hs. rewrite (qsum_scale nat (mole_fraction (fm_composition (s_model s)))).
    rewrite Forall_forall in Hp. rewrite mole_fraction_sum by (apply Hp; assumption). ring. }
  rewrite E2. field. assumption.
Qed.

Lemma mixed_proper : forall streams, Forall proper_stream streams -> 0 < qsum (map mole_rate streams) ->
  proper_composition (mixed_composition streams).
Proof.
  intros streams Hp Ht. split; [unfold mixed_composition; rewrite map_length; apply seq_length|]. split.
  - intros x Hx. apply in_map_iff in Hx. destruct Hx as [i [<- _]]. apply div_nonneg; [|assumption].
    apply qsum_nonneg. intros y Hy. apply in_map_iff in Hy. destruct Hy as [s [<- Hs]]. rewrite Forall_forall in Hp.
    specialize (Hp s Hs). pose proof (mole_rate_nonneg s Hp). pose proof (mole_fraction_nonneg _ i (proj1 Hp)). qc_nra.
  - rewrite (mixed_sum streams Hp Ht). vm_compute; reflexivity.
Qed.

Lemma mixed_fraction : forall streams i, Forall proper_stream streams -> 0 < qsum (map mole_rate streams) -> (i < 11)%nat ->
  mole_fraction (mixed_composition streams) i =
  qsum (map (fun s => mole_rate s * mole_fraction (fm_composition (s_model s)) i) streams) / qsum (map mole_rate streams).
Proof.
  intros streams i Hp Ht Hi. unfold mole_fraction at 1. rewrite (mixed_sum streams Hp Ht).
  unfold mixed_composition. rewrite nth_seq_map by assumption.
  unfold Qcdiv. replace (/ 1) with 1 by (apply Qc_is_canon; vm_compute; reflexivity). ring.
Qed.

Lemma mixed_molar_mass : forall streams, Forall proper_stream streams -> 0 < qsum (map mole_rate streams) ->
  average_molar_mass (mixed_composition streams) * qsum (map mole_rate streams) = total s_mass_rate streams.
Proof.
  intros streams Hp Ht. unfold average_molar_mass. set (N := qsum (map mole_rate streams)) in *.
  assert (HN : N <> 0) by (intros E; rewrite E in Ht; qc_lra).
  rewrite Qcmult_comm, <- (qsum_scale nat (fun i => mole_fraction (mixed_composition streams) i * nth i molecular_weights 0)).
  assert (E1 : qsum (map (fun i => N * (mole_fraction (mixed_composition streams) i * nth i molecular_weights 0)) (seq 0 11)) =
    qsum (map (fun i => qsum (map (fun s => mole_rate s * (mole_fraction (fm_composition (s_model s)) i * nth i molecular_weights 0)) streams)) (seq 0 11))).
  { apply qsum_ext_in. intros i Hi. apply in_seq in Hi. rewrite mixed_fraction by (try assumption; lia). fold N.
    replace (qsum (map (fun s => mole_rate s * (mole_fraction (fm_composition (s_model s)) i * nth i molecular_weights 0)) streams))
      with (nth i molecular_weights 0 * qsum (map (fun s => mole_rate s * mole_fraction (fm_composition (s_model s)) i) streams)).
    - field. assumption.
    - rewrite <- (qsum_scale stream (fun s => mole_rate s * mole_fraction (fm_composition (s_model s)) i)). apply qsum_ext_in. intros s _. ring. }
  rewrite E1, (qsum_swap nat stream (fun i s => mole_rate s * (mole_fraction (fm_composition (s_model s)) i * nth i molecular_weights 0))).
  unfold total. apply qsum_ext_in. intros s Hs.
  rewrite (qsum_scale nat (fun i => mole_fraction (fm_composition (s_model s)) i * nth i molecular_weights 0)).
  fold (average_molar_mass (fm_composition (s_model s))). apply mole_rate_mass. rewrite Forall_forall in Hp. apply Hp; assumption.
Qed.

(** ** The whole function *)
Definition mixing_enthalpy (streams : list stream) : Qc :=
  total (fun s => s_mass_rate s * s_enthalpy s) streams / total s_mass_rate streams.
Definition mixing_guess (streams : list stream) : Qc :=
  total (fun s => s_mass_rate s * s_temperature s) streams / total s_mass_rate streams.

Lemma total_mole_rate_pos : forall streams, Forall proper_stream streams -> total s_mass_rate streams <> 0 ->
  0 < qsum (map mole_rate streams) /\ 0 < total s_mass_rate streams.
Proof.
  intros streams Hp Hne.
  assert (Hn : forall x, In x (map mole_rate streams) -> 0 <= x).
  { intros x Hx. apply in_map_iff in Hx. destruct Hx as [s [<- Hs]]. apply mole_rate_nonneg. rewrite Forall_forall in Hp. apply Hp; assumption. }
  assert (Hm : forall x, In x (map s_mass_rate streams) -> 0 <= x).
  { intros x Hx. apply in_map_iff in Hx. destruct Hx as [s [<- Hs]]. rewrite Forall_forall in Hp. apply (Hp s Hs). }
  split.
  - destruct (Qclt_le_dec 0 (qsum (map mole_rate streams))) as [H|H]; [assumption|]. exfalso. apply Hne.
    assert (E : qsum (map mole_rate streams) = 0) by (apply Qcle_antisym; [assumption|apply qsum_nonneg; assumption]).
    unfold total. apply qsum_allzero. intros x Hx. apply in_map_iff in Hx. destruct Hx as [s [<- Hs]].
    rewrite <- mole_rate_mass by (rewrite Forall_forall in Hp; apply Hp; assumption).
    rewrite (qsum_zero _ Hn E (mole_rate s)) by (apply in_map; assumption). ring.
  - destruct (Qclt_le_dec 0 (total s_mass_rate streams)) as [H|H]; [assumption|]. exfalso. apply Hne.
    apply Qcle_antisym; [assumption|apply qsum_nonneg; assumption].
Qed.

Lemma mix_streams_eq : forall sv s0 rest, Forall proper_stream (s0 :: rest) ->
  mix_streams sv (s0 :: rest) =
  let streams := s0 :: rest in
  if Qceqb (total s_mass_rate streams) 0 then Raise ZeroTotalMassRate
  else if existsb (fun s => negb (eos_eqb (fm_eos (s_model s)) (fm_eos (s_model s0)))) rest then Raise IncompatibleEoS
  else
    let m := mk_model (fm_eos (s_model s0)) (mixed_composition streams) in
    let! props := flash_ph sv m (qmin (s_pressure s0) (map s_pressure rest)) (mixing_enthalpy streams) (Some (mixing_guess streams)) in
    Return (mk_stream (mk_fluid m props) (total s_mass_rate streams)).
Proof.
  intros sv s0 rest Hp. unfold mix_streams. cbv zeta. fold (total s_mass_rate (s0 :: rest)).
  destruct (Qceqb (total s_mass_rate (s0 :: rest)) 0) eqn:E0; [reflexivity|]. apply Qceqb_neq in E0.
  destruct (existsb _ rest); [reflexivity|].
  destruct (total_mole_rate_pos (s0 :: rest) Hp E0) as [HN HM].
  change (map (fun s => s_mass_rate s / s_molar_mass s) (s0 :: rest)) with (map mole_rate (s0 :: rest)).
  rewrite (component_rates_ok (s0 :: rest) (repeat 0 components) Hp eq_refl). cbn [obind].
  assert (Ec : map (fun r => r / qsum (map mole_rate (s0 :: rest)))
     (map (fun i => nth i (repeat 0 components) 0 + qsum (map (fun s => mole_rate s * mole_fraction (fm_composition (s_model s)) i) (s0 :: rest))) (seq 0 11))
     = mixed_composition (s0 :: rest)).
  { rewrite map_map. unfold mixed_composition. apply map_ext. intros i.
    assert (E : nth i (repeat 0 components) 0 = 0) by (apply nth_repeat). rewrite E. f_equal. ring. }
  rewrite Ec. pose proof (mixed_proper (s0 :: rest) Hp HN) as Hmix.
  unfold mk_composition. rewrite (proj2 (existsb_negative _) (proj1 (proj2 Hmix))). cbn [obind].
  destruct (normalized_ok _ Hmix) as [En _]. rewrite En. cbn [obind].
  assert (Eid : map (fun v => v / qsum (mixed_composition (s0 :: rest))) (mixed_composition (s0 :: rest)) = mixed_composition (s0 :: rest)).
  { rewrite (mixed_sum (s0 :: rest) Hp HN). rewrite <- (map_id (mixed_composition (s0 :: rest))) at 2. apply map_ext. intros v. field.
    vm_compute; discriminate. }
  rewrite Eid. unfold mixing_enthalpy, mixing_guess.
  fold (total (fun s => s_mass_rate s * s_enthalpy s) (s0 :: rest)). fold (total (fun s => s_mass_rate s * s_temperature s) (s0 :: rest)).
  destruct (flash_ph sv _ _ _ _) as [props|e]; cbn [obind]; [|reflexivity].
  unfold new_stream. destruct (Qcltb (total s_mass_rate (s0 :: rest)) 0) eqn:En2; [apply Qcltb_lt in En2; qc_lra|]. reflexivity.
Qed.

Lemma mixture_holds : forall s0 rest, Forall proper_stream (s0 :: rest) -> total s_mass_rate (s0 :: rest) <> 0 ->
  existsb (fun s => negb (eos_eqb (fm_eos (s_model s)) (fm_eos (s_model s0)))) rest = false ->
  is_mixture (s0 :: rest) (mk_model (fm_eos (s_model s0)) (mixed_composition (s0 :: rest)))
    (qmin (s_pressure s0) (map s_pressure rest)) (mixing_enthalpy (s0 :: rest)) (total s_mass_rate (s0 :: rest)).
Proof.
  intros s0 rest Hp Hne Heos. destruct (total_mole_rate_pos _ Hp Hne) as [HN HM].
  split; [reflexivity|]. split.
  { destruct (qmin_spec (map s_pressure rest) (s_pressure s0)) as [H1 [H2 H3]]. split.
    - destruct H1 as [H1|H1]; [exists s0; split; [left; reflexivity|congruence]|].
      apply in_map_iff in H1. destruct H1 as [s [E Hs]]. exists s. split; [right; assumption|assumption].
    - intros s [<-|Hs]; [assumption|]. apply H3. apply in_map; assumption. }
  split; [unfold mixing_enthalpy; field; assumption|]. split.
  { intros s [<-|Hs]; [reflexivity|]. cbn [fm_eos].
    destruct (eos_eqb (fm_eos (s_model s)) (fm_eos (s_model s0))) eqn:E; [apply eos_eqb_spec; assumption|].
    exfalso. assert (existsb (fun s => negb (eos_eqb (fm_eos (s_model s)) (fm_eos (s_model s0)))) rest = true)
      by (apply existsb_exists; exists s; split; [assumption|rewrite E; reflexivity]). congruence. }
  cbn [fm_composition]. split; [apply mixed_proper; assumption|]. split; [apply mixed_sum; assumption|].
  intros i Hi. unfold component_molar_rate at 1. rewrite mixed_fraction by assumption.
  rewrite <- (mixed_molar_mass (s0 :: rest) Hp HN).
  set (N := qsum (map mole_rate (s0 :: rest))) in *. set (A := average_molar_mass (mixed_composition (s0 :: rest))).
  assert (HA : 0 < A) by (apply average_positive, mixed_proper; assumption).
  unfold total.
  assert (E : qsum (map (fun s => component_molar_rate (s_mass_rate s) (fm_composition (s_model s)) i) (s0 :: rest)) =
              qsum (map (fun s => mole_rate s * mole_fraction (fm_composition (s_model s)) i) (s0 :: rest))).
  { apply qsum_ext_in. intros s Hs. unfold component_molar_rate, mole_rate. rewrite Forall_forall in Hp.
    rewrite (proj1 (proj2 (Hp s Hs))). reflexivity. }
  rewrite E. field; repeat split; intros E1; try (rewrite E1 in HN; qc_lra); rewrite E1 in HA; qc_lra.
Qed.

Lemma mix_streams_proof : forall sv streams, Forall proper_stream streams ->
  match mix_streams sv streams with
  | Return out =>
      (exists enthalpy guess pressure, is_mixture streams (s_model out) pressure enthalpy (s_mass_rate out) /\
         flash_ph sv (s_model out) pressure enthalpy guess = Return (f_properties (s_fluid out)))
  | Raise e =>
      (e = EmptyStreamList /\ streams = []) \/
      (e = ZeroTotalMassRate /\ streams <> [] /\ forall s, In s streams -> s_mass_rate s = 0) \/
      (e = IncompatibleEoS /\ exists a b, In a streams /\ In b streams /\ fm_eos (s_model a) <> fm_eos (s_model b)) \/
      (exists m pressure enthalpy guess mass_rate, is_mixture streams m pressure enthalpy mass_rate /\
         flash_ph sv m pressure enthalpy guess = Raise e)
  end.
Proof.
  intros sv [|s0 rest] Hp; [left; split; reflexivity|]. rewrite mix_streams_eq by assumption. cbv zeta.
  destruct (Qceqb (total s_mass_rate (s0 :: rest)) 0) eqn:E0.
  - apply Qceqb_eq in E0. right; left. split; [reflexivity|]. split; [discriminate|]. intros s Hs.
    apply (qsum_zero (map s_mass_rate (s0 :: rest))); [|exact E0|apply in_map; assumption].
    intros x Hx. apply in_map_iff in Hx. destruct Hx as [t [<- Ht]]. rewrite Forall_forall in Hp. apply (Hp t Ht).
  - apply Qceqb_neq in E0. destruct (existsb _ rest) eqn:Ee.
    + right; right; left. split; [reflexivity|]. apply existsb_exists in Ee. destruct Ee as [s [Hs E]].
      exists s, s0. split; [right; assumption|]. split; [left; reflexivity|]. intros H. apply eos_eqb_spec in H. rewrite H in E. discriminate.
    + pose proof (mixture_holds s0 rest Hp E0 Ee) as Hmix.
      destruct (flash_ph sv _ _ _ _) as [props|e] eqn:Ef; cbn [obind].
      * exists (mixing_enthalpy (s0 :: rest)), (Some (mixing_guess (s0 :: rest))), (qmin (s_pressure s0) (map s_pressure rest)).
        cbn [s_model s_fluid f_model f_properties s_mass_rate]. split; assumption.
      * right; right; right. do 5 eexists. split; [exact Hmix|exact Ef].
Qed.

(** ** The order of the streams does not matter *)
Lemma qsum_perm : forall l m, Permutation l m -> qsum l = qsum m.
Proof.
  intros l m H. induction H as [|x l m H IH|x y l|l m n H1 IH1 H2 IH2]; [reflexivity| | |congruence]; unfold qsum in *; cbn.
  - rewrite IH; reflexivity.
  - ring.
Qed.
Lemma qsum_map_perm : forall A (f : A -> Qc) l m, Permutation l m -> qsum (map f l) = qsum (map f m).
Proof. intros A f l m H. apply qsum_perm, Permutation_map, H. Qed.

Lemma lowest_pressure_unique : forall l p q, lowest_pressure l p -> lowest_pressure l q -> p = q.
Proof.
  intros l p q [[s [Hs Es]] Hp] [[t [Ht Et]] Hq]. specialize (Hp t Ht). specialize (Hq s Hs). apply Qcle_antisym; congruence.
Qed.

Lemma mix_order_proof : forall sv l m, Forall proper_stream l -> Permutation l m -> mix_streams sv l = mix_streams sv m.
Proof.
  intros sv l m Hl Hperm.
  assert (Hm : Forall proper_stream m) by (rewrite Forall_forall in *; intros s Hs; apply Hl; eapply Permutation_in; [symmetry; exact Hperm|exact Hs]).
  destruct l as [|a l]; [apply Permutation_nil in Hperm; subst m; reflexivity|].
  destruct m as [|b m]; [symmetry in Hperm; apply Permutation_nil in Hperm; discriminate|].
  rewrite !mix_streams_eq by assumption. cbv zeta.
  assert (Et : total s_mass_rate (a :: l) = total s_mass_rate (b :: m)) by (apply qsum_map_perm; assumption).
  rewrite Et. destruct (Qceqb (total s_mass_rate (b :: m)) 0) eqn:E0; [reflexivity|]. apply Qceqb_neq in E0.
  assert (Hex : forall x xs y ys, Permutation (x :: xs) (y :: ys) ->
    existsb (fun s => negb (eos_eqb (fm_eos (s_model s)) (fm_eos (s_model x)))) xs = false ->
    existsb (fun s => negb (eos_eqb (fm_eos (s_model s)) (fm_eos (s_model y)))) ys = false /\ fm_eos (s_model x) = fm_eos (s_model y)).
  { intros x xs y ys Hxy E.
    assert (Hall : forall s, In s (x :: xs) -> fm_eos (s_model s) = fm_eos (s_model x)).
    { intros s [<-|Hs]; [reflexivity|]. destruct (eos_eqb (fm_eos (s_model s)) (fm_eos (s_model x))) eqn:Es; [apply eos_eqb_spec; assumption|].
      exfalso. assert (existsb (fun s => negb (eos_eqb (fm_eos (s_model s)) (fm_eos (s_model x)))) xs = true)
        by (apply existsb_exists; exists s; split; [assumption|rewrite Es; reflexivity]). congruence. }
    assert (Hy : fm_eos (s_model y) = fm_eos (s_model x)) by (apply Hall; eapply Permutation_in; [symmetry; exact Hxy|left; reflexivity]).
    split; [|congruence]. apply Bool.not_true_is_false. intros Et2. apply existsb_exists in Et2. destruct Et2 as [s [Hs Es]].
    assert (fm_eos (s_model s) = fm_eos (s_model x)) by (apply Hall; eapply Permutation_in; [symmetry; exact Hxy|right; exact Hs]).
    assert (Et3 : eos_eqb (fm_eos (s_model s)) (fm_eos (s_model y)) = true) by (apply eos_eqb_spec; congruence). rewrite Et3 in Es. discriminate. }
  destruct (existsb (fun s => negb (eos_eqb (fm_eos (s_model s)) (fm_eos (s_model a)))) l) eqn:Ea.
  - destruct (existsb (fun s => negb (eos_eqb (fm_eos (s_model s)) (fm_eos (s_model b)))) m) eqn:Eb; [reflexivity|].
    symmetry in Hperm. apply (Hex b m a l Hperm) in Eb. destruct Eb as [Eb _]. congruence.
  - destruct (Hex a l b m Hperm Ea) as [Eb Eeos]. rewrite Eb.
    assert (Ela : total s_mass_rate (a :: l) <> 0) by congruence.
    pose proof (mixture_holds a l Hl Ela Ea) as [_ [Hpa _]]. pose proof (mixture_holds b m Hm E0 Eb) as [_ [Hpb _]].
    assert (Ep : qmin (s_pressure a) (map s_pressure l) = qmin (s_pressure b) (map s_pressure m)).
    { apply (lowest_pressure_unique (b :: m)); [|assumption]. destruct Hpa as [[s [Hs Es]] Hmin]. split.
      - exists s. split; [eapply Permutation_in; eassumption|assumption].
      - intros t Ht. apply Hmin. eapply Permutation_in; [symmetry; exact Hperm|exact Ht]. }
    assert (Ec : mixed_composition (a :: l) = mixed_composition (b :: m)).
    { unfold mixed_composition. rewrite (qsum_map_perm _ mole_rate _ _ Hperm). apply map_ext. intros i. f_equal. apply qsum_map_perm; assumption. }
    assert (Eh : mixing_enthalpy (a :: l) = mixing_enthalpy (b :: m)) by (unfold mixing_enthalpy; rewrite Et; f_equal; apply qsum_map_perm; assumption).
    assert (Eg : mixing_guess (a :: l) = mixing_guess (b :: m)) by (unfold mixing_guess; rewrite Et; f_equal; apply qsum_map_perm; assumption).
    rewrite Ep, Ec, Eh, Eg, Eeos. reflexivity.
Qed.

(** ** Standard and mass rates *)
Lemma pos_neq : forall x : Qc, 0 < x -> x <> 0.
Proof. intros x H E. rewrite E in H. qc_lra. Qed.
Lemma hours_pos : 0 < hours_per_day.
Proof. vm_compute; reflexivity. Qed.
Lemma rate_sign : forall r d, 0 < d -> Qcltb (r * d / hours_per_day) 0 = Qcltb r 0.
Proof.
  intros r d Hd. assert (E : r * d / hours_per_day = r * (d / hours_per_day)) by (unfold Qcdiv; ring). rewrite E.
  assert (Hp : 0 < d / hours_per_day).
  { assert (Ed : d = d / hours_per_day * hours_per_day) by (field; vm_compute; discriminate).
    pose proof hours_pos as Hh. destruct (Qclt_le_dec 0 (d / hours_per_day)) as [H|H]; [assumption|]. exfalso. qc_nra. }
  set (x := d / hours_per_day) in *. clearbody x. destruct (Qcltb r 0) eqn:Er.
  - apply Qcltb_lt in Er. apply Qcltb_lt. qc_nra.
  - apply Qcltb_ge in Er. apply Qcltb_ge. qc_nra.
Qed.

Lemma new_stream_spec : forall f r, new_stream f r = if Qcltb r 0 then Raise NegativeMassRate else Return (mk_stream f r).
Proof. reflexivity. Qed.

Lemma standard_of_mass : forall f r, 0 < p_standard_density (f_properties f) ->
  standard_rate (mk_stream f (r * p_standard_density (f_properties f) / hours_per_day)) = r.
Proof.
  intros f r H. unfold standard_rate, s_standard_density. cbn [s_mass_rate s_fluid]. field.
  split; [vm_compute; discriminate|apply pos_neq; assumption].
Qed.

Lemma standard_rate_proof : forall sv m pressure temperature rate,
  consistent_service sv ->
  match create_stream_from_standard_rate sv m pressure temperature rate with
  | Return s => standard_rate s = rate /\ s_pressure s = pressure /\ s_temperature s = temperature /\ s_model s = m /\
                s_mass_rate s = standard_rate_to_mass_rate sv m rate /\ 0 <= rate
  | Raise e => flash_pt sv m pressure temperature = Raise e \/ (e = NegativeMassRate /\ rate < 0)
  end.
Proof.
  intros sv m pressure temperature rate [Hpos [Hpt _]]. unfold create_stream_from_standard_rate, create_fluid.
  destruct (flash_pt sv m pressure temperature) as [props|e] eqn:E; cbn [obind]; [|left; reflexivity].
  destruct (Hpt _ _ _ _ E) as [H1 [H2 [H3 H4]]]. rewrite new_stream_spec. unfold standard_rate_to_mass_rate.
  change (qz 24) with hours_per_day. rewrite rate_sign by apply Hpos.
  destruct (Qcltb rate 0) eqn:Er.
  - right. apply Qcltb_lt in Er. split; [reflexivity|assumption].
  - apply Qcltb_ge in Er. unfold s_pressure, s_temperature, s_model. cbn [s_fluid f_properties f_model s_mass_rate].
    repeat split; try assumption. rewrite <- H3. apply (standard_of_mass (mk_fluid m props)). cbn. rewrite H3. apply Hpos.
Qed.

Lemma mass_rate_proof : forall sv m pressure temperature mass,
  consistent_service sv ->
  match create_stream_from_mass_rate sv m pressure temperature mass with
  | Return s => standard_rate s = mass_rate_to_standard_rate sv m mass /\ s_pressure s = pressure /\ s_temperature s = temperature /\
                s_model s = m /\ s_mass_rate s = mass /\ 0 <= mass
  | Raise e => flash_pt sv m pressure temperature = Raise e \/ (e = NegativeMassRate /\ mass < 0)
  end.
Proof.
  intros sv m pressure temperature mass [Hpos [Hpt _]]. unfold create_stream_from_mass_rate, create_fluid.
  destruct (flash_pt sv m pressure temperature) as [props|e] eqn:E; cbn [obind]; [|left; reflexivity].
  destruct (Hpt _ _ _ _ E) as [H1 [H2 [H3 H4]]]. rewrite new_stream_spec.
  destruct (Qcltb mass 0) eqn:Er.
  - right. apply Qcltb_lt in Er. split; [reflexivity|assumption].
  - apply Qcltb_ge in Er. unfold s_pressure, s_temperature, s_model. cbn [s_fluid f_properties f_model s_mass_rate].
    repeat split; try assumption. unfold standard_rate, s_standard_density, mass_rate_to_standard_rate. cbn [s_mass_rate s_fluid f_properties].
    rewrite H3. change (qz 24) with hours_per_day. unfold Qcdiv. ring.
Qed.

Lemma conversion_inverse_proof : forall sv m r, consistent_service sv ->
  mass_rate_to_standard_rate sv m (standard_rate_to_mass_rate sv m r) = r /\
  standard_rate_to_mass_rate sv m (mass_rate_to_standard_rate sv m r) = r.
Proof.
  intros sv m r [Hpos _]. specialize (Hpos m). unfold mass_rate_to_standard_rate, standard_rate_to_mass_rate.
  split; (field; repeat split; [vm_compute; discriminate|apply pos_neq; assumption]) || (field; split; [apply pos_neq; assumption|vm_compute; discriminate]).
Qed.

Lemma with_rate_proof : forall s r,
  0 < s_standard_density s ->
  (match with_standard_rate s r with
   | Return out => 0 <= r /\ s_fluid out = s_fluid s /\ standard_rate out = r
   | Raise e => e = NegativeMassRate /\ r < 0 end) /\
  (match with_mass_rate s r with
   | Return out => 0 <= r /\ s_fluid out = s_fluid s /\ s_mass_rate out = r
   | Raise e => e = NegativeMassRate /\ r < 0 end) /\
  (match from_standard_rate r (s_model s) (f_properties (s_fluid s)) with
   | Return out => 0 <= r /\ s_fluid out = s_fluid s /\ standard_rate out = r
   | Raise e => e = NegativeMassRate /\ r < 0 end).
Proof.
  intros s r Hd. unfold with_standard_rate, with_mass_rate, from_standard_rate. rewrite !new_stream_spec.
  rewrite (rate_sign r (s_standard_density s) Hd).
  change (p_standard_density (f_properties (s_fluid s))) with (s_standard_density s). rewrite (rate_sign r (s_standard_density s) Hd).
  destruct (Qcltb r 0) eqn:Er.
  - apply Qcltb_lt in Er. auto.
  - apply Qcltb_ge in Er.
    assert (Ef : mk_fluid (s_model s) (f_properties (s_fluid s)) = s_fluid s) by (unfold s_model; destruct (s_fluid s); reflexivity).
    rewrite Ef. repeat split; try assumption; apply (standard_of_mass (s_fluid s)); exact Hd.
Qed.

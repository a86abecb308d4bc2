From Coq Require Import PeanoNat String Lia.
From Verif Require Import QcTac Base BaseLemmas Num Energy_Model System_Model System_Spec.
Local Open Scope list_scope.

Lemma set_nth_length : forall A i (x : A) l, length (set_nth i x l) = length l.
Proof. induction i; intros x [|a l]; cbn; auto. Qed.
Lemma nth_error_set_nth : forall A i (x : A) l k, (i < length l)%nat ->
  nth_error (set_nth i x l) k = if Nat.eqb k i then Some x else nth_error l k.
Proof.
  induction i; intros x [|a l] k Hi; cbn in *; try lia; destruct k; cbn; auto.
  apply IHi. lia.
Qed.

Lemma outside_spec : forall valid k, In k (outside valid) <-> nth_error valid k = Some false.
Proof.
  intros valid k. unfold outside, zip.
  assert (G : forall off, In k (map fst (filter (fun e => negb (snd e)) (combine (seq off (length valid)) valid))) <->
     (off <= k)%nat /\ nth_error valid (k - off) = Some false).
  { induction valid as [|b v IH]; intros off; cbn.
    - split; [tauto|]. intros [_ H]. now destruct (k - off)%nat.
    - destruct b; cbn; rewrite ?IH.
      + split.
        * intros [H1 H2]. split; [lia|]. replace (k - off)%nat with (S (k - S off)) by lia. exact H2.
        * intros [H1 H2]. destruct (Nat.eq_dec off k) as [->|N]; [rewrite Nat.sub_diag in H2; discriminate|].
          split; [lia|]. replace (k - off)%nat with (S (k - S off)) in H2 by lia. exact H2.
      + split.
        * intros [<-|[H1 H2]]; [rewrite Nat.sub_diag; auto|]. split; [lia|]. replace (k - off)%nat with (S (k - S off)) by lia. exact H2.
        * intros [H1 H2]. destruct (Nat.eq_dec off k) as [->|N]; [now left|right].
          split; [lia|]. replace (k - off)%nat with (S (k - S off)) in H2 by lia. exact H2. }
  rewrite G, Nat.sub_0_r. intuition lia.
Qed.

Lemma intersect1d_spec : forall a b k, In k (intersect1d a b) <-> In k a /\ In k b.
Proof.
  intros. unfold intersect1d. rewrite filter_In, existsb_exists. split.
  - intros [H (x & Hx & E)]. apply Nat.eqb_eq in E. subst. auto.
  - intros [H1 H2]. split; auto. exists k. split; auto. apply Nat.eqb_refl.
Qed.

Lemma assign_length : forall ks u v, length (assign u ks v) = length u.
Proof. unfold assign. induction ks; intros; cbn; auto. rewrite IHks. apply set_nth_length. Qed.
Lemma assign_spec : forall ks u v k, (forall i, In i ks -> (i < length u)%nat) ->
  (In k ks -> nth_error (assign u ks v) k = Some v) /\ (~ In k ks -> nth_error (assign u ks v) k = nth_error u k).
Proof.
  unfold assign. induction ks as [|i ks IH]; intros u v k H; cbn [fold_left In]; [tauto|].
  assert (Hl : length (set_nth i v u) = length u) by apply set_nth_length.
  destruct (IH (set_nth i v u) v k) as [I1 I2]. { intros j Hj. rewrite Hl. apply H. now right. }
  split.
  - intros [->|Hk]; auto. destruct (in_dec Nat.eq_dec k ks) as [Y|N]; auto.
    rewrite I2 by auto. rewrite nth_error_set_nth by (apply H; now left). now rewrite Nat.eqb_refl.
  - intros N. rewrite I2 by tauto. rewrite nth_error_set_nth by (apply H; now left).
    destruct (Nat.eqb_spec k i); auto. subst. tauto.
Qed.

Lemma number_used_from_spec : forall n settings V i used remaining,
  Forall2 (fun r v => all_valid (map er_valid r) = Ok v /\ length v = n) settings V ->
  length used = n -> (forall k, In k remaining -> (k < n)%nat /\ nth_error used k = Some i) ->
  exists used', number_used_from i settings used remaining = Ok used' /\ length used' = n /\
    forall k, (k < n)%nat ->
      (~ In k remaining -> nth_error used' k = nth_error used k) /\
      (In k remaining -> exists j, nth_error used' k = Some (i + j)%nat /\ (j <= length V)%nat /\
         ((exists v, nth_error V j = Some v /\ nth_error v k = Some true) \/ j = length V) /\
         forall j' v, (j' < j)%nat -> nth_error V j' = Some v -> nth_error v k = Some false).
Proof.
  intros n settings V i used remaining F. revert i used remaining.
  induction F as [|r v settings V [Hv Lv] F IH]; intros i used remaining Hu Hr.
  - exists used. cbn. split; auto. split; auto. intros k Hk. split; auto. intros Hin. exists 0%nat.
    rewrite Nat.add_0_r. split; [now apply Hr|]. split; [lia|]. split; [now right|]. intros; lia.
  - cbn [number_used_from]. rewrite Hv. cbn [bind].
    set (rem := intersect1d remaining (outside v)).
    assert (Hrem : forall k, In k rem <-> In k remaining /\ nth_error v k = Some false).
    { intros k. unfold rem. rewrite intersect1d_spec, outside_spec. tauto. }
    assert (Hin : forall k, In k rem -> (k < n)%nat) by (intros k H; apply Hrem in H; now apply Hr).
    assert (Hvk : forall k, (k < n)%nat -> nth_error v k = Some true \/ nth_error v k = Some false).
    { intros k Hk. destruct (nth_error v k) as [[|]|] eqn:E; auto. apply nth_error_None in E. lia. }
    destruct rem as [|a rem'] eqn:E.
    + exists used. split; auto. split; auto. intros k Hk. split; auto. intros Hk'.
      exists 0%nat. rewrite Nat.add_0_r. split; [now apply Hr|]. split; [lia|]. split; [|intros; lia].
      left. exists v. split; auto. destruct (Hvk k Hk) as [T|T]; auto. exfalso. apply (Hrem k). auto.
    + assert (La : length (assign used (a :: rem') (S i)) = n) by (rewrite assign_length; auto).
      assert (Hlt : forall k, In k (a :: rem') -> (k < length used)%nat) by (intros; rewrite Hu; auto).
      destruct (IH (S i) (assign used (a :: rem') (S i)) (a :: rem')) as (used' & E' & L' & K); auto.
      { intros k Hk. split; [auto|]. apply (assign_spec (a :: rem') used (S i) k); auto. }
      exists used'. split; auto. split; auto. clear E. remember (a :: rem') as rem2. clear Heqrem2. intros k Hk. destruct (K k Hk) as [K1 K2].
      destruct (assign_spec rem2 used (S i) k) as [A1 A2]; auto.
      split.
      * intros N. assert (~ In k rem2) by (rewrite Hrem; tauto). rewrite K1, A2; auto.
      * intros Hk'. destruct (Hvk k Hk) as [T|T].
        -- assert (N : ~ In k rem2) by (rewrite Hrem; intros [_ ?]; congruence). exists 0%nat. rewrite Nat.add_0_r.
           rewrite K1, A2 by auto. split; [now apply Hr|]. split; [lia|]. split; [left; exists v; auto|intros; lia].
        -- assert (Y : In k rem2) by (apply Hrem; auto). destruct (K2 Y) as (j & J1 & J2 & J3 & J4).
           exists (S j). split; [rewrite J1; f_equal; lia|]. split; [cbn; lia|]. split.
           ++ destruct J3 as [J3|J3]; [left; exact J3|right; cbn; lia].
           ++ intros [|j'] v' Hj' Hn; cbn in Hn; [congruence|]. apply (J4 j' v'); auto. lia.
Qed.

Lemma Forall2_len : forall A B (R : A -> B -> Prop) l m, Forall2 R l m -> length l = length m.
Proof. intros A B R l m H. induction H; cbn; auto. Qed.
Lemma Forall2_removelast : forall A B (R : A -> B -> Prop) l m, Forall2 R l m -> Forall2 R (removelast l) (removelast m).
Proof.
  intros A B R l m H. induction H as [|a b l m Hab H IH]; cbn; auto.
  destruct H; [constructor|]. constructor; auto.
Qed.
Lemma removelast_length : forall A (l : list A), length (removelast l) = (length l - 1)%nat.
Proof. induction l as [|a [|b l] IH]; cbn in *; auto. lia. Qed.
Lemma nth_error_removelast : forall A (l : list A) k, (S k < length l)%nat -> nth_error (removelast l) k = nth_error l k.
Proof.
  induction l as [|a l IH]; intros k H; cbn in H; [lia|]. destruct l as [|b l]; [cbn in H; lia|].
  destruct k; [reflexivity|]. cbn [removelast nth_error]. apply IH. cbn in *. lia.
Qed.

Lemma number_used_spec : forall n settings V, settings <> [] ->
  Forall2 (fun r v => all_valid (map er_valid r) = Ok v /\ length v = n) settings V ->
  (forall r, In r settings -> setting_length r = Ok n) ->
  exists used, number_used settings = Ok used /\ length used = n /\
    forall k, (k < n)%nat -> exists j, nth_error used k = Some j /\ (j < length settings)%nat /\
      ((exists v, nth_error V j = Some v /\ nth_error v k = Some true) \/ S j = length settings) /\
      forall j' v, (j' < j)%nat -> nth_error V j' = Some v -> nth_error v k = Some false.
Proof.
  intros n settings V NE F L. destruct settings as [|r rest]; [contradiction|].
  unfold number_used. cbn [get nth_error of_option bind]. rewrite (L r) by now left. cbn [bind].
  pose proof (Forall2_len _ _ _ _ _ F) as FL.
  destruct rest as [|r2 rest].
  - exists (repeat 0%nat n). split; auto. split; [apply repeat_length|]. intros k Hk. exists 0%nat.
    split; [now apply nth_error_repeat|]. split; [cbn; lia|]. split; [now right|]. intros; lia.
  - destruct (number_used_from_spec n (removelast (r :: r2 :: rest)) (removelast V) 0 (repeat 0%nat n) (seq 0 n))
      as (used & E & Lu & K).
    + now apply Forall2_removelast.
    + apply repeat_length.
    + intros k Hk. apply in_seq in Hk. split; [lia|]. apply nth_error_repeat. lia.
    + exists used. split; auto. split; auto. intros k Hk. destruct (K k Hk) as [_ K2].
      destruct K2 as (j & J1 & J2 & J3 & J4); [apply in_seq; lia|]. rewrite removelast_length in *.
      exists j. split; auto. assert (Hj : (j < length (r :: r2 :: rest))%nat) by (rewrite FL in *; cbn in *; lia). split; auto. split.
      * destruct J3 as [(v & J3 & J5)|J3].
        -- left. exists v. split; auto. rewrite <- nth_error_removelast; auto.
           assert (j < length (removelast V))%nat by (apply nth_error_Some; congruence). rewrite removelast_length in H. lia.
        -- right. rewrite FL in *. cbn in *. lia.
      * intros j' v Hj' Hn. apply (J4 j' v); auto. rewrite nth_error_removelast; auto. rewrite <- FL. lia.
Qed.

(** sums and validity of several consumers *)
Lemma all_valid_from_spec : forall n l acc, length acc = n -> (forall v, In v l -> length v = n) ->
  exists r, all_valid_from acc l = Ok r /\ length r = n /\
    forall k, (k < n)%nat -> (nth_error r k = Some true <-> forall v, In v (acc :: l) -> nth_error v k = Some true).
Proof.
  induction l as [|v l IH]; intros acc Ha Hl.
  - exists acc. cbn. split; auto. split; auto. intros k Hk. split; [intros Hv v [<-|[]]; auto|auto].
  - cbn [all_valid_from]. rewrite Ha, (Hl v) by now left. rewrite Nat.eqb_refl.
    destruct (IH (map2 andb acc v)) as (r & E & L & K).
    { rewrite map2_length, Ha, (Hl v) by now left. apply Nat.min_id. }
    { intros; apply Hl; now right. }
    exists r. split; auto. split; auto. intros k Hk. rewrite K by auto. clear K.
    assert (Hak : exists a, nth_error acc k = Some a).
    { destruct (nth_error acc k) eqn:X; eauto. apply nth_error_None in X. lia. }
    assert (Hvk : exists a, nth_error v k = Some a).
    { destruct (nth_error v k) eqn:X; eauto. apply nth_error_None in X. rewrite (Hl v) in X by now left. lia. }
    destruct Hak as [a Hak], Hvk as [b Hvk].
    assert (Hm : nth_error (map2 andb acc v) k = Some (a && b)%bool) by (rewrite nth_error_map2, Hak, Hvk; auto).
    split.
    + intros H. assert (a && b = true)%bool as AB by (specialize (H _ (or_introl eq_refl)); congruence).
      apply andb_prop in AB. destruct AB as [-> ->]. intros w [<-|[<-|Hw]]; auto. apply H. now right.
    + intros H w [<-|Hw]; [|apply H; right; now right].
      assert (a = true) by (specialize (H acc (or_introl eq_refl)); congruence).
      assert (b = true) by (specialize (H v (or_intror (or_introl eq_refl))); congruence). subst. exact Hm.
Qed.
Lemma all_valid_spec : forall n l, l <> [] -> (forall v, In v l -> length v = n) ->
  exists r, all_valid l = Ok r /\ length r = n /\
    forall k, (k < n)%nat -> (nth_error r k = Some true <-> forall v, In v l -> nth_error v k = Some true).
Proof.
  intros n [|v l] NE H; [contradiction|]. apply all_valid_from_spec; [apply H; now left|intros; apply H; now right].
Qed.

Lemma nadd_assoc : forall a b c, nadd (nadd a b) c = nadd a (nadd b c).
Proof. intros [a|] [b|] [c|]; cbn; auto. f_equal. ring. Qed.
Lemma np_sum_from_spec : forall n l acc, length acc = n -> (forall v, In v l -> length v = n) ->
  exists r, np_sum_from acc l = Ok r /\ length r = n /\
    forall k x xs, nth_error acc k = Some x -> Forall2 (fun v y => nth_error v k = Some y) l xs ->
      nth_error r k = Some (nadd x (nsum xs)).
Proof.
  induction l as [|v l IH]; intros acc Ha Hl.
  - exists acc. cbn. repeat split; auto. intros k x xs Hx F. inversion F; subst. cbn. rewrite Hx. f_equal.
    destruct x; cbn; auto. f_equal. ring.
  - cbn [np_sum_from]. rewrite Ha, (Hl v) by now left. rewrite Nat.eqb_refl.
    destruct (IH (map2 nadd acc v)) as (r & E & L & K).
    { rewrite map2_length, Ha, (Hl v) by now left. apply Nat.min_id. }
    { intros; apply Hl; now right. }
    exists r. split; auto. split; auto. intros k x xs Hx F. inversion F as [|? y ? ys Hy F']; subst.
    rewrite (K k (nadd x y) ys); auto.
    + cbn [nsum fold_right]. now rewrite nadd_assoc.
    + now rewrite nth_error_map2, Hx, Hy.
Qed.
Lemma np_sum_spec : forall n l, l <> [] -> (forall v, In v l -> length v = n) ->
  exists r, np_sum l = Ok r /\ length r = n /\
    forall k xs, Forall2 (fun v y => nth_error v k = Some y) l xs -> nth_error r k = Some (nsum xs).
Proof.
  intros n [|v l] NE H; [contradiction|]. destruct (np_sum_from_spec n l v) as (r & E & L & K); [apply H; now left|intros; apply H; now right|].
  exists r. split; auto. split; auto. intros k xs F. inversion F as [|? y ? ys Hy F']; subst. cbn [nsum fold_right]. now apply K.
Qed.

From Coq Require Import PeanoNat String Lia.
From Verif Require Import QcTac Base BaseLemmas Num Energy_Model System_Model System_Spec System_Proofs.
Local Open Scope list_scope.

Lemma broadcast_eq : forall A B C (f : A -> B -> C) l m, length l = length m -> np_broadcast f l m = Ok (map2 f l m).
Proof. intros. unfold np_broadcast. now rewrite H, Nat.eqb_refl. Qed.
Lemma map2_Some : forall f l m, map2 (num_lift2 f) (map Some l) (map Some m) = map Some (map2 f l m).
Proof. induction l; intros [|y m]; cbn; auto. now rewrite IHl. Qed.
Lemma map2_map_map : forall A B C D E (f : C -> D -> E) (g : A -> C) (h : B -> D) l m,
  map2 f (map g l) (map h m) = map2 (fun a b => f (g a) (h b)) l m.
Proof. induction l; intros [|y m]; cbn; auto. now rewrite IHl. Qed.
Lemma map_map2 : forall A B C D (g : C -> D) (f : A -> B -> C) l m, map g (map2 f l m) = map2 (fun a b => g (f a b)) l m.
Proof. induction l; intros [|y m]; cbn; auto. now rewrite IHl. Qed.
Lemma map2_map2_l : forall A B C D E (f : C -> D -> E) (g : A -> B -> C) l m r,
  map2 f (map2 g l m) r = map2 (fun p c => f (g (fst p) (snd p)) c) (combine l m) r.
Proof. induction l; intros [|y m] [|c r]; cbn; auto. now rewrite IHl. Qed.
Lemma nth_map2 : forall A B C (f : A -> B -> C) l m k da db dc, (k < length l)%nat -> (k < length m)%nat ->
  nth k (map2 f l m) dc = f (nth k l da) (nth k m db).
Proof.
  induction l; intros [|y m] k da db dc H1 H2; cbn in *; try lia. destruct k; auto. apply IHl; lia.
Qed.
Lemma map_set_nth : forall A B (f : A -> B) i x l, map f (set_nth i x l) = set_nth i (f x) (map f l).
Proof. induction i; intros x [|a l]; cbn; auto. now rewrite IHi. Qed.
Lemma nth_set_nth : forall A i (x : A) l k d, (i < length l)%nat -> nth k (set_nth i x l) d = if Nat.eqb k i then x else nth k l d.
Proof.
  intros A i x l k d H. pose proof (nth_error_set_nth A i x l k H) as E.
  destruct (Nat.lt_ge_cases k (length l)) as [L|G].
  - rewrite (nth_error_nth' (set_nth i x l) d) in E by now rewrite set_nth_length.
    destruct (Nat.eqb k i); [congruence|]. rewrite (nth_error_nth' l d) in E by auto. congruence.
  - rewrite (nth_overflow (set_nth i x l)) by now rewrite set_nth_length. destruct (Nat.eqb_spec k i); [lia|].
    now rewrite nth_overflow.
Qed.
Lemma get_nth : forall A (l : list A) i d, (i < length l)%nat -> get l i = Ok (nth i l d).
Proof. intros. unfold get. now rewrite (nth_error_nth' l d). Qed.
Lemma nth_map_nil : forall A B (f : A -> B) l i, nth i (map (map f) l) [] = map f (nth i l []).
Proof. intros. change (@nil B) with (map f []). apply map_nth. Qed.

Lemma map2_where : forall (A0 : list bool) l,
  map2 (fun (a : bool) (x : num) => if a then x else Some 0%Qc) A0 (map Some l) = map Some (map2 (fun (a : bool) x => if a then x else 0%Qc) A0 l).
Proof. induction A0 as [|b A0 IHA]; intros [|y l]; cbn; auto. rewrite IHA. now destruct b. Qed.

(** The result of one transfer. *)
Definition transfer_list (rate maximum own other : list Qc) : list Qc :=
  map2 (fun (a : bool) x => if a then x else 0%Qc) (map2 (fun o w => Qcleb w o) other own)
    (map (fun x => if Qcltb 0 x then x else 0%Qc) (map2 Qcminus rate maximum)).

Lemma cross_over_step_spec : forall m n consumers s numbers rates maxima discharge cur i z,
  finite_setting m n consumers s numbers rates maxima discharge ->
  nth_error numbers i = Some z -> length cur = m -> (forall l, In l cur -> length l = n) ->
  exists cur', cross_over_step consumers s (map (map Some) cur) i z = Ok (map (map Some) cur') /\
    length cur' = m /\ (forall l, In l cur' -> length l = n) /\
    forall a k, (a < m)%nat -> (k < n)%nat -> (val cur' a k = val cur a k
      + (if sends_to numbers i a then sent numbers rates maxima discharge i k else 0)
      - (if Nat.eqb i a then sent numbers rates maxima discharge i k else 0))%Qc.
Proof.
  intros m n consumers s numbers rates maxima discharge cur i z (C & Hm & Hr & Hd & Hx & Ln & Rg & Hmax) Hz Lc Hc.
  destruct C as (C1 & C2 & C3 & C4 & C5).
  assert (Lr : length rates = m) by (rewrite Hr, map_length in C1; auto).
  assert (Ld : length discharge = m) by (rewrite Hd, map_length in C3; auto).
  assert (Hi : (i < m)%nat) by (rewrite <- Ln; apply nth_error_Some; congruence).
  assert (Hzn : nth i numbers 0%Z = z) by now apply nth_error_nth.
  assert (Hrl : forall j, (j < m)%nat -> length (nth j rates []) = n).
  { intros j Hj. rewrite <- (map_length Some), <- nth_map_nil. apply C5. rewrite Hr. apply in_or_app. left. apply nth_In. rewrite map_length. lia. }
  assert (Hdl : forall j, (j < m)%nat -> length (nth j discharge []) = n).
  { intros j Hj. rewrite <- (map_length Some), <- nth_map_nil. apply C5. rewrite Hd. apply in_or_app. right. apply in_or_app. right. apply nth_In. rewrite map_length. lia. }
  unfold cross_over_step. destruct (Z.eqb_spec z 0) as [->|NZ].
  - exists cur. split; auto. split; auto. split; auto. intros a k Ha Hk. unfold sends_to, sent. rewrite Hzn.
    destruct (0 =? Z.of_nat a + 1)%Z, (Nat.eqb i a); ring.
  - assert (Hzr : (0 <= z <= Z.of_nat m)%Z) by (apply Rg; eapply nth_error_In; eauto).
    destruct z as [|j|j]; [lia| |lia].
    set (t := (Pos.to_nat j - 1)%nat). assert (Ht : (t < m)%nat) by (unfold t; lia).
    rewrite Hd, (get_nth _ _ i []) by (rewrite map_length; lia). cbn [bind]. rewrite nth_map_nil.
    assert (Hpy : py_index m (Zpos j - 1) = Some t).
    { unfold py_index. rewrite (proj2 (Z.leb_gt _ _)) by lia. rewrite (proj2 (Z.leb_le _ _)) by lia. f_equal. unfold t. lia. }
    rewrite map_length, Ld, Hpy. cbn [of_option bind].
    rewrite (get_nth _ _ t []) by (rewrite map_length; lia). cbn [bind]. rewrite nth_map_nil.
    rewrite (get_nth _ (os_suction s) i []) by lia. cbn [bind].
    assert (Hfd : exists fd, get_density s i = Ok fd /\ match os_density s with None => fd = One | Some l => exists v, nth_error l i = Some v /\ fd = Per v end).
    { unfold get_density. destruct (os_density s) as [dl|] eqn:E; [|eauto]. destruct (C4 dl eq_refl) as [L1 _].
      unfold get. destruct (nth_error dl i) as [v|] eqn:Ev; [|apply nth_error_None in Ev; lia]. cbn. eauto. }
    destruct Hfd as (fd & -> & Hfd). cbn [bind].
    destruct (nth_error consumers i) as [c|] eqn:Ec; [|apply nth_error_None in Ec; lia].
    unfold get at 1. rewrite Ec. cbn [of_option bind].
    destruct (Hmax i c (nth i (os_suction s) [])) as [Lm Em]; auto. { rewrite (nth_error_nth' (os_suction s) []) by lia. reflexivity. }
    rewrite (Em fd Hfd). cbn [bind].
    rewrite Hr, (get_nth _ _ i []) by (rewrite map_length; lia). cbn [bind]. rewrite nth_map_nil.
    rewrite broadcast_eq by (rewrite !map_length, Hrl, Lm; auto). cbn [bind].
    unfold nsub at 1. rewrite map2_Some, map_map.
    set (tr := transfer_list (nth i rates []) (nth i maxima []) (nth i discharge []) (nth t discharge [])).
    rewrite broadcast_eq by (rewrite !map_length, !Hdl; auto). cbn [bind].
    assert (Hw : np_broadcast (fun (a : bool) (x : num) => if a then x else Some 0%Qc)
       (map2 num_ge (map Some (nth t discharge [])) (map Some (nth i discharge [])))
       (map (fun x : Qc => if num_pos (Some x) then Some x else Some 0%Qc) (map2 Qcminus (nth i rates []) (nth i maxima []))) = Ok (map Some tr)).
    { rewrite broadcast_eq by (rewrite !map_length, !map2_length, !map_length, !Hdl, Hrl, Lm; auto). f_equal.
      replace (map (fun x : Qc => if num_pos (Some x) then Some x else Some 0%Qc) (map2 Qcminus (nth i rates []) (nth i maxima [])))
        with (map Some (map (fun x => if Qcltb 0 x then x else 0%Qc) (map2 Qcminus (nth i rates []) (nth i maxima [])))).
      2:{ rewrite map_map. apply map_ext. intros x. cbn [num_pos]. now destruct (Qcltb 0 x). }
      rewrite map2_map_map. apply map2_where. }
    rewrite Hw. cbn [bind]. clear Hw.
    assert (Ltr : length tr = n).
    { unfold tr, transfer_list. rewrite !map2_length, !map_length, !map2_length, !Hdl, Hrl, Lm by auto. lia. }
    assert (Hcl : forall j, (j < m)%nat -> length (nth j cur []) = n) by (intros; apply Hc, nth_In; lia).
    rewrite (get_nth _ _ i []) by (rewrite map_length; lia). cbn [bind]. rewrite nth_map_nil.
    unfold np_inplace at 1. rewrite broadcast_eq by (rewrite !map_length, Ltr, Hcl; auto). cbn [bind].
    unfold nsub. rewrite map2_Some, !map_length, map2_length, Hcl, Ltr, Nat.min_id, Nat.eqb_refl by auto. cbn [bind].
    set (a1 := map2 Qcminus (nth i cur []) tr). set (cur1 := set_nth i a1 cur).
    replace (set_nth i (map Some a1) (map (map Some) cur)) with (map (map Some) cur1) by (unfold cur1; now rewrite map_set_nth).
    assert (L1 : length cur1 = m) by (unfold cur1; now rewrite set_nth_length).
    rewrite map_length, L1, Hpy. cbn [of_option bind].
    assert (La1 : length a1 = n) by (unfold a1; rewrite map2_length, Hcl, Ltr; auto; lia).
    assert (Hcl1 : forall j, (j < m)%nat -> length (nth j cur1 []) = n).
    { intros j' Hj'. unfold cur1. rewrite nth_set_nth by lia. destruct (Nat.eqb j' i); auto. }
    rewrite (get_nth _ _ t []) by (rewrite map_length; lia). cbn [bind]. rewrite nth_map_nil.
    unfold np_inplace. rewrite broadcast_eq by (rewrite !map_length, Ltr, Hcl1; auto). cbn [bind].
    unfold nadd. rewrite map2_Some, !map_length, map2_length, Hcl1, Ltr, Nat.min_id, Nat.eqb_refl by auto. cbn [bind].
    set (a2 := map2 Qcplus (nth t cur1 []) tr). exists (set_nth t a2 cur1).
    split; [now rewrite map_set_nth|]. split; [now rewrite set_nth_length|].
    assert (La2 : length a2 = n) by (unfold a2; rewrite map2_length, Hcl1, Ltr; auto; lia).
    assert (Hcl2 : forall j, (j < m)%nat -> length (nth j (set_nth t a2 cur1) []) = n).
    { intros j' Hj'. rewrite nth_set_nth by lia. destruct (Nat.eqb j' t); auto. }
    split. { intros l Hl. apply (In_nth _ _ []) in Hl. destruct Hl as (q & Hq & <-). rewrite set_nth_length in Hq. apply Hcl2. lia. }
    intros a k Ha Hk. unfold val at 1. rewrite nth_set_nth by lia.
    assert (Htr : nth k tr 0%Qc = sent numbers rates maxima discharge i k).
    { unfold sent. rewrite Hzn. fold t. unfold tr, transfer_list, val.
      rewrite (nth_map2 _ _ _ _ _ _ k false 0%Qc) by (rewrite ?map_length, ?map2_length, ?Hdl, ?Hrl, ?Lm; auto; lia).
      rewrite (nth_map2 _ _ _ _ _ _ k 0%Qc 0%Qc) by (rewrite ?Hdl; auto; lia).
      destruct (Qcleb (nth k (nth i discharge []) 0%Qc) (nth k (nth t discharge []) 0%Qc)); cbn [andb]; auto.
      rewrite (nth_indep _ 0%Qc (if Qcltb 0 0 then 0%Qc else 0%Qc)) by (rewrite map_length, map2_length, Hrl, Lm; auto; lia).
      rewrite (map_nth (fun x => if Qcltb 0 x then x else 0%Qc)).
      rewrite (nth_map2 _ _ _ _ _ _ k 0%Qc 0%Qc) by (rewrite ?Hrl, ?Lm; auto; lia).
      destruct (Qcltb 0 _) eqn:E1, (Qcltb (nth k (nth i maxima []) 0%Qc) _) eqn:E2; auto;
        rewrite ?Qcltb_lt, ?Qcltb_ge in *; exfalso; qc_lra. }
    assert (Hst : sends_to numbers i a = Nat.eqb a t).
    { unfold sends_to. rewrite Hzn. destruct (Z.eqb_spec (Zpos j) (Z.of_nat a + 1)), (Nat.eqb_spec a t); unfold t in *; auto; lia. }
    rewrite Hst.
    assert (Hv1 : forall b, (b < m)%nat -> nth k (nth b cur1 []) 0%Qc = (val cur b k - (if Nat.eqb i b then nth k tr 0 else 0))%Qc).
    { intros b Hb. unfold cur1. rewrite nth_set_nth by lia. rewrite (Nat.eqb_sym i b). destruct (Nat.eqb_spec b i) as [->|].
      - unfold a1. rewrite (nth_map2 _ _ _ _ _ _ k 0%Qc 0%Qc) by (rewrite ?Hcl, ?Ltr; auto). reflexivity.
      - unfold val. ring. }
    rewrite <- Htr. destruct (Nat.eqb_spec a t) as [->|].
    + unfold a2. rewrite (nth_map2 _ _ _ _ _ _ k 0%Qc 0%Qc) by (rewrite ?Hcl1, ?Ltr; auto). rewrite Hv1 by auto. ring.
    + rewrite Hv1 by auto. ring.
Qed.

Lemma cross_over_from_spec : forall m n consumers s numbers rates maxima discharge rest done cur,
  finite_setting m n consumers s numbers rates maxima discharge ->
  numbers = done ++ rest -> length cur = m -> (forall l, In l cur -> length l = n) ->
  exists cur', cross_over_from consumers s (map (map Some) cur) (length done) rest = Ok (map (map Some) cur') /\
    length cur' = m /\ (forall l, In l cur' -> length l = n) /\
    forall a k, (a < m)%nat -> (k < n)%nat -> (val cur' a k = val cur a k
      + qsum (map (fun j => if sends_to numbers j a then sent numbers rates maxima discharge j k else 0) (seq (length done) (length rest)))
      - qsum (map (fun j => if Nat.eqb j a then sent numbers rates maxima discharge j k else 0) (seq (length done) (length rest))))%Qc.
Proof.
  intros m n consumers s numbers rates maxima discharge. induction rest as [|z rest IH]; intros done cur F E L H.
  - exists cur. cbn. repeat split; auto. intros. ring.
  - destruct (cross_over_step_spec m n consumers s numbers rates maxima discharge cur (length done) z) as (c1 & E1 & L1 & H1 & V1); auto.
    { rewrite E, nth_error_app2, Nat.sub_diag by auto. reflexivity. }
    cbn [cross_over_from]. rewrite E1. cbn [bind].
    destruct (IH (done ++ [z]) c1) as (c2 & E2 & L2 & H2 & V2); auto. { now rewrite <- app_assoc. }
    rewrite app_length in *. cbn [length] in *. rewrite Nat.add_1_r in *.
    exists c2. split; auto. split; auto. split; auto. intros a k Ha Hk. rewrite V2, V1 by auto. cbn [seq map qsum fold_right].
    unfold qsum. ring.
Qed.

Lemma qsum_indicator : forall (f : nat -> Qc) a m off, (off <= a < off + m)%nat ->
  qsum (map (fun j => if Nat.eqb j a then f j else 0%Qc) (seq off m)) = f a.
Proof.
  intros f a. induction m as [|m IH]; intros off H; [lia|]. cbn [seq map qsum fold_right]. unfold qsum in IH.
  destruct (Nat.eqb_spec off a) as [->|N].
  - assert (Z : forall k o, (a < o)%nat -> fold_right Qcplus 0%Qc (map (fun j => if Nat.eqb j a then f j else 0%Qc) (seq o k)) = 0%Qc).
    { induction k as [|k IHk]; intros o Ho; cbn; auto. rewrite IHk by lia. destruct (Nat.eqb_spec o a); [lia|ring]. }
    rewrite Z by lia. ring.
  - rewrite IH by lia. ring.
Qed.

Theorem cross_over_proof : forall m n consumers s numbers rates maxima discharge, (0 < m)%nat ->
  finite_setting m n consumers s numbers rates maxima discharge ->
  exists after, rates_after_cross_over consumers s = Ok (map (map Some) after) /\
    length after = m /\ (forall l, In l after -> length l = n) /\
    forall i k, (i < m)%nat -> (k < n)%nat ->
      (val after i k = val rates i k - sent numbers rates maxima discharge i k + received m numbers rates maxima discharge i k)%Qc.
Proof.
  intros m n consumers s numbers rates maxima discharge Hm F. pose proof F as (C & _ & Hr & _ & Hx & Ln & _).
  destruct C as (C1 & _ & _ & _ & C5).
  destruct (cross_over_from_spec m n consumers s numbers rates maxima discharge numbers [] rates) as (r & E & L & H & V); auto.
  { rewrite Hr, map_length in C1. auto. }
  { intros l Hl. rewrite <- (map_length Some). apply C5. apply in_or_app. left. rewrite Hr. now apply in_map. }
  exists r. unfold rates_after_cross_over. rewrite Hx, Hr. destruct numbers as [|z numbers]; [cbn in Ln; lia|].
  split; auto. split; auto. split; auto. intros i k Hi Hk. rewrite V by auto. cbn [Datatypes.length] in Ln |- *. rewrite Ln.
  rewrite (qsum_indicator (fun j => sent (z :: numbers) rates maxima discharge j k)) by lia. unfold received. ring.
Qed.

(** the total *)
Lemma qsum_add : forall A (f g : A -> Qc) l, qsum (map (fun a => (f a + g a)%Qc) l) = (qsum (map f l) + qsum (map g l))%Qc.
Proof. unfold qsum. induction l; cbn; [ring|]. rewrite IHl. ring. Qed.
Lemma qsum_swap : forall A B (f : A -> B -> Qc) l m,
  qsum (map (fun a => qsum (map (f a) m)) l) = qsum (map (fun b => qsum (map (fun a => f a b) l)) m).
Proof.
  induction l as [|a l IH]; intros m.
  - cbn. unfold qsum. induction m; cbn; auto. rewrite <- IHm. ring.
  - cbn [map]. change (qsum (?x :: ?y)) with (x + qsum y)%Qc. rewrite IH, <- qsum_add. reflexivity.
Qed.
Lemma qsum_ext_in : forall A (f g : A -> Qc) l, (forall a, In a l -> f a = g a) -> qsum (map f l) = qsum (map g l).
Proof. intros. f_equal. now apply map_ext_in. Qed.
Lemma qsum_scale : forall A (f : A -> Qc) c l, qsum (map (fun a => (c * f a)%Qc) l) = (c * qsum (map f l))%Qc.
Proof. unfold qsum. induction l; cbn; [ring|]. rewrite IHl. ring. Qed.

Theorem cross_over_total_proof : forall m n consumers s numbers rates maxima discharge, (0 < m)%nat ->
  finite_setting m n consumers s numbers rates maxima discharge ->
  exists after, rates_after_cross_over consumers s = Ok (map (map Some) after) /\
    forall k, (k < n)%nat -> qsum (map (fun i => val after i k) (seq 0 m)) = qsum (map (fun i => val rates i k) (seq 0 m)).
Proof.
  intros m n consumers s numbers rates maxima discharge Hm F. pose proof F as (_ & _ & _ & _ & _ & Ln & Rg & _).
  destruct (cross_over_proof m n consumers s numbers rates maxima discharge Hm F) as (r & E & _ & _ & V).
  exists r. split; auto. intros k Hk.
  rewrite (qsum_ext_in _ _ (fun i => val rates i k + (- (1) * sent numbers rates maxima discharge i k + received m numbers rates maxima discharge i k))%Qc).
  2:{ intros i Hi. apply in_seq in Hi. rewrite V by lia. ring. }
  rewrite qsum_add, qsum_add, qsum_scale. unfold received. rewrite qsum_swap.
  assert (X : qsum (map (fun b => qsum (map (fun a => if sends_to numbers b a then sent numbers rates maxima discharge b k else 0%Qc) (seq 0 m))) (seq 0 m))
     = qsum (map (fun b => sent numbers rates maxima discharge b k) (seq 0 m))).
  { apply qsum_ext_in. intros b Hb. apply in_seq in Hb.
    destruct (nth b numbers 0%Z) as [|j|j] eqn:Ej.
    - unfold sent, sends_to. rewrite Ej. clear. generalize 0%nat. induction m as [|m IH]; intros o; [reflexivity|]. cbn [seq map qsum fold_right].
      unfold qsum in IH. rewrite IH. destruct (0 =? Z.of_nat o + 1)%Z; ring.
    - assert (J : (0 <= Zpos j <= Z.of_nat m)%Z). { apply Rg. rewrite <- Ej. apply nth_In. lia. }
      transitivity (qsum (map (fun a => if Nat.eqb a (Pos.to_nat j - 1) then sent numbers rates maxima discharge b k else 0%Qc) (seq 0 m))).
      2:{ apply (qsum_indicator (fun _ => sent numbers rates maxima discharge b k) (Pos.to_nat j - 1) m 0). clear - J. lia. }
      apply qsum_ext_in. intros a Ha. unfold sends_to. rewrite Ej.
      destruct (Z.eqb_spec (Zpos j) (Z.of_nat a + 1)), (Nat.eqb_spec a (Pos.to_nat j - 1)); auto; lia.
    - assert (J : (0 <= Zneg j <= Z.of_nat m)%Z). { apply Rg. rewrite <- Ej. apply nth_In. lia. } lia. }
  rewrite X. ring.
Qed.

(** a sender to whom nobody sends keeps its maximum *)
Theorem cross_over_maximum_proof : forall m n consumers s numbers rates maxima discharge i j k,
  finite_setting m n consumers s numbers rates maxima discharge ->
  (i < m)%nat -> (j < m)%nat -> (k < n)%nat ->
  nth i numbers 0%Z = (Z.of_nat j + 1)%Z -> (val maxima i k < val rates i k)%Qc -> (val discharge i k <= val discharge j k)%Qc ->
  (forall a, (a < m)%nat -> nth a numbers 0%Z <> (Z.of_nat i + 1)%Z) ->
  exists after, rates_after_cross_over consumers s = Ok (map (map Some) after) /\
    val after i k = val maxima i k /\
    ((forall a, (a < m)%nat -> a <> i -> nth a numbers 0%Z <> (Z.of_nat j + 1)%Z) -> nth j numbers 0%Z = 0%Z ->
       (val after j k = val rates j k + (val rates i k - val maxima i k))%Qc).
Proof.
  intros m n consumers s numbers rates maxima discharge i j k F Hi Hj Hk Ei Hx Hd No.
  destruct (cross_over_proof m n consumers s numbers rates maxima discharge ltac:(lia) F) as (r & E & _ & _ & V).
  exists r. split; auto.
  assert (S : sent numbers rates maxima discharge i k = (val rates i k - val maxima i k)%Qc).
  { unfold sent. rewrite Ei. destruct (Z.of_nat j + 1)%Z as [|p|p] eqn:Ep; try lia.
    replace (Pos.to_nat p - 1)%nat with j by lia. rewrite (proj2 (Qcleb_le _ _)) by auto. rewrite (proj2 (Qcltb_lt _ _)) by auto. reflexivity. }
  assert (Z0 : forall a b, (forall c, In c b -> sends_to numbers c a = false) ->
     qsum (map (fun c => if sends_to numbers c a then sent numbers rates maxima discharge c k else 0%Qc) b) = 0%Qc).
  { intros a. induction b as [|c b IH]; intros H; [reflexivity|]. cbn [map qsum fold_right]. rewrite H by now left.
    unfold qsum in IH. rewrite IH by (intros; apply H; now right). ring. }
  split.
  - rewrite V by auto. unfold received. rewrite Z0, S; [ring|]. intros c Hc. apply in_seq in Hc. unfold sends_to.
    apply Z.eqb_neq. apply No. lia.
  - intros Only Nj. rewrite V by auto. unfold received.
    assert (Sj : sent numbers rates maxima discharge j k = 0%Qc) by (unfold sent; now rewrite Nj).
    rewrite Sj. rewrite (qsum_ext_in _ _ (fun c => if Nat.eqb c i then sent numbers rates maxima discharge c k else 0%Qc)).
    + rewrite (qsum_indicator (fun c => sent numbers rates maxima discharge c k)) by lia. rewrite S. ring.
    + intros c Hc. apply in_seq in Hc. unfold sends_to. destruct (Nat.eqb_spec c i) as [->|N].
      * now rewrite Ei, Z.eqb_refl.
      * rewrite (proj2 (Z.eqb_neq _ _)); auto. apply Only; auto. lia.
Qed.

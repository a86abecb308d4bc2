(** Lemmas about charts. *)
From Coq Require Import PeanoNat.
From Verif Require Import QcTac Base BaseLemmas Num Interp_Model Interp_Spec Time_Proofs Interp_Proofs Chart_Model Chart_Spec.
Local Open Scope list_scope.
Local Open Scope Qc_scope.

(** ** interpolation stays between the values *)
Fixpoint climbing (pts : list (Qc * Qc)) : Prop :=
  match pts with [] => True | p :: rest => (forall q, In q rest -> fst p <= fst q) /\ climbing rest end.

Lemma sort_climbing : forall l, climbing (sort (fun p q : Qc * Qc => Qcleb (fst p) (fst q)) l).
Proof.
  assert (forall l (p : Qc * Qc), climbing l -> climbing (insert_sorted (fun p q => Qcleb (fst p) (fst q)) p l)) as Hins.
  { induction l as [|q l IH]; intros p Hr; cbn [insert_sorted].
    - cbn. split; auto. intros q [].
    - destruct Hr as [Hq Hr]. destruct (Qcleb (fst p) (fst q)) eqn:E.
      + apply Qcleb_le in E. split; [|split; auto]. intros r [<-|Hrin]; auto. apply Hq in Hrin. qc_lra.
      + apply Qcleb_gt in E. split.
        * intros r Hrin. apply (Permutation_in _ (Permutation_sym (insert_sorted_perm _ _ _ _))) in Hrin as [<-|Hrin]; auto.
          now apply Qclt_le_weak.
        * apply IH; auto. }
  induction l as [|p l IH]; cbn [sort]; [exact I|]. now apply Hins.
Qed.

Lemma convex_bounds : forall lo hi t a b, lo <= a -> a <= hi -> lo <= b -> b <= hi -> 0 <= t -> t <= 1 ->
  lo <= a + t * (b - a) /\ a + t * (b - a) <= hi.
Proof. intros. split; qc_nra. Qed.

Lemma np_interp_bounds : forall pts lo hi x x0, climbing pts -> (forall p, In p pts -> lo <= snd p /\ snd p <= hi) ->
  hd_error pts = Some x0 -> fst x0 <= x -> exists y, np_interp pts x = Some y /\ lo <= y /\ y <= hi.
Proof.
  induction pts as [|[a ya] pts IH]; intros lo hi x x0 Hc Hb E L; [discriminate|].
  injection E as <-. cbn [fst] in L. cbn [np_interp].
  destruct (Hb (a, ya) (or_introl eq_refl)) as [B1 B2]. cbn [snd] in B1, B2.
  destruct pts as [|[b yb] pts'].
  - exists ya. split; [reflexivity|]. split; assumption.
  - destruct (Hb (b, yb) (or_intror (or_introl eq_refl))) as [B3 B4]. cbn [snd] in B3, B4. destruct Hc as [Ha Hc].
    destruct (Qcltb x b) eqn:X.
    + apply Qcltb_lt in X. eexists. split; [reflexivity|].
      assert (a < b) as Hab by qc_lra.
      replace ((yb - ya) / (b - a) * (x - a)) with ((x - a) / (b - a) * (yb - ya)) by (field; intros X0; qc_lra).
      assert (0 < b - a) as P by qc_lra.
      assert ((x - a) / (b - a) * (b - a) = x - a) as Q by (field; intros X0; qc_lra).
      apply convex_bounds; auto; clear - L X P Q; revert Q; generalize ((x - a) / (b - a)); intros t Q.
      * destruct (Qclt_le_dec t 0) as [C|C]; auto. exfalso. assert (t * (b - a) < 0) by qc_nra. qc_lra.
      * destruct (Qclt_le_dec 1 t) as [C|C]; auto. exfalso. assert ((b - a) < t * (b - a)) by qc_nra. qc_lra.
    + apply Qcltb_ge in X. destruct (IH lo hi x (b, yb) Hc) as (y & E & H).
      * intros p Hp. apply Hb. now right.
      * reflexivity.
      * exact X.
      * exists y. split; auto.
Qed.

Lemma combine_in_l : forall (A B : Type) (l : list A) (m : list B) a b, In (a, b) (combine l m) -> In a l.
Proof. intros. eapply in_combine_l; eauto. Qed.

Lemma interp1d_at_bounds : forall xs ys below above x lo hi, List.length xs = List.length ys -> xs <> [] ->
  (forall y, In y ys -> lo <= y /\ y <= hi) -> lo <= below -> below <= hi -> lo <= above -> above <= hi ->
  exists y, interp1d_at xs ys below above x = Ok y /\ lo <= y /\ y <= hi.
Proof.
  intros xs ys below above x lo hi L N B B1 B2 B3 B4. unfold interp1d_at, make_interpolator.
  rewrite (proj2 (Nat.eqb_eq _ _) L). cbn [negb].
  destruct xs as [|x1 xs]; [congruence|]. destruct ys as [|y1 ys]; [discriminate L|]. cbn [bind].
  unfold interpolate_1d. cbn [ip_points ip_below ip_above].
  set (pts := sort _ _). pose proof (sort_climbing (combine (x1 :: xs) (y1 :: ys))) as C. fold pts in C.
  assert (forall p, In p pts -> lo <= snd p /\ snd p <= hi) as Hp.
  { intros [a ya] Hin. apply B. apply (Permutation_in _ (Permutation_sym (sort_perm _ _ _))) in Hin.
    eapply in_combine_r; eauto. }
  assert (pts <> []) as Np.
  { intros E. pose proof (Permutation_length (sort_perm _ (fun p q : Qc * Qc => Qcleb (fst p) (fst q)) (combine (x1 :: xs) (y1 :: ys)))) as Q.
    fold pts in Q. rewrite E in Q. discriminate Q. }
  clearbody pts. destruct pts as [|[x0 y0] rest]; [congruence|].
  destruct (Qcltb x x0) eqn:E1; [exists below; auto|].
  destruct (Qcltb _ x) eqn:E2; [exists above; auto|]. apply Qcltb_ge in E1.
  destruct (np_interp_bounds ((x0, y0) :: rest) lo hi x (x0, y0) C Hp eq_refl E1) as (y & E & H).
  rewrite E. exists y. auto.
Qed.

Lemma hd_error_in : forall (A : Type) (l : list A) a, hd_error l = Some a -> In a l.
Proof. intros A [|x l] a E; [discriminate|]. injection E as ->. now left. Qed.
Lemma last_opt_in : forall (A : Type) (l : list A) a, last_opt l = Some a -> In a l.
Proof.
  intros A [|x l] a E; [discriminate|]. injection E as <-. revert x. induction l as [|y l IH]; intros x; [now left|].
  rewrite last_shift. right. apply IH.
Qed.
Lemma nonempty_ends : forall (A : Type) (l : list A), l <> [] -> exists a b, hd_error l = Some a /\ last_opt l = Some b.
Proof. intros A [|x l] N; [congruence|]. exists x, (last l x). auto. Qed.

Lemma interp1d_ends_bounds : forall xs ys x lo hi, List.length xs = List.length ys -> xs <> [] ->
  (forall y, In y ys -> lo <= y /\ y <= hi) -> exists y, interp1d_ends xs ys x = Ok y /\ lo <= y /\ y <= hi.
Proof.
  intros xs ys x lo hi L N B. assert (ys <> []) as N2 by (intros ->; destruct xs; [congruence|discriminate]).
  destruct (nonempty_ends _ ys N2) as (a & b & E1 & E2). unfold interp1d_ends. rewrite E1, E2. cbn [of_option bind].
  apply hd_error_in in E1. apply last_opt_in in E2. destruct (B a E1), (B b E2).
  apply interp1d_at_bounds; auto.
Qed.

(** ** the function through points of increasing abscissa *)
Lemma interp1d_ends_value : forall xs ys x y, List.length xs = List.length ys -> rising (combine xs ys) ->
  interp1d_ends xs ys x = Ok y -> value_at (combine xs ys) x y.
Proof.
  intros xs ys x y L R E. unfold interp1d_ends in E.
  destruct ys as [|y1 ys]; [discriminate E|]. destruct xs as [|x1 xs]; [discriminate L|].
  set (data := combine (x1 :: xs) (y1 :: ys)) in *.
  cbn [hd_error last_opt of_option bind] in E. unfold interp1d_at in E.
  assert (NoDup (x1 :: xs)) as ND.
  { assert (map fst data = x1 :: xs) as <-.
    { unfold data. clear - L. revert L. generalize (x1 :: xs) (y1 :: ys). intros l. induction l as [|a l IH]; intros [|b m] L; cbn in *; try discriminate; auto.
      f_equal. apply IH. congruence. }
    clear - R. induction data as [|p d IH]; cbn; constructor.
    - intros H. apply in_map_iff in H as (q & E & Hq). destruct R as [R _]. apply R in Hq. rewrite E in Hq. revert Hq. apply Qcle_not_lt, Qcle_refl.
    - apply IH. apply R. }
  destruct (make_interpolator (x1 :: xs) (y1 :: ys) (Some y1) (Some (last ys y1))) as [f|e] eqn:Ef; [|discriminate E]. cbn [bind] in E.
  pose proof (interpolation_proof _ _ _ _ _ ND Ef) as (I1 & I2 & I3 & I4 & _). fold data in I1, I2, I3, I4.
  assert (In (x1, y1) data) as H1 by (now left).
  assert (forall b yb, In (b, yb) data -> x1 <= b) as Hlo.
  { intros b yb [Eb|Hb]; [injection Eb as <- <-; apply Qcle_refl|]. destruct R as [R _]. apply R in Hb. now apply Qclt_le_weak. }
  assert (In (last xs x1, last ys y1) data /\ forall b yb, In (b, yb) data -> b <= last xs x1) as [H2 Hhi].
  { clear - L R. unfold data in *. clear data.
    revert x1 y1 ys L R. induction xs as [|x2 xs IH]; intros x1 y1 ys L R.
    - destruct ys; [|discriminate L]. cbn. split; [now left|]. intros b yb [Eb|[]]. injection Eb as <- <-. apply Qcle_refl.
    - destruct ys as [|y2 ys]; [discriminate L|]. rewrite !last_shift. injection L as L.
      destruct (IH x2 y2 ys) as [J1 J2]; [cbn; lia|apply R|]. split; [now right|].
      intros b yb [Eb|Hb]; [|now apply (J2 b yb)]. injection Eb as <- <-.
      destruct R as [R _]. pose proof (R _ J1) as K. cbn [fst] in K. now apply Qclt_le_weak. }
  destruct (Qclt_le_dec x x1) as [C|C].
  - rewrite I3 in E. 2:{ intros a ya Ha. apply Hlo in Ha. qc_lra. }
    injection E as <-. right. exists x1. split; [exact H1|]. left. auto.
  - destruct (Qclt_le_dec (last xs x1) x) as [D|D].
    + rewrite I4 in E. 2:{ intros a ya Ha. apply Hhi in Ha. qc_lra. }
      injection E as <-. right. exists (last xs x1). split; [exact H2|]. right. auto.
    + destruct (I2 x) as (y' & Y1 & Y2).
      { split; [exists x1, y1; auto|exists (last xs x1), (last ys y1); auto]. }
      rewrite Y2 in E. injection E as <-. left. split; auto. split; [exists x1, y1; auto|exists (last xs x1), (last ys y1); auto].
Qed.

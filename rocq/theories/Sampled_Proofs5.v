(** The evaluation period by period. *)
From Coq Require Import PeanoNat.
From Verif Require Import QcTac Base BaseLemmas Num Interp_Model Interp_Spec Interp_Proofs Sampled_Model Sampled_Spec.
Local Open Scope list_scope.
Local Open Scope Qc_scope.

(** ** Indices and assignment *)
Lemma indices_from : forall l n, map fst (filter snd (combine (seq n (List.length l)) l)) = map (fun i => (n + i)%nat) (indices_of l).
Proof.
  intros l. unfold indices_of. induction l as [|b l IH]; intros n; [reflexivity|]. cbn [List.length seq combine filter snd map].
  destruct b; cbn [map fst]; rewrite (IH (S n)), (IH 1%nat), !map_map.
  - f_equal; [lia|]. apply map_ext. intros; lia.
  - apply map_ext. intros; lia.
Qed.
Lemma indices_cons : forall b l, indices_of (b :: l) = (if b then [0%nat] else []) ++ map S (indices_of l).
Proof.
  intros b l. assert (map fst (filter snd (combine (seq 1 (List.length l)) l)) = map S (indices_of l)) as E.
  { rewrite indices_from. apply map_ext. intros; lia. }
  destruct b; cbn [app]; rewrite <- E; reflexivity.
Qed.
Lemma indices_in : forall l k, In k (indices_of l) <-> nth_error l k = Some true.
Proof.
  induction l as [|b l IH]; intros k; [destruct k; cbn; split; [intros []|discriminate|intros []|discriminate]|].
  rewrite indices_cons, in_app_iff, in_map_iff. destruct k as [|k]; cbn [nth_error].
  - split.
    + intros [H|(i & E & _)]; [|discriminate]. destruct b; [reflexivity|destruct H].
    + intros E. injection E as ->. left. now left.
  - split.
    + intros [H|(i & E & H)]; [destruct b; [destruct H as [E|[]]; discriminate|destruct H]|]. injection E as ->. now apply IH.
    + intros H. right. exists k. split; [reflexivity|now apply IH].
Qed.
Lemma indices_nodup : forall l, NoDup (indices_of l).
Proof.
  induction l as [|b l IH]; [constructor|]. rewrite indices_cons. assert (NoDup (map S (indices_of l))) as H.
  { apply FinFun.Injective_map_NoDup; [intros x y E; lia|exact IH]. }
  destruct b; cbn; [constructor|]; auto. intros Q. apply in_map_iff in Q as (i & E & _). discriminate.
Qed.

Lemma set_at_nth : forall A (base : list A) i v out, set_at base i v = Ok out ->
  List.length out = List.length base /\ forall k, nth_error out k = if Nat.eqb k i then Some v else nth_error base k.
Proof.
  induction base as [|b base IH]; intros i v out H; cbn in H; [discriminate|]. destruct i as [|i].
  - injection H as <-. split; [reflexivity|]. intros [|k]; reflexivity.
  - destruct (set_at base i v) as [r|] eqn:E; [|discriminate]. injection H as <-. destruct (IH i v r E) as [L N].
    split; [cbn; now rewrite L|]. intros [|k]; [reflexivity|]. cbn. apply N.
Qed.
Lemma assign_nth : forall A idx (base : list A) vs out, NoDup idx -> assign base idx vs = Ok out ->
  List.length out = List.length base /\ List.length idx = List.length vs /\
  (forall j i v, nth_error idx j = Some i -> nth_error vs j = Some v -> nth_error out i = Some v) /\
  (forall i, ~ In i idx -> nth_error out i = nth_error base i).
Proof.
  induction idx as [|i idx IH]; intros base [|v vs] out Hnd H; cbn in H; try discriminate.
  - injection H as <-. split; [reflexivity|]. split; [reflexivity|]. split; [intros [|j]; discriminate|reflexivity].
  - destruct (set_at base i v) as [b|] eqn:E; [|discriminate]. cbn [bind] in H. inversion Hnd; subst.
    destruct (set_at_nth _ _ _ _ _ E) as [L N]. destruct (IH b vs out H3 H) as (L1 & L2 & N1 & N2).
    split; [now rewrite L1|]. split; [cbn; now rewrite L2|]. split.
    + intros [|j] i' v' Hi Hv; cbn in Hi, Hv.
      * injection Hi as <-. injection Hv as <-. rewrite (N2 i H2), N, Nat.eqb_refl. reflexivity.
      * now apply (N1 j).
    + intros k Hk. rewrite N2 by (intros Q; apply Hk; now right). rewrite N. destruct (Nat.eqb k i) eqn:Q; [|reflexivity].
      apply Nat.eqb_eq in Q. subst. elim Hk. now left.
Qed.

(** ** The value of a series in a period *)
Definition value_at (series : option (list Qc)) (k : nat) : option Qc :=
  match series with Some l => nth_error l k | None => None end.
Lemma value_at_requested : forall s k x, value_at s k = Some x <-> requested s k x.
Proof.
  intros s k x. unfold value_at, requested. destruct s as [l|]; split.
  - intros H. now exists l. - intros (l' & E & H). injection E as ->. exact H. - discriminate. - intros (l & E & _). discriminate.
Qed.

(** the core at a point *)
Definition core_point (c : core) (r p d : option Qc) (u : num) : Prop :=
  match c with
  | Core1D m => exists x, match d1_variable m with RATE => r | PS => p | PD => d end = Some x /\ u = interpolate_1d (d1_function m) (Some x)
  | CoreRatePd m => exists x y, r = Some x /\ d = Some y /\ u = evaluate_rate_pd m x y
  | CoreRatePs m => exists x y, r = Some x /\ p = Some y /\ u = evaluate_rate_ps m x y
  | CorePsPd m => exists x y, p = Some x /\ d = Some y /\ u = evaluate_ps_pd m x y
  | Core3D f => exists x y z, r = Some x /\ p = Some y /\ d = Some z /\ u = f x y z
  end.

Lemma given_nth : forall s idx xs j i x, given_or_nil s idx = Ok xs -> nth_error idx j = Some i -> nth_error xs j = Some x -> value_at s i = Some x.
Proof.
  intros [l|] idx xs j i x H Hi Hx; cbn in H.
  - unfold take_at in H. apply mapM_Ok in H. revert j Hi Hx. induction H as [|a b idx xs E _ IH]; intros [|j] Hi Hx; try discriminate; cbn in *.
    + injection Hi as ->. injection Hx as ->. destruct (nth_error l i) as [y|]; cbn in E; congruence.
    + now apply (IH j).
  - injection H as <-. destruct j; discriminate.
Qed.
Lemma map_pairs_nth : forall A B C (f : A -> B -> C) xs ys us j u, map_pairs f xs ys = Ok us -> nth_error us j = Some u ->
  exists x y, nth_error xs j = Some x /\ nth_error ys j = Some y /\ u = f x y.
Proof.
  induction xs as [|x xs IH]; intros [|y ys] us j u H Hu; cbn in H; try discriminate.
  - injection H as <-. destruct j; discriminate.
  - destruct (map_pairs f xs ys) as [r|] eqn:E; [|discriminate]. injection H as <-. destruct j as [|j]; cbn in Hu.
    + injection Hu as <-. exists x, y. auto.
    + destruct (IH ys r j u E Hu) as (a & b & H1 & H2 & H3). exists a, b. auto.
Qed.
Lemma core_evaluate_nth : forall c rate ps pd idx rs pss pds us j i u,
  given_or_nil rate idx = Ok rs -> given_or_nil ps idx = Ok pss -> given_or_nil pd idx = Ok pds ->
  core_evaluate c rs pss pds = Ok us -> nth_error idx j = Some i -> nth_error us j = Some u ->
  core_point c (value_at rate i) (value_at ps i) (value_at pd i) u.
Proof.
  intros c rate ps pd idx rs pss pds us j i u Hr Hp Hd H Hi Hu. unfold core_evaluate in H. destruct c as [m|m|m|m|f]; cbn [core_point].
  - destruct (d1_variable m); injection H as <-; rewrite nth_error_map in Hu.
    + destruct (nth_error rs j) as [x|] eqn:E; [|discriminate]. injection Hu as <-. exists x. split; [exact (given_nth _ _ _ _ _ _ Hr Hi E)|reflexivity].
    + destruct (nth_error pss j) as [x|] eqn:E; [|discriminate]. injection Hu as <-. exists x. split; [exact (given_nth _ _ _ _ _ _ Hp Hi E)|reflexivity].
    + destruct (nth_error pds j) as [x|] eqn:E; [|discriminate]. injection Hu as <-. exists x. split; [exact (given_nth _ _ _ _ _ _ Hd Hi E)|reflexivity].
  - destruct (map_pairs_nth _ _ _ _ _ _ _ _ _ H Hu) as (x & y & E1 & E2 & ->). exists x, y.
    split; [exact (given_nth _ _ _ _ _ _ Hr Hi E1)|]. split; [exact (given_nth _ _ _ _ _ _ Hd Hi E2)|reflexivity].
  - destruct (map_pairs_nth _ _ _ _ _ _ _ _ _ H Hu) as (x & y & E1 & E2 & ->). exists x, y.
    split; [exact (given_nth _ _ _ _ _ _ Hr Hi E1)|]. split; [exact (given_nth _ _ _ _ _ _ Hp Hi E2)|reflexivity].
  - destruct (map_pairs_nth _ _ _ _ _ _ _ _ _ H Hu) as (x & y & E1 & E2 & ->). exists x, y.
    split; [exact (given_nth _ _ _ _ _ _ Hp Hi E1)|]. split; [exact (given_nth _ _ _ _ _ _ Hd Hi E2)|reflexivity].
  - destruct (map_pairs f rs pss) as [fs|] eqn:E; [|discriminate]. cbn [bind] in H.
    destruct (map_pairs_nth _ _ _ _ _ _ _ _ _ H Hu) as (h & z & E1 & E2 & ->).
    destruct (map_pairs_nth _ _ _ _ _ _ _ _ _ E E1) as (x & y & E3 & E4 & ->). exists x, y, z.
    split; [exact (given_nth _ _ _ _ _ _ Hr Hi E3)|]. split; [exact (given_nth _ _ _ _ _ _ Hp Hi E4)|]. split; [exact (given_nth _ _ _ _ _ _ Hd Hi E2)|reflexivity].
Qed.

(** ** One period *)
Definition met (ok : Qc -> bool) (x : option Qc) : bool := match x with Some x => ok x | None => true end.
Definition conditions (m : sampled) (r p d : option Qc) : bool :=
  met (Qcltb 0) r && met (at_most (sa_rate m)) r && met (at_least (sa_ps m)) p && met (at_most (sa_pd m)) d.
Definition shifted (r : option Qc) : option Qc := option_map shift_rate r.

Lemma condition_nth : forall n ok s l k, condition n ok s = Ok l -> (k < n)%nat -> nth_error l k = Some (met ok (value_at s k)).
Proof.
  intros n ok [s|] l k H L; cbn in H.
  - destruct (Nat.eqb (List.length s) n) eqn:E; [|discriminate]. apply Nat.eqb_eq in E. injection H as <-.
    rewrite nth_error_map. cbn [value_at]. destruct (nth_error s k) as [x|] eqn:Q; [reflexivity|]. apply nth_error_None in Q. lia.
  - injection H as <-. cbn. revert k L. induction n as [|n IH]; intros k L; [lia|]. destruct k; [reflexivity|]. apply IH. lia.
Qed.
Lemma condition_length : forall n ok s l, condition n ok s = Ok l -> List.length l = n /\ forall v, s = Some v -> List.length v = n.
Proof.
  intros n ok [s|] l H; cbn in H.
  - destruct (Nat.eqb (List.length s) n) eqn:E; [|discriminate]. apply Nat.eqb_eq in E. injection H as <-. rewrite map_length.
    split; [exact E|]. intros v Q. injection Q as <-. exact E.
  - injection H as <-. rewrite repeat_length. split; [reflexivity|discriminate].
Qed.
Lemma nth_repeat_some : forall A (x : A) n k, (k < n)%nat -> nth_error (repeat x n) k = Some x.
Proof. induction n as [|n IH]; intros k L; [lia|]. destruct k; [reflexivity|]. apply IH. lia. Qed.

Theorem period_usage : forall m rate ps pd us, interpolated_values m rate ps pd = Ok us ->
  (rate <> None \/ ps <> None \/ pd <> None) /\
  (forall s l, In s [rate; ps; pd] -> s = Some l -> List.length l = List.length us) /\
  (forall k u, nth_error us k = Some u ->
     let r := shifted (value_at rate k) in let p := value_at ps k in let d := value_at pd k in
     (forall x, r = Some x -> x <= 0 -> u = Some 0) /\
     (conditions m r p d = true -> core_point (sa_core m) r p d u) /\
     (conditions m r p d = false -> (forall x, r = Some x -> 0 < x) -> u = None)).
Proof.
  intros m rate0 ps pd us H. unfold interpolated_values in H.
  set (rate := match rate0 with Some l => Some (map shift_rate l) | None => None end) in *.
  assert (forall k, value_at rate k = shifted (value_at rate0 k)) as Hsh.
  { intros k. unfold rate, shifted. destruct rate0 as [l|]; cbn; [apply nth_error_map|reflexivity]. }
  match type of H with bind ?t _ = _ => destruct t as [n|] eqn:En; [|discriminate] end. cbn [bind] in H.
  match type of H with bind ?t _ = _ => destruct t as [base|] eqn:Eb; [|discriminate] end. cbn [bind] in H.
  destruct (condition n (Qcltb 0) rate) as [c1|] eqn:E1; [|discriminate]. cbn [bind] in H.
  destruct (condition n (at_most (sa_rate m)) rate) as [c2|] eqn:E2; [|discriminate]. cbn [bind] in H.
  destruct (condition n (at_least (sa_ps m)) ps) as [c3|] eqn:E3; [|discriminate]. cbn [bind] in H.
  destruct (condition n (at_most (sa_pd m)) pd) as [c4|] eqn:E4; [|discriminate]. cbn [bind] in H.
  set (cond := conjunction (conjunction (conjunction c1 c2) c3) c4) in *.
  destruct (given_or_nil rate (indices_of cond)) as [rs|] eqn:G1; [|discriminate]. cbn [bind] in H.
  destruct (given_or_nil ps (indices_of cond)) as [pss|] eqn:G2; [|discriminate]. cbn [bind] in H.
  destruct (given_or_nil pd (indices_of cond)) as [pds|] eqn:G3; [|discriminate]. cbn [bind] in H.
  destruct (core_evaluate (sa_core m) rs pss pds) as [vs|] eqn:Ec; [|discriminate]. cbn [bind] in H.
  destruct (assign_nth _ _ _ _ _ (indices_nodup cond) H) as (L1 & L2 & N1 & N2).
  destruct (condition_length _ _ _ _ E1) as [Lc1 Lr]. destruct (condition_length _ _ _ _ E2) as [Lc2 _].
  destruct (condition_length _ _ _ _ E3) as [Lc3 Lp]. destruct (condition_length _ _ _ _ E4) as [Lc4 Ld].
  (* the values before the table is consulted *)
  assert (List.length base = n /\ forall k, (k < n)%nat -> nth_error base k =
    Some (match value_at rate k with Some x => if Qcleb x 0 then Some 0 else None | None => None end)) as [Lb Nb].
  { unfold rate in *. destruct rate0 as [l|]; cbn [value_at] in *.
    - destruct (assign_nth _ _ _ _ _ (indices_nodup _) Eb) as (B1 & B2 & B3 & B4). rewrite repeat_length in B1. split; [exact B1|]. intros k Hk.
      destruct (nth_error (map shift_rate l) k) as [x|] eqn:Ex.
      2:{ apply nth_error_None in Ex. rewrite (Lr _ eq_refl) in Ex. lia. }
      destruct (Qcleb x 0) eqn:Q.
      + assert (In k (indices_of (map (fun r => Qcleb r 0) (map shift_rate l)))) as Hin by (apply indices_in; rewrite nth_error_map, Ex; cbn; now rewrite Q).
        apply In_nth_error in Hin as (j & Hj). apply (B3 j k (Some 0) Hj). rewrite nth_error_map, Hj. reflexivity.
      + rewrite B4; [now apply nth_repeat_some|]. intros Hin. apply indices_in in Hin. rewrite nth_error_map, Ex in Hin. cbn in Hin. rewrite Q in Hin. discriminate.
    - injection Eb as <-. rewrite repeat_length. split; [reflexivity|]. intros k Hk. now apply nth_repeat_some. }
  split; [|split].
  - unfold rate in En. destruct rate0; [left; discriminate|]. destruct ps; [right; left; discriminate|]. destruct pd; [right; right; discriminate|discriminate].
  - intros s l [<-|[<-|[<-|[]]]] E; rewrite L1, Lb.
    + subst rate0. specialize (Lr _ eq_refl). now rewrite map_length in Lr. + now apply Lp. + now apply Ld.
  - intros k u Hu. cbn zeta. rewrite <- Hsh. assert (k < n)%nat as Hk.
    { assert (nth_error us k <> None) as Q by congruence. apply nth_error_Some in Q. now rewrite L1, Lb in Q. }
    assert (nth_error cond k = Some (conditions m (value_at rate k) (value_at ps k) (value_at pd k))) as Hc.
    { unfold cond, conjunction, conditions. rewrite !nth_error_map2, (condition_nth _ _ _ _ _ E1 Hk), (condition_nth _ _ _ _ _ E2 Hk),
        (condition_nth _ _ _ _ _ E3 Hk), (condition_nth _ _ _ _ _ E4 Hk). reflexivity. }
    split; [|split].
    + intros x Ex Lx. assert (conditions m (value_at rate k) (value_at ps k) (value_at pd k) = false) as Cf.
      { unfold conditions. rewrite Ex. cbn [met]. replace (Qcltb 0 x) with false by (symmetry; now apply Qcltb_ge). reflexivity. }
      rewrite Cf in Hc. rewrite N2 in Hu by (rewrite indices_in, Hc; discriminate). rewrite (Nb k Hk), Ex in Hu.
      replace (Qcleb x 0) with true in Hu by (symmetry; now apply Qcleb_le). congruence.
    + intros Ct. rewrite Ct in Hc. apply indices_in in Hc. apply In_nth_error in Hc as (j & Hj).
      assert (exists v, nth_error vs j = Some v) as (v & Hv).
      { destruct (nth_error vs j) as [v|] eqn:Q; [now exists v|]. apply nth_error_None in Q. rewrite <- L2 in Q. apply nth_error_None in Q. congruence. }
      assert (u = v) as -> by (specialize (N1 j k v Hj Hv); congruence).
      exact (core_evaluate_nth _ _ _ _ _ _ _ _ _ _ _ _ G1 G2 G3 Ec Hj Hv).
    + intros Cf Hx. rewrite Cf in Hc. rewrite N2 in Hu by (rewrite indices_in, Hc; discriminate). rewrite (Nb k Hk) in Hu.
      destruct (value_at rate k) as [x|]; [|congruence]. specialize (Hx x eq_refl).
      replace (Qcleb x 0) with false in Hu by (symmetry; now apply Qcleb_gt). congruence.
Qed.

(** ** The rate that is looked up *)
Lemma shift_off : forall r, shift_rate r <= 0 <-> r <= tiny.
Proof.
  intros r. unfold shift_rate. assert (0 < tiny) as T by reflexivity. change epsilon with tiny.
  destruct (Qcltb 0 r) eqn:E; [apply Qcltb_lt in E|apply Qcltb_ge in E]; split; intros; qc_lra.
Qed.
Lemma shift_on : forall r, tiny < r -> shift_rate r = r - tiny /\ 0 < shift_rate r.
Proof.
  intros r H. unfold shift_rate. assert (0 < tiny) as T by reflexivity. change epsilon with tiny.
  replace (Qcltb 0 r) with true by (symmetry; apply Qcltb_lt; qc_lra). split; [reflexivity|qc_lra].
Qed.

(** ** The columns *)
Lemma nodup_one : forall l, number_of_values l = 1%nat <-> l <> [] /\ forall x y, In x l -> In y l -> x = y.
Proof.
  intros l. unfold number_of_values. split.
  - intros H. assert (forall x, In x l <-> In x (nodup Qc_eq_dec l)) as HI by (intros; symmetry; apply nodup_In).
    destruct (nodup Qc_eq_dec l) as [|a [|b t]]; try discriminate. split.
    + intros ->. apply (HI a). now left.
    + intros x y Hx Hy. apply HI in Hx as [<-|[]], Hy as [<-|[]]. reflexivity.
  - intros [N H]. pose proof (NoDup_nodup Qc_eq_dec l) as Hn. assert (forall x, In x (nodup Qc_eq_dec l) <-> In x l) as HI by (intros; apply nodup_In).
    destruct (nodup Qc_eq_dec l) as [|a [|b t]]; [|reflexivity|].
    + destruct l as [|x l]; [congruence|]. destruct (proj2 (HI x)). now left.
    + inversion Hn; subst. elim H2. left. symmetry. apply H; apply HI; [now left|right; now left].
Qed.
Lemma nodup_none : forall l, number_of_values l = 0%nat <-> l = [].
Proof.
  intros l. split; [|intros ->; reflexivity]. intros H. destruct l as [|x l]; [reflexivity|]. unfold number_of_values in H.
  assert (In x (nodup Qc_eq_dec (x :: l))) as Hx by (apply nodup_In; now left). apply length_zero_iff_nil in H. rewrite H in Hx. destruct Hx.
Qed.
Lemma column_varies_ok : forall s v, (forall l, sm_column s v = Some l -> l <> []) -> (varies s v = true <-> column_varies (sm_column s v)).
Proof.
  intros s v Hne. unfold varies, column_varies. destruct (sm_column s v) as [l|]; [|split; [discriminate|intros (l & x & y & E & _); discriminate]].
  specialize (Hne l eq_refl). split.
  - intros H. apply negb_true_iff, Nat.eqb_neq in H. rewrite nodup_one in H.
    destruct l as [|x l]; [congruence|].
    destruct (Forall_Exists_dec (fun y => y = x) (fun y => Qc_eq_dec y x) (x :: l)) as [A|E].
    + rewrite Forall_forall in A. elim H. split; [exact Hne|]. intros a b Ha Hb. rewrite (A a Ha), (A b Hb). reflexivity.
    + apply Exists_exists in E as (y & Hy & N). exists (x :: l), x, y. split; [reflexivity|]. split; [now left|]. split; [exact Hy|congruence].
  - intros (l' & x & y & E & Hx & Hy & N). injection E as <-. apply negb_true_iff, Nat.eqb_neq. rewrite nodup_one. intros [_ Q]. apply N. now apply Q.
Qed.
Lemma constant_value_ok : forall s v c, constant_value s v = Some c <-> column_is (sm_column s v) c.
Proof.
  intros s v c. unfold constant_value, column_is, varies. destruct (sm_column s v) as [[|x l]|].
  - split; [discriminate|]. intros (l & E & N & _). injection E as <-. congruence.
  - destruct (Nat.eqb (number_of_values (x :: l)) 1) eqn:E; cbn [negb].
    + apply Nat.eqb_eq, nodup_one in E as [_ E]. split.
      * intros Q. injection Q as ->. exists (c :: l). split; [reflexivity|]. split; [discriminate|]. intros y Hy. apply E; [exact Hy|now left].
      * intros (l' & Q & _ & H). injection Q as <-. f_equal. apply H. now left.
    + apply Nat.eqb_neq in E. split; [discriminate|]. intros (l' & Q & N & H). injection Q as <-. elim E. apply nodup_one. split; [exact N|].
      intros a b Ha Hb. rewrite (H a Ha), (H b Hb). reflexivity.
  - split; [discriminate|]. intros (l & E & _). discriminate.
Qed.

(** ** The constructor *)
Lemma acceptable_ok : forall s, (has_variable s && equal_lengths s && all_non_negative s = true) <-> acceptable s.
Proof.
  intros s. unfold acceptable. rewrite !andb_true_iff.
  assert (has_variable s = true <-> exists v l, sm_column s v = Some l /\ l <> []) as ->.
  { unfold has_variable. rewrite negb_true_iff. split.
    - intros H. destruct (sm_rate s) as [[|x l]|] eqn:E1; [|exists RATE, (x :: l); split; [exact E1|discriminate]|];
      (destruct (sm_ps s) as [[|y m]|] eqn:E2; [|exists PS, (y :: m); split; [exact E2|discriminate]|]);
      (destruct (sm_pd s) as [[|z n]|] eqn:E3; [|exists PD, (z :: n); split; [exact E3|discriminate]|]); discriminate.
    - intros (v & l & E & N). destruct l as [|x l]; [congruence|]. destruct v; cbn in E; rewrite E; cbn; rewrite ?andb_false_r; reflexivity. }
  assert (equal_lengths s = true <-> (forall c, In c [sm_rate s; sm_ps s; sm_pd s; sm_power s] -> forall l, c = Some l -> List.length l = List.length (sm_usage s))) as ->.
  { unfold equal_lengths. rewrite forallb_forall. split; intros H c Hc.
    - intros l ->. specialize (H _ Hc). cbn in H. now apply Nat.eqb_eq.
    - specialize (H c Hc). destruct c as [l|]; [|reflexivity]. cbn. apply Nat.eqb_eq. now apply H. }
  assert (all_non_negative s = true <-> (forall c, In c [Some (sm_usage s); sm_rate s; sm_ps s; sm_pd s; sm_power s] -> forall l x, c = Some l -> In x l -> 0 <= x)) as ->.
  { unfold all_non_negative. rewrite forallb_forall. split; intros H c Hc.
    - intros l x -> Hx. specialize (H _ Hc). cbn in H. rewrite forallb_forall in H. specialize (H x Hx). apply negb_true_iff, Qcltb_ge in H. exact H.
    - specialize (H c Hc). destruct c as [l|]; [|reflexivity]. cbn. apply forallb_forall. intros x Hx. apply negb_true_iff, Qcltb_ge. now apply (H l). }
  tauto.
Qed.
Lemma make_sampled_inv : forall g s m, make_sampled g s = Ok m ->
  acceptable s /\ make_core g s = Ok (sa_core m) /\ sa_samples m = s /\
  sa_rate m = constant_value s RATE /\ sa_ps m = constant_value s PS /\ sa_pd m = constant_value s PD.
Proof.
  intros g s m H. unfold make_sampled in H.
  destruct (has_variable s) eqn:E1; cbn [negb] in H; [|discriminate]. destruct (equal_lengths s) eqn:E2; cbn [negb] in H; [|discriminate].
  destruct (all_non_negative s) eqn:E3; cbn [negb] in H; [|discriminate]. destruct (make_core g s) as [c|] eqn:E4; [|discriminate].
  cbn [bind] in H. injection H as <-. split; [apply acceptable_ok; now rewrite E1, E2, E3|]. repeat split.
Qed.
Lemma make_sampled_refuses : forall g s, ~ acceptable s -> make_sampled g s = Err ValidationError.
Proof.
  intros g s H. rewrite <- acceptable_ok in H. unfold make_sampled.
  destruct (has_variable s); [|reflexivity]. destruct (equal_lengths s); [|reflexivity]. destruct (all_non_negative s); [|reflexivity]. elim H. reflexivity.
Qed.
Lemma acceptable_nonempty : forall s v l, acceptable s -> sm_column s v = Some l -> l <> [].
Proof.
  intros s v l ((w & k & Ew & Nw) & HL & _) E ->.
  assert (forall v l, sm_column s v = Some l -> List.length l = List.length (sm_usage s)) as H.
  { intros v' l' E'. apply (HL (sm_column s v')); [destruct v'; cbn; auto|exact E']. }
  pose proof (H v [] E) as H1. pose proof (H w k Ew) as H2. cbn in H1. rewrite <- H1 in H2. apply length_zero_iff_nil in H2. contradiction.
Qed.
Lemma varying_ok : forall s v, acceptable s -> (In v (varying_variables s) <-> column_varies (sm_column s v)).
Proof.
  intros s v A. unfold varying_variables, required_variables. rewrite !filter_In, (column_varies_ok s v (fun l => acceptable_nonempty s v l A)).
  split; [tauto|]. intros H. split; [|exact H]. split; [destruct v; cbn; auto|]. destruct H as (l & x & y & -> & _). reflexivity.
Qed.
Lemma varying_list : forall s, acceptable s ->
  exists r p d, varying_variables s = filter (fun v => match v with RATE => r | PS => p | PD => d end) [RATE; PS; PD] /\
    (r = true <-> column_varies (sm_rate s)) /\ (p = true <-> column_varies (sm_ps s)) /\ (d = true <-> column_varies (sm_pd s)).
Proof.
  intros s A. pose proof (fun v => column_varies_ok s v (fun l => acceptable_nonempty s v l A)) as H.
  exists (varies s RATE), (varies s PS), (varies s PD). split; [|split; [exact (H RATE)|split; [exact (H PS)|exact (H PD)]]].
  unfold varying_variables, required_variables.
  assert (forall (f h : variable -> bool) l, filter f (filter h l) = filter (fun x => h x && f x) l) as FF.
  { intros f h. induction l as [|a l IH]; cbn; [reflexivity|]. destruct (h a); cbn; rewrite IH; reflexivity. }
  rewrite FF. apply filter_ext. intros v. unfold varies. destruct v; cbn [sm_column]; [destruct (sm_rate s)|destruct (sm_ps s)|destruct (sm_pd s)]; reflexivity.
Qed.

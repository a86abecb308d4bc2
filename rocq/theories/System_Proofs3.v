From Coq Require Import PeanoNat String Lia.
From Verif Require Import QcTac Base BaseLemmas Num Energy_Model System_Model System_Spec System_Proofs System_Proofs2.
Local Open Scope list_scope.

Lemma bind_Ok : forall A B (r : result A) (f : A -> result B) y, bind r f = Ok y -> exists x, r = Ok x /\ f x = Ok y.
Proof. intros A B [x|e] f y H; cbn in H; [eauto|discriminate]. Qed.
Lemma get_Ok : forall A (l : list A) i x, get l i = Ok x <-> nth_error l i = Some x.
Proof. intros. unfold get. destruct (nth_error l i); cbn; split; congruence. Qed.

(** shape of the rates after cross-over *)
Definition shape (m n : nat) (l : list (list num)) : Prop := length l = m /\ forall v, In v l -> length v = n.
Lemma shape_set : forall m n l i v, shape m n l -> length v = n -> shape m n (set_nth i v l).
Proof.
  intros m n l i v [H1 H2] Hv. split; [now rewrite set_nth_length|]. clear H1. revert i. induction l as [|a l IH]; intros i w Hw; [destruct i; destruct Hw|].
  destruct i; cbn in Hw; destruct Hw as [<-|Hw]; auto.
  - apply H2. now right.
  - apply H2. now left.
  - eapply IH; eauto. intros; apply H2; now right.
Qed.
Lemma np_inplace_length : forall f a b r, np_inplace f a b = Ok r -> length r = length a.
Proof.
  unfold np_inplace. intros f a b r H. apply bind_Ok in H. destruct H as (x & _ & H).
  destruct (Nat.eqb_spec (length x) (length a)); [congruence|discriminate].
Qed.
Lemma shape_nth : forall m n l i v, shape m n l -> nth_error l i = Some v -> length v = n.
Proof. intros m n l i v [_ H] E. apply H. eapply nth_error_In; eauto. Qed.
Lemma cross_over_step_shape : forall m n consumers s rates i z r, shape m n rates -> cross_over_step consumers s rates i z = Ok r -> shape m n r.
Proof.
  intros m n consumers s rates i z r Sh H. unfold cross_over_step in H. destruct (z =? 0)%Z; [congruence|].
  repeat (apply bind_Ok in H; let x := fresh "x" in let Hx := fresh "Hx" in destruct H as (x & Hx & H)).
  match goal with
  | H1 : np_inplace nsub ?b1 _ = Ok ?a1, G1 : get rates i = Ok ?b1, H2 : np_inplace nadd ?b2 _ = Ok ?a2, G2 : get _ ?t = Ok ?b2 |- _ =>
      assert (E : set_nth t a2 (set_nth i a1 rates) = r) by congruence; rewrite <- E; clear E;
      apply np_inplace_length in H1; apply np_inplace_length in H2; apply get_Ok in G1; apply get_Ok in G2;
      assert (Sh' : shape m n (set_nth i a1 rates)) by (apply shape_set; auto; rewrite H1; eapply shape_nth; eauto);
      apply shape_set; auto; rewrite H2; eapply shape_nth; eauto
  end.
Qed.
Lemma cross_over_from_shape : forall m n consumers s numbers rates i r, shape m n rates -> cross_over_from consumers s rates i numbers = Ok r -> shape m n r.
Proof.
  intros m n consumers s. induction numbers as [|z numbers IH]; intros rates i r Sh H; cbn in H; [congruence|].
  apply bind_Ok in H. destruct H as (x & Hx & H). eapply IH; [|eauto]. eapply cross_over_step_shape; eauto.
Qed.
Lemma rates_after_shape : forall m n consumers s r, complete m n s -> rates_after_cross_over consumers s = Ok r -> shape m n r.
Proof.
  intros m n consumers s r (C1 & _ & _ & _ & C5) H.
  assert (Sh : shape m n (os_rates s)) by (split; auto; intros v Hv; apply C5, in_or_app; now left).
  unfold rates_after_cross_over in H. destruct (os_cross s) as [[|z l]|]; try congruence. eapply cross_over_from_shape; eauto.
Qed.

(** ** What the consumers get *)
Lemma shape_at : forall A m n (l : list (list A)) i k, length l = m -> (forall v, In v l -> length v = n) -> (i < m)%nat -> (k < n)%nat ->
  exists x, at_ l i k x.
Proof.
  intros A m n l i k L H Hi Hk. destruct (nth_error l i) as [v|] eqn:E; [|apply nth_error_None in E; lia].
  assert (length v = n) by (apply H; eapply nth_error_In; eauto).
  destruct (nth_error v k) as [x|] eqn:Ev; [|apply nth_error_None in Ev; lia]. exists x, v. auto.
Qed.
Lemma at_fun : forall A (l : list (list A)) i k x y, at_ l i k x -> at_ l i k y -> x = y.
Proof. intros A l i k x y (v & H1 & H2) (w & H3 & H4). congruence. Qed.
Lemma gets_fun : forall s rates i k f p q, gets s rates i k f p -> gets s rates i k f q -> p = q.
Proof.
  intros s rates i k f p q (x & a & b & y & X1 & X2 & X3 & X4 & ->) (x' & a' & b' & y' & Y1 & Y2 & Y3 & Y4 & ->).
  assert (y = y') as ->. { destruct (os_density s); [eapply at_fun; eauto|congruence]. }
  f_equal; eapply at_fun; eauto.
Qed.
Lemma complete_parts : forall m n s, complete m n s ->
  (forall v, In v (os_rates s) -> length v = n) /\ (forall v, In v (os_suction s) -> length v = n) /\ (forall v, In v (os_discharge s) -> length v = n).
Proof. intros m n s (_ & _ & _ & _ & H). repeat split; intros; apply H; rewrite !in_app_iff; auto. Qed.
Lemma gets_exists : forall m n s rates i k f, complete m n s -> shape m n rates -> (i < m)%nat -> (k < n)%nat -> exists p, gets s rates i k f p.
Proof.
  intros m n s rates i k f C [L1 L2] Hi Hk. pose proof (complete_parts _ _ _ C) as (P1 & P2 & P3). destruct C as (C1 & C2 & C3 & C4 & _).
  destruct (shape_at _ m n rates i k L1 L2 Hi Hk) as [x X]. destruct (shape_at _ m n _ i k C2 P2 Hi Hk) as [a XA].
  destruct (shape_at _ m n _ i k C3 P3 Hi Hk) as [b XB].
  assert (Y : exists y, match os_density s with None => y = Some 1%Qc | Some d => at_ d i k y end).
  { destruct (os_density s) as [d|]; [|eauto]. destruct (C4 d eq_refl) as [D1 D2]. eapply shape_at; eauto. }
  destruct Y as [y Y]. exists (f x a b y), x, a, b, y. auto.
Qed.
Lemma points_exist : forall m n s rates k fs, complete m n s -> shape m n rates -> length fs = m -> (k < n)%nat -> exists ps, points s rates k fs ps.
Proof.
  intros m n s rates k fs C Sh L Hk.
  assert (G : forall l off, (off + length l <= m)%nat -> exists ps, length ps = length l /\
     forall i f p, nth_error l i = Some f -> nth_error ps i = Some p -> gets s rates (off + i) k f p).
  { induction l as [|f l IH]; intros off H.
    - exists []. split; auto. intros [|i] g p E; discriminate.
    - cbn in H. destruct (IH (S off)) as (ps & L1 & P); [lia|]. destruct (gets_exists m n s rates off k f C Sh) as [p Hp]; auto; [lia|].
      exists (p :: ps). split; [cbn; lia|]. intros [|i] g q E1 E2; cbn in *.
      + rewrite Nat.add_0_r. congruence.
      + rewrite Nat.add_succ_r. apply (P i); auto. }
  destruct (G fs 0%nat) as (ps & P1 & P2); [lia|]. exists ps. split; auto.
Qed.

(** result [r] of consumer i in a setting *)
Definition matches (n : nat) (s : operational_setting) (rates : list (list num)) (i : nat) (f : point_function) (r : energy_result) : Prop :=
  length (er_energy r) = n /\ length (er_valid r) = n /\ (forall p, er_power r = Some p -> length p = n) /\
  forall k p, (k < n)%nat -> gets s rates i k f p ->
    nth_error (er_energy r) k = Some (pt_energy p) /\ nth_error (er_valid r) k = Some (pt_valid p) /\
    (forall l, er_power r = Some l -> nth_error l k = Some (pt_power p)).

Lemma dict_set_new : forall V k (v : V) d, ~ In k (map fst d) -> dict_set String.eqb k v d = d ++ [(k, v)].
Proof.
  induction d as [|[k' v'] d IH]; intros H; cbn in *; auto. destruct (String.eqb_spec k k') as [->|N]; [tauto|]. rewrite IH; auto.
Qed.

Lemma evaluate_setting_from_spec : forall m n s rates consumers fs i acc,
  complete m n s -> shape m n rates -> Forall2 pointwise consumers fs -> (i + length consumers <= m)%nat ->
  NoDup (map fst acc ++ map c_name consumers) ->
  exists l, evaluate_setting_from s rates i consumers acc = Ok (map snd acc ++ l) /\ length l = length consumers /\
    forall j f r, nth_error fs j = Some f -> nth_error l j = Some r -> matches n s rates (i + j) f r.
Proof.
  intros m n s rates consumers fs i acc C Sh F. revert i acc. induction F as [|c f consumers fs Hc F IH]; intros i acc Hi ND.
  - exists []. cbn. rewrite app_nil_r. repeat split; auto; destruct j; discriminate.
  - cbn in Hi. pose proof (complete_parts _ _ _ C) as (P1 & P2 & P3). pose proof C as (C1 & C2 & C3 & C4 & _). pose proof Sh as [S1 S2].
    destruct (nth_error rates i) as [x|] eqn:Ex; [|apply nth_error_None in Ex; lia].
    destruct (nth_error (os_suction s) i) as [a|] eqn:Ea; [|apply nth_error_None in Ea; lia].
    destruct (nth_error (os_discharge s) i) as [b|] eqn:Eb; [|apply nth_error_None in Eb; lia].
    assert (Hfd : exists fd, get_density s i = Ok fd /\ (forall l, fd = Per l -> length l = n) /\
       forall k y, (match os_density s with None => y = Some 1%Qc | Some d => at_ d i k y end) -> density_at fd k y).
    { unfold get_density. destruct (os_density s) as [d|] eqn:Ed.
      - destruct (C4 d eq_refl) as [D1 D2]. destruct (nth_error d i) as [v|] eqn:Ev; [|apply nth_error_None in Ev; lia].
        exists (Per v). unfold get. rewrite Ev. cbn. split; auto. split.
        + intros l E. injection E as <-. apply D2. eapply nth_error_In; eauto.
        + intros k y (w & W1 & W2). congruence.
      - exists One. split; auto. split; [discriminate|]. cbn. auto. }
    destruct Hfd as (fd & Ef & Lf & Df).
    destruct (Hc n x a b fd) as (r & Er & R1 & R2 & R3 & R4); auto.
    { apply S2. eapply nth_error_In; eauto. } { apply P2. eapply nth_error_In; eauto. } { apply P3. eapply nth_error_In; eauto. }
    cbn [evaluate_setting_from]. unfold get. rewrite Ex, Ea, Eb. cbn [of_option bind]. rewrite Ef. cbn [bind]. rewrite Er. cbn [bind].
    cbn [map] in ND. assert (Nk : ~ In (c_name c) (map fst acc)).
    { intros H. apply NoDup_remove_2 in ND. apply ND. apply in_or_app. now left. }
    rewrite dict_set_new by auto.
    destruct (IH (S i) (acc ++ [(c_name c, r)])) as (l & E & Ll & M); [lia| |].
    { rewrite map_app, <- app_assoc. exact ND. }
    exists (r :: l). split; [rewrite E, map_app, <- app_assoc; reflexivity|]. split; [cbn; lia|].
    intros [|j] g q Hg Hq; cbn in Hg, Hq.
    + injection Hg as <-. injection Hq as <-. rewrite Nat.add_0_r. repeat split; auto;
        destruct H0 as (x' & a' & b' & y & (v1 & V1 & V1') & (v2 & V2 & V2') & (v3 & V3 & V3') & Y & ->);
        (assert (v1 = x) by congruence); (assert (v2 = a) by congruence); (assert (v3 = b) by congruence); subst v1 v2 v3;
        destruct (R4 k x' a' b' y) as (Q1 & Q2 & Q3); auto.
    + rewrite Nat.add_succ_r. apply (M j); auto.
Qed.

(** ** The energy results by name are the results *)
Lemma energy_results_eq : forall (l acc : list (string * energy_result)), NoDup (map fst acc ++ map fst l) ->
  fold_left (fun d e => dict_set String.eqb (fst e) (snd e) d) l acc = acc ++ l.
Proof.
  induction l as [|[k v] l IH]; intros acc H; cbn [fold_left fst snd map] in *; [now rewrite app_nil_r|].
  rewrite dict_set_new. 2:{ intros X. apply NoDup_remove_2 in H. apply H, in_or_app. now left. }
  rewrite IH, <- app_assoc; auto. rewrite map_app, <- app_assoc. exact H.
Qed.

Lemma mapM_ok_all : forall A B (f : A -> result B) l, (forall a, In a l -> exists b, f a = Ok b) ->
  exists bs, mapM f l = Ok bs /\ length bs = length l /\ forall i a b, nth_error l i = Some a -> nth_error bs i = Some b -> f a = Ok b.
Proof.
  induction l as [|a l IH]; intros H.
  - exists []. repeat split; auto. intros [|i] a b E; discriminate.
  - destruct (H a) as [b Hb]; [now left|]. destruct IH as (bs & E & L & P); [intros; apply H; now right|].
    exists (b :: bs). cbn. rewrite Hb. cbn. rewrite E. cbn. split; auto. split; [now rewrite L|].
    intros [|i] x y E1 E2; cbn in *; [congruence|]. eapply P; eauto.
Qed.

Lemma Forall2_nth2 : forall A B (R : A -> B -> Prop) l m i a b, Forall2 R l m -> nth_error l i = Some a -> nth_error m i = Some b -> R a b.
Proof. intros A B R l m i a b F. revert i. induction F; intros [|i] H1 H2; cbn in *; try discriminate; [congruence|eauto]. Qed.

(** ** The system *)
Section System.
  Variables (consumers : list consumer) (fs : list point_function) (settings : list operational_setting) (n : nat).
  Hypothesis Hc : consumers <> [].
  Hypothesis Hs : settings <> [].
  Hypothesis Hf : Forall2 pointwise consumers fs.
  Hypothesis Hn : NoDup (map c_name consumers).
  Hypothesis Hcomplete : forall s, In s settings -> complete (length consumers) n s.
  Hypothesis Hrates : forall s, In s settings -> exists r, rates_after_cross_over consumers s = Ok r.

  Definition chosen (k j : nat) : Prop :=
    exists s rates ps, nth_error settings j = Some s /\ rates_after_cross_over consumers s = Ok rates /\ points s rates k fs ps /\
      (works ps \/ S j = length settings) /\
      forall i s' rates' ps', (i < j)%nat -> nth_error settings i = Some s' -> rates_after_cross_over consumers s' = Ok rates' ->
        points s' rates' k fs ps' -> ~ works ps'.

  Lemma m_pos : (0 < length consumers)%nat.
  Proof. destruct consumers; [contradiction|cbn; lia]. Qed.
  Lemma fs_length : length fs = length consumers.
  Proof. symmetry. eapply Forall2_len; eauto. Qed.

  (* validity of the results of one setting *)
  Lemma valid_of : forall s rates l, complete (length consumers) n s -> shape (length consumers) n rates ->
    length l = length consumers -> (forall j f r, nth_error fs j = Some f -> nth_error l j = Some r -> matches n s rates j f r) ->
    exists v, all_valid (map er_valid l) = Ok v /\ length v = n /\
      forall k ps, (k < n)%nat -> points s rates k fs ps -> (nth_error v k = Some true <-> works ps).
  Proof.
    intros s rates l C Sh L M. pose proof m_pos as MP. pose proof fs_length as FL.
    assert (Hm : forall r, In r l -> exists j f, nth_error fs j = Some f /\ nth_error l j = Some r /\ matches n s rates j f r).
    { intros r Hr. apply In_nth_error in Hr. destruct Hr as [j Hj].
      destruct (nth_error fs j) as [f|] eqn:E; [|apply nth_error_None in E; assert (j < length l)%nat by (apply nth_error_Some; congruence); lia].
      exists j, f. auto. }
    destruct (all_valid_spec n (map er_valid l)) as (v & Ev & Lv & V).
    { destruct l; [cbn in L; lia|discriminate]. }
    { intros w Hw. apply in_map_iff in Hw. destruct Hw as (r & <- & Hr). destruct (Hm r Hr) as (j & f & _ & _ & (_ & X & _)). auto. }
    exists v. split; auto. split; auto. intros k ps Hk [P1 P2]. rewrite V by auto. split.
    - intros H p Hp. apply In_nth_error in Hp. destruct Hp as [j Hj].
      assert (Hjl : (j < length ps)%nat) by (apply nth_error_Some; congruence).
      destruct (nth_error fs j) as [f|] eqn:E; [|apply nth_error_None in E; lia].
      destruct (nth_error l j) as [r|] eqn:El; [|apply nth_error_None in El; lia].
      destruct (M j f r E El) as (_ & _ & _ & X). destruct (X k p Hk (P2 _ _ _ E Hj)) as (_ & X2 & _).
      assert (Y : nth_error (er_valid r) k = Some true). { apply H. apply in_map. eapply nth_error_In; eauto. } congruence.
    - intros W w Hw. apply in_map_iff in Hw. destruct Hw as (r & <- & Hr). destruct (Hm r Hr) as (j & f & E & El & (_ & _ & _ & X)).
      assert (Hjl : (j < length fs)%nat) by (apply nth_error_Some; congruence).
      destruct (nth_error ps j) as [p|] eqn:Ep; [|apply nth_error_None in Ep; lia].
      destruct (X k p Hk (P2 _ _ _ E Ep)) as (_ & X2 & _). rewrite X2. f_equal. apply W. eapply nth_error_In; eauto.
  Qed.

  Lemma system_core : exists r, evaluate_system consumers settings = Ok r /\
    length (sr_setting_used r) = n /\ length (sr_cross_over r) = n /\ map fst (sr_consumers r) = map c_name consumers /\
    (forall i e, nth_error (sr_consumers r) i = Some e ->
       length (er_energy (snd e)) = n /\ length (er_valid (snd e)) = n /\ (forall p, er_power (snd e) = Some p -> length p = n)) /\
    forall k, (k < n)%nat -> exists j, nth_error (sr_setting_used r) k = Some j /\ chosen k j /\
      forall s rates ps, nth_error settings j = Some s -> rates_after_cross_over consumers s = Ok rates -> points s rates k fs ps ->
        (forall i p e, nth_error ps i = Some p -> nth_error (sr_consumers r) i = Some e ->
           nth_error (er_energy (snd e)) k = Some (pt_energy p) /\ nth_error (er_valid (snd e)) k = Some (pt_valid p) /\
           (forall l, er_power (snd e) = Some l -> nth_error l k = Some (pt_power p))) /\
        (nth_error (sr_cross_over r) k = Some true <->
           exists i x y, at_ (os_rates s) i k (Some x) /\ at_ rates i k (Some y) /\ (x < y)%Qc).
  Proof.
    pose proof m_pos as MP. pose proof fs_length as FL.
    destruct (mapM_ok_all _ _ (rates_after_cross_over consumers) settings Hrates) as (rl & E1 & L1 & P1).
    unfold evaluate_system. rewrite E1. cbn [bind]. unfold zip.
    assert (Hz : forall e, In e (combine settings rl) -> exists j, nth_error settings j = Some (fst e) /\ nth_error rl j = Some (snd e) /\
        rates_after_cross_over consumers (fst e) = Ok (snd e) /\ complete (length consumers) n (fst e) /\ shape (length consumers) n (snd e)).
    { intros [s rates] He. apply In_nth_error in He. destruct He as [j Hj]. cbn [fst snd].
      assert (J : nth_error settings j = Some s /\ nth_error rl j = Some rates).
      { clear - Hj. revert j rl Hj. induction settings as [|a l IH]; intros [|j] [|b rl] Hj; cbn in *; try discriminate; [injection Hj as <- <-; auto|eauto]. }
      destruct J as [J1 J2]. exists j. split; auto. split; auto. pose proof (P1 _ _ _ J1 J2) as R. split; auto.
      assert (C : complete (length consumers) n s) by (apply Hcomplete; eapply nth_error_In; eauto). split; auto.
      eapply rates_after_shape; eauto. }
    destruct (mapM_ok_all _ _ (fun e => evaluate_setting consumers (fst e) (snd e)) (combine settings rl)) as (results & E2 & L2 & P2).
    { intros e He. destruct (Hz e He) as (j & _ & _ & _ & C & Sh). 
      destruct (evaluate_setting_from_spec (length consumers) n (fst e) (snd e) consumers fs 0 []) as (l & El & _); auto.
      exists l. exact El. }
    rewrite E2. cbn [bind]. rewrite combine_length, L1, Nat.min_id in L2.
    assert (Hcomb : forall j s rates, nth_error settings j = Some s -> nth_error rl j = Some rates -> nth_error (combine settings rl) j = Some (s, rates)).
    { clear. induction settings as [|a l IH]; intros [|j] s rates H1 H2; cbn in *; try discriminate; destruct rl as [|b rl]; try discriminate; cbn in *; [congruence|].
      assert (Q : forall rl' j, nth_error l j = Some s -> nth_error rl' j = Some rates -> nth_error (combine l rl') j = Some (s, rates)).
      { clear. induction l as [|a l IH]; intros [|b rl'] [|j] H1 H2; cbn in *; try discriminate; [congruence|eauto]. }
      now apply Q. }
    assert (Hres : forall j s rates l, nth_error settings j = Some s -> nth_error rl j = Some rates -> nth_error results j = Some l ->
      length l = length consumers /\ forall i f r, nth_error fs i = Some f -> nth_error l i = Some r -> matches n s rates i f r).
    { intros j s rates l Hj Hr Hl. pose proof (P2 _ _ _ (Hcomb _ _ _ Hj Hr) Hl) as E. cbn [fst snd] in E.
      destruct (Hz (s, rates)) as (_ & _ & _ & _ & C & Sh). { eapply nth_error_In. apply Hcomb; eauto. } cbn [fst snd] in *.
      destruct (evaluate_setting_from_spec (length consumers) n s rates consumers fs 0 []) as (l' & El & Ll & M); auto.
      unfold evaluate_setting in E. rewrite El in E. cbn in E. injection E as <-. auto. }
    (* validity of the settings *)
    destruct (mapM_ok_all _ _ (fun r => all_valid (map er_valid r)) results) as (V & _ & LV & PV).
    { intros l Hl. apply In_nth_error in Hl. destruct Hl as [j Hj]. assert (Jl : (j < length results)%nat) by (apply nth_error_Some; congruence).
      destruct (nth_error settings j) as [s|] eqn:Es; [|apply nth_error_None in Es; lia].
      destruct (nth_error rl j) as [rates|] eqn:Er; [|apply nth_error_None in Er; lia].
      destruct (Hz (s, rates)) as (_ & _ & _ & _ & C & Sh). { eapply nth_error_In. apply Hcomb; eauto. }
      destruct (Hres j s rates l) as [Ll M]; auto. destruct (valid_of s rates l) as (v & Ev & _); eauto. }
    assert (HV : forall j s rates v, nth_error settings j = Some s -> nth_error rl j = Some rates -> nth_error V j = Some v ->
       length v = n /\ forall k ps, (k < n)%nat -> points s rates k fs ps -> (nth_error v k = Some true <-> works ps)).
    { intros j s rates v Es Er Ev. assert (Jl : (j < length V)%nat) by (apply nth_error_Some; congruence).
      destruct (nth_error results j) as [l|] eqn:El; [|apply nth_error_None in El; lia].
      destruct (Hz (s, rates)) as (_ & _ & _ & _ & C & Sh). { eapply nth_error_In. apply Hcomb; eauto. }
      destruct (Hres j s rates l) as [Ll M]; auto. destruct (valid_of s rates l) as (v' & Ev' & Lv & W); auto.
      assert (v' = v) by (pose proof (PV _ _ _ El Ev); congruence). subst. auto. }
    assert (F2 : Forall2 (fun r v => all_valid (map er_valid r) = Ok v /\ length v = n) results V).
    { assert (G : forall l m, length m = length l -> (forall j r v, nth_error l j = Some r -> nth_error m j = Some v -> all_valid (map er_valid r) = Ok v /\ length v = n) ->
         Forall2 (fun r v => all_valid (map er_valid r) = Ok v /\ length v = n) l m).
      { induction l as [|a l IH]; intros [|b m] Lm H; cbn in Lm; try lia; constructor; [apply (H 0%nat); auto|]. apply IH; [lia|]. intros j. apply (H (S j)). }
      apply G; auto. intros j r v Hr Hv. split; [eapply PV; eauto|]. assert (Jl : (j < length V)%nat) by (apply nth_error_Some; congruence).
      destruct (nth_error settings j) as [s|] eqn:Es; [|apply nth_error_None in Es; lia].
      destruct (nth_error rl j) as [rates|] eqn:Er; [|apply nth_error_None in Er; lia]. eapply HV; eauto. }
    destruct (number_used_spec n results V) as (used & Eu & Lu & U); auto.
    { destruct results; [|discriminate]. destruct settings; [contradiction|discriminate]. }
    { intros l Hl. apply In_nth_error in Hl. destruct Hl as [j Hj]. assert (Jl : (j < length results)%nat) by (apply nth_error_Some; congruence).
      destruct (nth_error settings j) as [s|] eqn:Es; [|apply nth_error_None in Es; lia].
      destruct (nth_error rl j) as [rates|] eqn:Er; [|apply nth_error_None in Er; lia].
      destruct (Hres j s rates l) as [Ll M]; auto. unfold setting_length. destruct l as [|r l]; [cbn in Ll; lia|]. cbn.
      destruct fs as [|f fs']; [cbn in FL; lia|]. destruct (M 0%nat f r) as (X & _); [reflexivity|reflexivity|]. now rewrite X. }
    rewrite Eu. cbn [bind].
    (* the values used *)
    set (dens := fun (s : operational_setting) i k y => match os_density s with None => y = Some 1%Qc | Some d => at_ d i k y end).
    assert (HU : forall i k j s rates, (i < length consumers)%nat -> (k < n)%nat -> nth_error settings j = Some s -> nth_error rl j = Some rates ->
       exists u, used_value (combine settings rl) i k j = Ok u /\ at_ rates i k (u_rate u) /\ at_ (os_suction s) i k (u_suction u) /\
         at_ (os_discharge s) i k (u_discharge u) /\ dens s i k (u_density u) /\
         exists x, at_ (os_rates s) i k x /\ u_cross u = nsub (u_rate u) x).
    { intros i k j s rates Hi Hk Es Er. 
      destruct (Hz (s, rates)) as (_ & _ & _ & _ & C & Sh). { eapply nth_error_In. apply Hcomb; eauto. } cbn [fst snd] in *.
      pose proof (complete_parts _ _ _ C) as (Q1 & Q2 & Q3). pose proof C as (C1 & C2 & C3 & C4 & _). pose proof Sh as [S1 S2].
      destruct (shape_at _ _ _ rates i k S1 S2 Hi Hk) as [x Hx]. destruct (shape_at _ _ _ _ i k C1 Q1 Hi Hk) as [x0 Hx0].
      destruct (shape_at _ _ _ _ i k C2 Q2 Hi Hk) as [a Ha]. destruct (shape_at _ _ _ _ i k C3 Q3 Hi Hk) as [b Hb].
      pose proof Hx as (vx & X1 & X2). pose proof Hx0 as (v0 & X3 & X4). pose proof Ha as (va & A1 & A2). pose proof Hb as (vb & B1 & B2).
      assert (Hy : exists fd y, get_density s i = Ok fd /\ match fd with One => Ok (Some 1%Qc) | Per l => get l k end = Ok y /\ dens s i k y).
      { unfold get_density, dens. destruct (os_density s) as [d|] eqn:Ed; [|exists One; eauto].
        destruct (C4 d eq_refl) as [D1 D2]. destruct (shape_at _ _ _ d i k D1 D2 Hi Hk) as [y Hy]. pose proof Hy as (vy & Y1 & Y2).
        exists (Per vy), y. unfold get. rewrite Y1. cbn. rewrite Y2. auto. }
      destruct Hy as (fd & y & Y1 & Y2 & Y3).
      exists (mkUsed x a b y (nsub x x0)). cbn [u_rate u_suction u_discharge u_density u_cross].
      split; [|split; auto; split; auto; split; auto; split; auto; exists x0; auto].
      unfold used_value. unfold get at 1. rewrite (Hcomb _ _ _ Es Er). cbn [of_option bind].
      unfold get at 1. rewrite X1. cbn [of_option bind]. unfold get at 1. rewrite X3. cbn [of_option bind].
      rewrite broadcast_eq. 2:{ rewrite (S2 vx), (Q1 v0); auto; eapply nth_error_In; eauto. } cbn [bind].
      unfold get at 1. rewrite nth_error_map2, X2, X4. cbn [of_option bind].
      unfold get at 1. rewrite X2. cbn [of_option bind]. unfold get at 1. rewrite A1. cbn [of_option bind].
      unfold get at 1. rewrite A2. cbn [of_option bind]. unfold get at 1. rewrite B1. cbn [of_option bind].
      unfold get at 1. rewrite B2. cbn [of_option bind]. rewrite Y1. cbn [bind]. rewrite Y2. reflexivity. }
    assert (Hused : forall k j, nth_error used k = Some j -> exists s rates, nth_error settings j = Some s /\ nth_error rl j = Some rates).
    { intros k j Hj. assert (Hk : (k < n)%nat) by (rewrite <- Lu; apply nth_error_Some; congruence).
      destruct (U k Hk) as (j' & J1 & J2 & _). assert (j' = j) by congruence. subst.
      destruct (nth_error settings j) as [s|] eqn:Es; [|apply nth_error_None in Es; lia].
      destruct (nth_error rl j) as [rates|] eqn:Er; [|apply nth_error_None in Er; lia]. eauto. }
    assert (Hsq : forall off (l : list nat) k e, nth_error (combine (seq off (length l)) l) k = Some e -> fst e = (off + k)%nat /\ nth_error l k = Some (snd e)).
    { clear. intros off l. revert off. induction l as [|a l IH]; intros off [|k] e H; cbn in H; try discriminate.
      - injection H as <-. cbn. rewrite Nat.add_0_r. auto. - destruct (IH _ _ _ H) as [I1 I2]. split; [lia|auto]. }
    destruct (mapM_ok_all _ _ (used_values_of (combine settings rl) used) (seq 0 (length consumers))) as (ul & E3 & L3 & P3).
    { intros i Hi. apply in_seq in Hi.
      destruct (mapM_ok_all _ _ (fun e => used_value (combine settings rl) i (fst e) (snd e)) (combine (seq 0 (length used)) used)) as (us & Eus & _).
      - intros e He. apply In_nth_error in He. destruct He as [k He]. apply Hsq in He. destruct He as [He1 He2]. cbn in He1. rewrite He1.
        destruct (Hused k _ He2) as (s & rates & Es & Er). assert (Hk : (k < n)%nat) by (rewrite <- Lu; apply nth_error_Some; congruence).
        destruct (HU i k (snd e) s rates) as (u & Eu' & _); auto; [lia|]. eauto.
      - exists us. exact Eus. }
    rewrite E3. cbn [bind]. rewrite seq_length in L3.
    assert (Hul : forall i us, nth_error ul i = Some us -> (i < length consumers)%nat /\ length us = n /\
      forall k j s rates u, nth_error used k = Some j -> nth_error settings j = Some s -> nth_error rl j = Some rates -> nth_error us k = Some u ->
       at_ rates i k (u_rate u) /\ at_ (os_suction s) i k (u_suction u) /\
         at_ (os_discharge s) i k (u_discharge u) /\ dens s i k (u_density u) /\
         exists x, at_ (os_rates s) i k x /\ u_cross u = nsub (u_rate u) x).
    { intros i us Hus. assert (Hi : (i < length consumers)%nat) by (rewrite <- L3; apply nth_error_Some; congruence). split; auto.
      assert (Ei : nth_error (seq 0 (length consumers)) i = Some i).
      { rewrite (nth_error_nth' _ 0%nat) by (rewrite seq_length; auto). now rewrite seq_nth by auto. }
      pose proof (P3 _ _ _ Ei Hus) as E. unfold used_values_of, zip in E.
      destruct (mapM_ok_all _ _ (fun e => used_value (combine settings rl) i (fst e) (snd e)) (combine (seq 0 (length used)) used)) as (us' & Eus & Lus & Pus).
      - intros e He. apply In_nth_error in He. destruct He as [k He]. apply Hsq in He. destruct He as [He1 He2]. cbn in He1. rewrite He1.
        destruct (Hused k _ He2) as (s & rates & Es & Er). assert (Hk : (k < n)%nat) by (rewrite <- Lu; apply nth_error_Some; congruence).
        destruct (HU i k (snd e) s rates) as (u & Eu' & _); auto. eauto.
      - assert (us' = us) by congruence. subst us'. rewrite combine_length, seq_length, Nat.min_id in Lus. split; [lia|].
        intros k j s rates u Hj Es Er Hu. assert (Hk : (k < n)%nat) by (rewrite <- Lu; apply nth_error_Some; congruence).
        assert (Ek : nth_error (combine (seq 0 (length used)) used) k = Some (k, j)).
        { destruct (nth_error (combine (seq 0 (length used)) used) k) as [e|] eqn:E'.
          - apply Hsq in E'. destruct E' as [E'1 E'2]. destruct e as [e1 e2]. cbn in *. congruence.
          - apply nth_error_None in E'. rewrite combine_length, seq_length in E'. lia. }
        pose proof (Pus _ _ _ Ek Hu) as Q. cbn [fst snd] in Q.
        destruct (HU i k j s rates) as (u' & Eu' & R); auto. assert (u' = u) by congruence. now subst. }
    (* the final results *)
    assert (Hcomb2 : forall i e, nth_error (combine consumers ul) i = Some e -> nth_error consumers i = Some (fst e) /\ nth_error ul i = Some (snd e)).
    { clear. intros i. revert i ul. induction consumers as [|a l IH]; intros [|i] [|b ul] e H; cbn in *; try discriminate; [injection H as <-; auto|auto]. }
    assert (Hfin : forall i e f, nth_error (combine consumers ul) i = Some e -> nth_error fs i = Some f -> exists r,
      c_evaluate (fst e) (map u_rate (snd e)) (map u_suction (snd e)) (map u_discharge (snd e)) (Per (map u_density (snd e))) = Ok r /\
      length (er_energy r) = n /\ length (er_valid r) = n /\ (forall p, er_power r = Some p -> length p = n) /\
      forall k j s rates p, nth_error used k = Some j -> nth_error settings j = Some s -> nth_error rl j = Some rates -> gets s rates i k f p ->
        nth_error (er_energy r) k = Some (pt_energy p) /\ nth_error (er_valid r) k = Some (pt_valid p) /\
        (forall l, er_power r = Some l -> nth_error l k = Some (pt_power p))).
    { intros i e f He Ef. destruct (Hcomb2 i e He) as [Ec Eul]. destruct (Hul i _ Eul) as (Hi & Lus & Q).
      assert (PW : pointwise (fst e) f).
      { eapply Forall2_nth2; eauto. }
      destruct (PW n (map u_rate (snd e)) (map u_suction (snd e)) (map u_discharge (snd e)) (Per (map u_density (snd e)))) as (r & Er & R1 & R2 & R3 & R4);
        rewrite ?map_length; auto. { intros l El. injection El as <-. now rewrite map_length. }
      exists r. split; auto. split; auto. split; auto. split; auto.
      intros k j s rates p Hj Es Erl G. assert (Hk : (k < n)%nat) by (rewrite <- Lu; apply nth_error_Some; congruence).
      destruct (nth_error (snd e) k) as [u|] eqn:Eku; [|apply nth_error_None in Eku; lia].
      destruct (Q k j s rates u) as (U1 & U2 & U3 & U4 & _); auto.
      assert (Gu : gets s rates i k f (f (u_rate u) (u_suction u) (u_discharge u) (u_density u))) by (exists (u_rate u), (u_suction u), (u_discharge u), (u_density u); auto).
      rewrite (gets_fun _ _ _ _ _ _ _ G Gu).
      apply (R4 k); rewrite ?nth_error_map, ?Eku; auto. cbn. now rewrite nth_error_map, Eku. }
    destruct (mapM_ok_all _ _ (fun e => do r <- c_evaluate (fst e) (map u_rate (snd e)) (map u_suction (snd e)) (map u_discharge (snd e)) (Per (map u_density (snd e)));
                             Ok (c_name (fst e), r)) (combine consumers ul)) as (final & E4 & L4 & P4).
    { intros e He. apply In_nth_error in He. destruct He as [i He]. 
      assert (Hi : (i < length fs)%nat). { rewrite FL. apply nth_error_Some. destruct (Hcomb2 i e He) as [Ec _]. congruence. }
      destruct (nth_error fs i) as [f|] eqn:Ef; [|apply nth_error_None in Ef; lia].
      destruct (Hfin i e f He Ef) as (r & Er & _). rewrite Er. cbn. eauto. }
    rewrite E4. cbn [bind]. rewrite combine_length, L3, Nat.min_id in L4.
    assert (Hfinal : forall i e f, nth_error final i = Some e -> nth_error fs i = Some f -> exists e0, nth_error (combine consumers ul) i = Some e0 /\ fst e = c_name (fst e0) /\
      length (er_energy (snd e)) = n /\ length (er_valid (snd e)) = n /\ (forall p, er_power (snd e) = Some p -> length p = n) /\
      forall k j s rates p, nth_error used k = Some j -> nth_error settings j = Some s -> nth_error rl j = Some rates -> gets s rates i k f p ->
        nth_error (er_energy (snd e)) k = Some (pt_energy p) /\ nth_error (er_valid (snd e)) k = Some (pt_valid p) /\
        (forall l, er_power (snd e) = Some l -> nth_error l k = Some (pt_power p))).
    { intros i e f He Ef. assert (Hi : (i < length consumers)%nat) by (rewrite <- L4; apply nth_error_Some; congruence).
      destruct (nth_error (combine consumers ul) i) as [e0|] eqn:E0; [|apply nth_error_None in E0; rewrite combine_length in E0; lia].
      exists e0. split; auto. destruct (Hfin i e0 f E0 Ef) as (r & Er & R). pose proof (P4 _ _ _ E0 He) as X. cbn in X. rewrite Er in X. cbn in X.
      injection X as <-. cbn [fst snd]. auto. }
    eexists. split; [reflexivity|]. cbn [sr_setting_used sr_consumers sr_cross_over]. split; auto.
    split. { unfold cross_over_used. rewrite map_length, seq_length. auto. }
    split.
    { apply list_ext_nth. intros i. rewrite !nth_error_map. destruct (nth_error final i) as [e|] eqn:Ee; cbn.
      - assert (Hi : (i < length fs)%nat) by (rewrite FL, <- L4; apply nth_error_Some; congruence).
        destruct (nth_error fs i) as [f|] eqn:Ef; [|apply nth_error_None in Ef; lia].
        destruct (Hfinal i e f Ee Ef) as (e0 & E0 & N & _). destruct (Hcomb2 _ _ E0) as [Ec _]. rewrite Ec, N. reflexivity.
      - apply nth_error_None in Ee. rewrite (proj2 (nth_error_None consumers i)) by lia. reflexivity. }
    split.
    { intros i e Ee. assert (Hi : (i < length fs)%nat) by (rewrite FL, <- L4; apply nth_error_Some; congruence).
      destruct (nth_error fs i) as [f|] eqn:Ef; [|apply nth_error_None in Ef; lia].
      destruct (Hfinal i e f Ee Ef) as (e0 & _ & _ & A & B & D & _). auto. }
    intros k Hk. destruct (U k Hk) as (j & J1 & J2 & J3 & J4). exists j. split; auto.
    assert (Hrl : forall i s r, nth_error settings i = Some s -> rates_after_cross_over consumers s = Ok r -> nth_error rl i = Some r).
    { intros i s r Es Er. assert (Hi : (i < length settings)%nat) by (apply nth_error_Some; congruence).
      destruct (nth_error rl i) as [r'|] eqn:E; [|apply nth_error_None in E; lia]. pose proof (P1 _ _ _ Es E). congruence. }
    rewrite L2 in J2. destruct (Hused k j J1) as (s & rates & Es & Er).
    destruct (Hz (s, rates)) as (_ & _ & _ & Rs & C & Sh). { eapply nth_error_In. apply Hcomb; eauto. } cbn [fst snd] in *.
    split.
    - destruct (points_exist (length consumers) n s rates k fs C Sh FL Hk) as [ps Ps].
      exists s, rates, ps. split; auto. split; auto. split; auto. split.
      + destruct J3 as [(v & Jv & Jt)|J3]; [left|right; congruence]. destruct (HV j s rates v) as [_ W]; auto. apply (W k ps); auto.
      + intros i s' rates' ps' Hi Es' Er' Ps' W. pose proof (Hrl _ _ _ Es' Er') as El.
        assert (Hlt : (i < length V)%nat) by lia. destruct (nth_error V i) as [v|] eqn:Ev; [|apply nth_error_None in Ev; lia].
        pose proof (J4 i v Hi Ev) as Fv. destruct (HV i s' rates' v) as [_ W']; auto. apply (W' k ps' Hk Ps') in W. congruence.
    - intros s' rates' ps Es' Er' [Q1 Q2]. assert (s' = s) by congruence. subst s'. assert (rates' = rates) by congruence. subst rates'. split.
      + intros i p e Ep Ee. assert (Hi : (i < length fs)%nat) by (rewrite FL, <- L4; apply nth_error_Some; congruence).
        destruct (nth_error fs i) as [f|] eqn:Ef; [|apply nth_error_None in Ef; lia].
        destruct (Hfinal i e f Ee Ef) as (e0 & _ & _ & _ & _ & _ & R). apply (R k j s rates); auto.
      + unfold cross_over_used. rewrite nth_error_map, (nth_error_nth' _ 0%nat), seq_nth by (rewrite ?seq_length; lia). cbn [option_map Nat.add].
        assert (Huk : forall us, In us ul -> exists i u x, nth_error us k = Some u /\ (i < length consumers)%nat /\ at_ rates i k (u_rate u) /\ at_ (os_rates s) i k x /\ u_cross u = nsub (u_rate u) x).
        { intros us Hus. apply In_nth_error in Hus. destruct Hus as [i Hus]. destruct (Hul i us Hus) as (Hi & Lus & Q).
          destruct (nth_error us k) as [u|] eqn:Eku; [|apply nth_error_None in Eku; lia].
          destruct (Q k j s rates u) as (U1 & _ & _ & _ & x & X1 & X2); auto. exists i, u, x. auto. }
        split.
        * intros H. injection H as H. apply existsb_exists in H. destruct H as (us & Hus & H). destruct (Huk us Hus) as (i & u & x & Eu' & Hi & A1 & A2 & A3).
          rewrite Eu', A3 in H. destruct (u_rate u) as [y|] eqn:Ey; [|discriminate]. destruct x as [x|]; [|discriminate]. cbn in H.
          exists i, x, y. split; auto. split; auto. rewrite Qcltb_lt in H. qc_lra.
        * intros (i & x & y & A1 & A2 & Hlt). f_equal. apply existsb_exists.
          assert (Hi : (i < length ul)%nat). { rewrite L3. destruct A2 as (v & V1 & _). destruct Sh as [S1 _]. rewrite <- S1. apply nth_error_Some. congruence. }
          destruct (nth_error ul i) as [us|] eqn:Eus; [|apply nth_error_None in Eus; lia]. exists us. split; [eapply nth_error_In; eauto|].
          destruct (Hul i us Eus) as (_ & Lus & Q). destruct (nth_error us k) as [u|] eqn:Eku; [|apply nth_error_None in Eku; lia].
          destruct (Q k j s rates u) as (U1 & _ & _ & _ & x' & X1 & X2); auto. rewrite X2.
          rewrite (at_fun _ _ _ _ _ _ U1 A2), (at_fun _ _ _ _ _ _ X1 A1). cbn. apply Qcltb_lt. qc_lra.
  Qed.
End System.

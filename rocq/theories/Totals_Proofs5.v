(** Validity and the list of components. *)
From Coq Require Import PeanoNat String Permutation.
From Verif Require Import QcTac BaseLemmas Num Time_Model Units_Model Rates_Model Rates_Proofs3 Graph_Model Graph_Spec Graph_Proofs Graph_Proofs2 Graph_Proofs3 Totals_Model Totals_Spec Totals_Proofs2 Base.
Local Open Scope list_scope.

(** ** trees *)
Lemma parent_unique : forall regs c p q, hierarchy regs -> In (c, p) regs -> In (c, q) regs -> p = q.
Proof.
  intros regs c p q [N _] H H'. pose proof (dict_get_NoDup _ _ node_eqb c p regs) as A. pose proof (dict_get_NoDup _ _ node_eqb c q regs) as B.
  rewrite A in B by (auto using node_eqb_spec). specialize (B node_eqb_spec N H'). congruence.
Qed.
Lemma above_trans : forall regs a b c, above regs a b -> above regs b c -> above regs a c.
Proof. intros regs a b c H H'. revert a H. induction H' as [p c H|a' p c H IH I]; intros b Hb; [exact (above_step _ _ _ _ Hb H)|exact (above_step _ _ _ _ (IH _ Hb) I)]. Qed.
Lemma above_last : forall regs a d, above regs a d -> exists p, In (d, Some p) regs /\ (a = p \/ above regs a p).
Proof. intros regs a d H. inversion H; subst; eauto. Qed.
Lemma above_in : forall regs a d, hierarchy regs -> above regs a d -> In a (map fst regs) /\ In d (map fst regs).
Proof.
  intros regs a d [N P] H. induction H as [p c H|a p c H [IH1 IH2] I].
  - split; [eauto|]. change c with (fst (c, Some p)). now apply in_map.
  - split; auto. change c with (fst (c, Some p)). now apply in_map.
Qed.
Lemma not_above_self : forall regs r, one_asset regs r -> forall d, ~ above regs d d.
Proof.
  intros regs r (Hh & Hr & Ht) d H. assert (forall a, ~ above regs a r) as Nr.
  { intros a A. destruct (above_last _ _ _ A) as (p & I & _). pose proof (parent_unique _ _ _ _ Hh Hr I). discriminate. }
  destruct (above_in _ _ _ Hh H) as [I _]. destruct (Ht d I) as [->|A]; [now apply (Nr r)|].
  induction A as [p c Hc|a p c A IH Hc].
  - destruct (above_last _ _ _ H) as (q & Q & X). pose proof (parent_unique _ _ _ _ Hh Hc Q) as [= <-]. destruct X as [->|X]; [now apply (Nr p)|now apply (Nr c)].
  - destruct (above_last _ _ _ H) as (q & Q & X). pose proof (parent_unique _ _ _ _ Hh Hc Q) as [= <-].
    assert (above regs p p) as Pp by (destruct X as [->|X]; [exact H|]; apply (above_trans _ _ c); [now constructor|exact X]).
    apply IH; auto. now apply (above_in _ _ _ Hh Pp).
Qed.
Lemma chain : forall regs a b d, hierarchy regs -> (a = d \/ above regs a d) -> (b = d \/ above regs b d) -> (a = b \/ above regs a b) \/ above regs b a.
Proof.
  intros regs a b d Hh [->|A] [->|B]; auto. revert b B. induction A as [p c H|a p c A IH H]; intros b B.
  - destruct (above_last _ _ _ B) as (q & Q & X). pose proof (parent_unique _ _ _ _ Hh H Q) as [= <-]. destruct X as [->|X]; auto.
  - destruct (above_last _ _ _ B) as (q & Q & X). pose proof (parent_unique _ _ _ _ Hh H Q) as [= <-]. destruct X as [->|X]; auto.
Qed.
Lemma children_in : forall regs v c, In c (children_of regs v) <-> In (c, Some v) regs.
Proof.
  intros regs v c. unfold children_of. rewrite in_map_iff. split.
  - intros ([x o] & <- & H). apply filter_In in H as [H E]. cbn in *. destruct o as [p|]; [|discriminate]. apply node_eqb_spec in E. now subst.
  - intros H. exists (c, Some v). split; auto. apply filter_In. split; auto. cbn. now apply node_eqb_spec.
Qed.
Lemma children_nodup : forall regs v, hierarchy regs -> NoDup (children_of regs v).
Proof.
  intros regs v [N _]. unfold children_of. induction regs as [|r regs IH]; cbn; [constructor|]. cbn in N. inversion N; subst.
  destruct (match snd r with Some p => node_eqb p v | None => false end); auto. cbn. constructor; auto.
  intros X. apply H1. apply in_map_iff in X as (y & E & Y). apply filter_In in Y as [Y _]. rewrite <- E. now apply in_map.
Qed.

(** the number of containers below *)
Section Asset.
Variables (regs : list registration) (r : node_id) (g : graph).
Hypothesis tree : one_asset regs r.
Hypothesis built : build regs = Ok g.
Let hier : hierarchy regs. Proof. apply tree. Qed.
Lemma g_children : forall v, In v (map fst regs) -> get_children g v = Ok (children_of regs v).
Proof. intros v V. destruct (hierarchy_proof regs hier) as (g' & E & _ & _ & C & _). rewrite built in E. injection E as <-. auto. Qed.
Lemma g_all : forall v, In v (map fst regs) -> exists l, get_all_children g v = Ok l /\ NoDup l /\ forall d, In d l <-> above regs v d.
Proof.
  intros v V. destruct (hierarchy_proof regs hier) as (g' & E & _ & _ & _ & A & _). rewrite built in E. injection E as <-. destruct (A v V) as (l & El & N & I).
  exists l. split; auto. split; auto. intros d. rewrite I. split; [tauto|]. intros H. split; auto. intros ->. now apply (not_above_self regs r tree v).
Qed.
Lemma below_less : forall v d lv ld, get_all_children g v = Ok lv -> get_all_children g d = Ok ld -> In v (map fst regs) -> above regs v d -> (length ld < length lv)%nat.
Proof.
  intros v d lv ld Ev Ed V A. destruct (above_in _ _ _ hier A) as [_ D]. destruct (g_all v V) as (l & E & N & I). rewrite Ev in E. injection E as <-.
  destruct (g_all d D) as (l' & E' & N' & I'). rewrite Ed in E'. injection E' as <-.
  assert (NoDup (d :: ld)) as Nd by (constructor; auto; rewrite I'; apply (not_above_self regs r tree)).
  assert (incl (d :: ld) lv) as X.
  { intros x [<-|X]; apply I; auto. apply I' in X. now apply (above_trans _ _ d). }
  pose proof (NoDup_incl_length Nd X) as L. cbn in L. lia.
Qed.
Lemma below_bound : forall v l, In v (map fst regs) -> get_all_children g v = Ok l -> (length l < length regs)%nat.
Proof.
  intros v l V E. destruct (g_all v V) as (l' & E' & N & I). rewrite E in E'. injection E' as <-.
  assert (NoDup (v :: l)) as Nv by (constructor; auto; rewrite I; apply (not_above_self regs r tree)).
  assert (incl (v :: l) (map fst regs)) as X by (intros x [<-|X]; auto; apply I in X; now apply (above_in _ _ _ hier X)).
  pose proof (NoDup_incl_length Nv X) as L. rewrite map_length in L. exact L.
Qed.

(** ** validity *)
Section Validity.
Variables (aggregates : node_id -> bool) (own : node_id -> option (series bool)) (ps : list period).
Hypothesis own_ok : forall d s, own d = Some s -> s_periods s = ps /\ length (s_values s) = length ps.
Hypothesis has_children : forall d, aggregates d = true -> exists e, above regs d e.
Definition on_ps (s : series bool) : Prop := s_periods s = ps /\ length (s_values s) = length ps.
Definition true_at (s : series bool) (k : nat) : Prop := nth_error (s_values s) k = Some true.
Lemma bool_mul_ok : forall a b, on_ps a -> on_ps b -> exists c, bool_mul a b = Ok c /\ on_ps c /\ forall k, true_at c k <-> true_at a k /\ true_at b k.
Proof.
  intros a b [Pa La] [Pb Lb]. unfold bool_mul, make_series. rewrite map2_length_eq by congruence. rewrite Pa, La, Nat.eqb_refl. eexists. split; [reflexivity|]. split.
  - split; [reflexivity|]. cbn. rewrite map2_length_eq by congruence. exact La.
  - intros k. unfold true_at. cbn [s_values]. rewrite nth_error_map2. destruct (nth_error (s_values a) k) as [[|]|], (nth_error (s_values b) k) as [[|]|]; cbn; intuition congruence.
Qed.
Lemma fold_mul_ok : forall l a, on_ps a -> Forall on_ps l -> exists c, fold_left (fun acc b => do x <- acc; bool_mul x b) l (Ok a) = Ok c /\ on_ps c /\
  forall k, true_at c k <-> true_at a k /\ Forall (fun s => true_at s k) l.
Proof.
  induction l as [|b l IH]; intros a Pa F.
  - exists a. cbn. repeat split; try tauto; try apply Pa. constructor.
  - inversion F; subst. destruct (bool_mul_ok a b) as (c & E & Pc & T); auto. cbn [fold_left bind]. rewrite E. destruct (IH c) as (e & Ee & Pe & Te); auto. exists e. split; auto. split; auto.
    intros k. rewrite Te, T. split; [intros [[X Y] Z]; auto|]. intros [X Y]. inversion Y; subst. auto.
Qed.
Definition right_validity (c : node_id) (s : series bool) : Prop := on_ps s /\ forall k, (k < length ps)%nat ->
  (true_at s k <-> if aggregates c then valid_below regs aggregates own c k else match own c with Some o => true_at o k | None => True end).
Lemma mapM_all : forall (A B : Type) (f : A -> result B) (Q : A -> B -> Prop) l, (forall x, In x l -> exists y, f x = Ok y /\ Q x y) -> exists m, mapM f l = Ok m /\ Forall2 Q l m.
Proof.
  induction l as [|x l IH]; intros H; [exists []; split; [reflexivity|constructor]|]. destruct (H x (or_introl eq_refl)) as (y & E & Qy). destruct IH as (m & Em & F); [intros; apply H; now right|].
  exists (y :: m). cbn [mapM]. rewrite E. cbn [bind]. rewrite Em. cbn [bind]. split; [reflexivity|]. now constructor.
Qed.
Lemma validity_at : forall m c l, In c (map fst regs) -> get_all_children g c = Ok l -> (length l < m)%nat -> exists s, get_validity g aggregates own ps m c = Ok s /\ right_validity c s.
Proof.
  induction m as [|m IH]; intros c l C El L; [lia|]. cbn [get_validity]. destruct (aggregates c) eqn:Ag.
  - rewrite El. cbn [bind]. destruct (g_all c C) as (l' & E' & N & I). rewrite El in E'. injection E' as <-.
    destruct (mapM_all _ _ (get_validity g aggregates own ps m) right_validity l) as (vs & Ev & F).
    { intros d D. apply I in D. destruct (above_in _ _ _ hier D) as [_ Dr]. destruct (g_all d Dr) as (ld & Ed & _). apply (IH d ld); auto. pose proof (below_less c d l ld El Ed C D). lia. }
    rewrite Ev. cbn [bind]. destruct (has_children c Ag) as (e & He). apply I in He. destruct vs as [|a vs]; [inversion F; subst; destruct He|].
    assert (Forall on_ps (a :: vs)) as Fo by (clear -F; induction F; constructor; auto; now destruct H).
    inversion Fo; subst. destruct (fold_mul_ok vs a) as (s & Es & Ps & Ts); auto. exists s. split; auto. split; auto. intros k K. rewrite Ts, Ag.
    assert (true_at a k /\ Forall (fun s => true_at s k) vs <-> Forall (fun s => true_at s k) (a :: vs)) as -> by (split; [intros []; now constructor|intros X; inversion X; auto]).
    assert (Forall (fun s => true_at s k) (a :: vs) <-> forall d, In d l -> if aggregates d then valid_below regs aggregates own d k else match own d with Some o => true_at o k | None => True end) as ->.
    { clear -F K. induction F as [|d s l' m' R F IH]; [split; [intros _ d []|constructor]|]. split.
      - intros X d' [<-|D]; inversion X; subst; [now apply R|]. now apply IH.
      - intros X. constructor; [apply R; auto; apply X; now left|]. apply IH. intros; apply X; now right. }
    unfold valid_below. split.
    + intros X d o D Nd Od. specialize (X d (proj2 (I d) D)). rewrite Nd, Od in X. exact X.
    + intros X d D. apply I in D. destruct (aggregates d) eqn:Ad.
      * intros x o Dx Nx Ox. apply (X x o); auto. now apply (above_trans _ _ d).
      * destruct (own d) as [o|] eqn:Od; auto. exact (X d o D Ad Od).
  - destruct (own c) as [s|] eqn:O.
    + exists s. split; auto. split; [now apply own_ok in O|]. intros k K. rewrite Ag, O. tauto.
    + unfold make_series. rewrite map_length, Nat.eqb_refl. eexists. split; [reflexivity|]. split; [split; [reflexivity|cbn; now rewrite map_length]|]. intros k K. rewrite Ag, O.
      unfold true_at. cbn [s_values]. rewrite nth_error_map. destruct (nth_error_lt _ ps k K) as (p & ->). cbn. tauto.
Qed.
End Validity.
End Asset.

Theorem validity_proof : forall regs asset g aggregates own ps c n, one_asset regs asset -> build regs = Ok g ->
  (forall d s, own d = Some s -> s_periods s = ps /\ length (s_values s) = length ps) ->
  (forall d, aggregates d = true -> exists e, above regs d e) -> In c (map fst regs) -> (length regs <= n)%nat ->
  exists s, get_validity g aggregates own ps n c = Ok s /\ s_periods s = ps /\ length (s_values s) = length ps /\
    forall k, (k < length ps)%nat -> (nth_error (s_values s) k = Some true <->
      if aggregates c then valid_below regs aggregates own c k
      else match own c with Some o => nth_error (s_values o) k = Some true | None => True end).
Proof.
  intros regs asset g aggregates own ps c n T B O H C L. destruct (g_all regs asset g T B c C) as (l & E & _). pose proof (below_bound regs asset g T B c l C E).
  destruct (validity_at regs asset g T B aggregates own ps O H n c l) as (s & Es & [P1 P2] & R); auto; [lia|]. exists s. auto.
Qed.

(** The list of components, and emission intensity. *)
From Coq Require Import PeanoNat String Permutation.
From Verif Require Import QcTac BaseLemmas Num Time_Model Units_Model Rates_Model Rates_Proofs3 Graph_Model Graph_Spec Graph_Proofs Graph_Proofs2 Graph_Proofs3 Totals_Model Totals_Spec
  Totals_Proofs2 Totals_Proofs5 Base.
Local Open Scope list_scope.

Lemma before_app : forall l m a b, listed_before l a b -> listed_before (l ++ m) a b.
Proof. intros l m a b (l1 & l2 & -> & I). exists l1, (l2 ++ m). rewrite <- app_assoc. split; [reflexivity|]. apply in_or_app. auto. Qed.
Lemma before_pre : forall l m a b, listed_before m a b -> listed_before (l ++ m) a b.
Proof. intros l m a b (l1 & l2 & -> & I). exists (l ++ l1), l2. rewrite <- app_assoc. auto. Qed.
Lemma before_cons : forall l a b, In b l -> listed_before (a :: l) a b.
Proof. intros l a b I. exists [], l. auto. Qed.
Lemma before_concat : forall ls l a b, In l ls -> listed_before l a b -> listed_before (concat ls) a b.
Proof. induction ls as [|x ls IH]; intros l a b I B; [destruct I|]. cbn. destruct I as [->|I]; [now apply before_app|]. apply before_pre. eauto. Qed.
Lemma nodup_app : forall (A : Type) (l m : list A), NoDup l -> NoDup m -> (forall x, In x l -> ~ In x m) -> NoDup (l ++ m).
Proof.
  induction l as [|x l IH]; intros m N N' D; auto. cbn. inversion N; subst. constructor.
  - intros I. apply in_app_or in I as [I|I]; [auto|]. apply (D x); [now left|exact I].
  - apply IH; auto. intros y Y. apply D. now right.
Qed.
Lemma nodup_concat : forall (A B : Type) (f : A -> list B) cs, NoDup cs -> (forall c, In c cs -> NoDup (f c)) ->
  (forall c d x, In c cs -> In d cs -> In x (f c) -> In x (f d) -> c = d) -> NoDup (concat (map f cs)).
Proof.
  intros A B f. induction cs as [|c cs IH]; intros N Nl D; [constructor|]. cbn. inversion N; subst. apply nodup_app.
  - apply Nl. now left.
  - apply IH; auto; intros; [apply Nl; now right|]. apply (D c0 d x); auto; now right.
  - intros x X I. apply in_concat in I as (m & M & I). apply in_map_iff in M as (d & <- & M). assert (c = d) by (apply (D c d x); auto; [now left|now right]). subst. contradiction.
Qed.
Lemma in_subs : forall (A : Type) (f : A -> list node_id) cs d, In d (concat (map f cs)) <-> exists x, In x cs /\ In d (f x).
Proof.
  intros A f cs d. rewrite in_concat. split.
  - intros (l & L & D). apply in_map_iff in L as (x & <- & X). eauto.
  - intros (x & X & D). exists (f x). split; auto. now apply in_map.
Qed.

Section Asset.
Variables (regs : list registration) (r : node_id) (g : graph) (generator : node_id -> bool).
Hypothesis tree : one_asset regs r.
Hypothesis built : build regs = Ok g.
Let hier : hierarchy regs. Proof. apply tree. Qed.
(** the container first, only what lies below it, each once, generator sets before what they feed *)
Definition listing (c : node_id) (l : list node_id) : Prop :=
  NoDup l /\ (exists rest, l = c :: rest) /\ (forall d, In d l -> d = c \/ above regs c d) /\
  (forall p d, In p l -> generator p = true -> In (d, Some p) regs -> In d l) /\
  (forall p d, In p l -> In d l -> In (d, Some p) regs -> listed_before l p d).
Lemma siblings : forall p c d x, In (c, Some p) regs -> In (d, Some p) regs -> (x = c \/ above regs c x) -> (x = d \/ above regs d x) -> c = d.
Proof.
  intros p c d x C D Xc Xd. assert (c = x \/ above regs c x) as Xc' by (destruct Xc; auto). assert (d = x \/ above regs d x) as Xd' by (destruct Xd; auto).
  destruct (chain regs c d x hier Xc' Xd') as [[->|A]|A]; auto; exfalso.
  - destruct (above_last _ _ _ A) as (q & Q & X). pose proof (parent_unique _ _ _ _ hier D Q) as [= <-]. apply (not_above_self regs r tree p).
    destruct X as [->|X]; [now constructor|]. apply (above_trans _ _ c); auto. now constructor.
  - destruct (above_last _ _ _ A) as (q & Q & X). pose proof (parent_unique _ _ _ _ hier C Q) as [= <-]. apply (not_above_self regs r tree p).
    destruct X as [->|X]; [now constructor|]. apply (above_trans _ _ d); auto. now constructor.
Qed.
(** the listings of all children of [c], one after another *)
Lemma listings : forall c cs sub, (forall x, In x cs -> listing x (sub x)) -> NoDup cs -> (forall x, In x cs <-> In (x, Some c) regs) ->
  let l := concat (map sub cs) in
  (forall p d, p = c \/ In p l -> (p = c \/ generator p = true) -> In (d, Some p) regs -> In d l) /\
  NoDup (c :: l) /\ (forall d, In d l -> above regs c d) /\
  (forall p d, p = c \/ In p l -> In d l -> In (d, Some p) regs -> listed_before (c :: l) p d).
Proof.
  intros c cs sub F Nc Ic l. assert (forall d, In d l -> above regs c d) as Ab.
  { intros d D. apply in_subs in D as (x & X & D). destruct (F x X) as (_ & _ & B & _). apply Ic in X.
    destruct (B d D) as [->|B']; [now constructor|]. apply (above_trans _ _ x); auto. now constructor. }
  split; [|split; [|split]].
  - intros p d P G I. destruct P as [->|P].
    + apply Ic in I. destruct (F d I) as (_ & (rest & E) & _). apply in_subs. exists d. split; auto. rewrite E. now left.
    + destruct G as [->|G]; [exfalso; apply (not_above_self regs r tree c); auto|]. apply in_subs in P as (x & X & P). destruct (F x X) as (_ & _ & _ & K & _).
      apply in_subs. exists x. split; auto. now apply (K p d).
  - constructor.
    + intros I. apply (not_above_self regs r tree c); auto.
    + apply nodup_concat; auto; [intros x X; now apply F|]. intros x y z X Y Zx Zy. apply (siblings c x y z); try now apply Ic.
      * now apply F.
      * now apply F.
  - exact Ab.
  - intros p d P D I. destruct P as [->|P].
    + now apply before_cons.
    + change (c :: l) with ([c] ++ l). apply before_pre. apply in_subs in P as (x & X & P). apply in_subs in D as (y & Y & D).
      destruct (F x X) as (_ & _ & Bx & _ & Ox). destruct (F y Y) as (_ & _ & By & _).
      assert (x = y) as <-.
      { apply (siblings c x y d); [now apply Ic|now apply Ic| |now apply By]. right. destruct (Bx p P) as [->|B']; [now constructor|]. now apply (above_step _ _ p). }
      apply (before_concat _ (sub x)); [now apply in_map|]. now apply Ox.
Qed.
Lemma mapM_value : forall (B : Type) (f : node_id -> result (list B)) (P : node_id -> list B -> Prop) l, (forall x, In x l -> exists y, f x = Ok y /\ P x y) ->
  exists sub, mapM f l = Ok (map sub l) /\ forall x, In x l -> f x = Ok (sub x) /\ P x (sub x).
Proof.
  intros B f P l H. exists (fun x => match f x with Ok y => y | Err _ => [] end). split.
  - apply mapM_ok. intros x X. destruct (H x X) as (y & -> & _). reflexivity.
  - intros x X. destruct (H x X) as (y & -> & Py). auto.
Qed.
Lemma map_container_ok : forall n c l, In c (map fst regs) -> get_all_children g c = Ok l -> (length l < n)%nat -> exists m, map_container g generator n c = Ok m /\ listing c m.
Proof.
  induction n as [|n IH]; intros c l C El L; [lia|]. cbn [map_container]. destruct (generator c) eqn:G.
  - rewrite (g_children regs r g tree built c C). cbn [bind].
    destruct (mapM_value _ (map_container g generator n) listing (children_of regs c)) as (sub & Es & Fs).
    { intros d D. apply children_in in D. assert (above regs c d) as A by now constructor. destruct (above_in _ _ _ hier A) as [_ Dr].
      destruct (g_all regs r g tree built d Dr) as (ld & Ed & _). apply (IH d ld); auto. pose proof (below_less regs r g tree built c d l ld El Ed C A). lia. }
    rewrite Es. cbn [bind]. eexists. split; [reflexivity|].
    destruct (listings c (children_of regs c) sub) as (K & N & A & O); [intros x X; now apply Fs|now apply children_nodup|intros x; apply children_in|].
    split; [exact N|]. split; [eauto|]. split; [|split].
    + intros d [<-|D]; auto.
    + intros p d P Gp I. right. apply (K p d); auto. destruct P; auto.
    + intros p d P D I. destruct D as [<-|D].
      * exfalso. apply (not_above_self regs r tree c). destruct P as [<-|P]; [now constructor|]. apply (above_step _ _ p); auto.
      * apply O; auto. destruct P; auto.
  - eexists. split; [reflexivity|]. split; [constructor; [intros []|constructor]|]. split; [eauto|]. split; [intros d [<-|[]]; auto|]. split.
    + intros p d [<-|[]] Gp. congruence.
    + intros p d [<-|[]] [<-|[]] I. exfalso. apply (not_above_self regs r tree c). now constructor.
Qed.
End Asset.

Theorem components_proof : forall regs asset g generator n, one_asset regs asset -> build regs = Ok g -> three_levels regs asset generator -> (length regs <= n)%nat ->
  exists l, asset_components g generator n (children_of regs asset) = Ok l /\
    NoDup l /\ (forall c, In c l <-> In c (map fst regs) /\ c <> asset) /\
    (forall c p, In (c, Some p) regs -> p <> asset -> listed_before l p c).
Proof.
  intros regs asset g generator n T B L Hn. pose proof T as (Hh & Hr & Ht).
  set (everything := fun _ : node_id => true).
  (** the listing of an installation, all of whose children are mapped *)
  assert (forall i, In i (children_of regs asset) -> exists m, (do containers <- get_children g i; do subs <- mapM (map_container g generator n) containers; Ok (i :: concat subs)) = Ok m /\
    (listing regs generator i m /\ forall d, In (d, Some i) regs -> In d m)) as Inst.
  { intros i I. apply children_in in I. assert (In i (map fst regs)) as Ir by (change i with (fst (i, Some asset)); now apply in_map).
    rewrite (g_children regs asset g T B i Ir). cbn [bind].
    destruct (mapM_value _ (map_container g generator n) (listing regs generator) (children_of regs i)) as (sub & Es & Fs).
    { intros d D. apply children_in in D. assert (In d (map fst regs)) as Dr by (change d with (fst (d, Some i)); now apply in_map).
      destruct (g_all regs asset g T B d Dr) as (ld & Ed & _). apply (map_container_ok regs asset g generator T B n d ld); auto. pose proof (below_bound regs asset g T B d ld Dr Ed). lia. }
    rewrite Es. cbn [bind]. eexists. split; [reflexivity|].
    destruct (listings regs asset generator T i (children_of regs i) sub) as (K & N & A & O); [intros x X; now apply Fs|now apply children_nodup|intros x; apply children_in|].
    split; [|intros d D; right; apply (K i d); auto].
    split; [exact N|]. split; [eauto|]. split; [|split].
    + intros d [<-|D]; auto.
    + intros p d P Gp D. right. apply (K p d); auto. destruct P; auto.
    + intros p d P D X. destruct D as [<-|D].
      * exfalso. apply (not_above_self regs asset T i). destruct P as [<-|P]; [now constructor|]. apply (above_step _ _ p); auto.
      * apply O; auto. destruct P; auto. }
  unfold asset_components.
  destruct (mapM_value _ (fun i => do containers <- get_children g i; do subs <- mapM (map_container g generator n) containers; Ok (i :: concat subs))
    (fun i m => listing regs generator i m /\ forall d, In (d, Some i) regs -> In d m) (children_of regs asset) Inst) as (sub & Es & Fs).
  rewrite Es. cbn [bind]. eexists. split; [reflexivity|].
  destruct (listings regs asset generator T asset (children_of regs asset) sub) as (K & N & A & O); [intros x X; now apply Fs|now apply children_nodup|intros x; apply children_in|].
  inversion N as [|x y Nin Nl]; subst x y. split; [exact Nl|].
  assert (forall d, above regs asset d -> In d (concat (map sub (children_of regs asset)))) as All.
  { assert (forall a d, above regs a d -> a = asset -> In d (concat (map sub (children_of regs asset)))) as X; [|eauto].
    intros a d H. induction H as [p c H|a p c H IH I]; intros ->.
    - apply (K asset c); auto.
    - specialize (IH eq_refl). destruct (L c p I) as [->|[P|P]].
      + apply (K asset c); auto.
      + apply children_in in P. apply in_subs. exists p. split; auto. now apply Fs.
      + apply (K p c); auto. }
  split.
  - intros c. split.
    + intros C. pose proof (A c C) as Ac. split; [now apply (above_in _ _ _ Hh Ac)|]. intros ->. now apply (not_above_self regs asset T asset).
    + intros [C Na]. destruct (Ht c C); [congruence|auto].
  - intros c p I Np. assert (In p (map fst regs)) as P by (destruct Hh as [_ Hp]; eauto). destruct (Ht p P) as [->|Ap]; [congruence|].
    assert (above regs asset c) as Ac by now apply (above_step _ _ p). destruct (O p c) as (l1 & l2 & E & J); auto.
    destruct l1 as [|x l1]; cbn in E; injection E as -> E.
    + congruence.
    + exists l1, l2. auto.
Qed.

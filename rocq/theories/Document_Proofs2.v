(** Files that a document refers to. *)
From Coq Require Import String PeanoNat Lia.
From Verif Require Import Base BaseLemmas Time_Model Document_Model Document_Spec Flow_Proofs Document_Proofs.
Local Open Scope list_scope.

Lemma get_in : forall k es v, NoDup (map fst es) -> (get k es = Some v <-> In (KText k, v) es).
Proof.
  intros k es v. unfold get. induction es as [|[k' v'] r IH]; intros N; cbn [dict_get].
  - split; [discriminate|intros []].
  - cbn [map fst] in N. apply NoDup_cons_iff in N. destruct N as [NI N].
    destruct (key_eqb (KText k) k') eqn:E.
    + apply key_eqb_spec in E. subst k'. split; [intros H; injection H as ->; left; reflexivity|].
      intros [J|J]; [injection J as ->; reflexivity|]. destruct NI. apply in_map_iff. exists (KText k, v). split; [reflexivity|exact J].
    + destruct (key_eqb k' (KText k)) eqn:E'; [apply key_eqb_spec in E'; subst k'; rewrite (proj2 (key_eqb_spec _ _) eq_refl) in E; discriminate E|].
      rewrite (IH N). split; [intros J; right; exact J|]. intros [J|J]; [|exact J]. injection J as -> ->. rewrite (proj2 (key_eqb_spec _ _) eq_refl) in E. discriminate E.
Qed.
Lemma keyed_value : forall m es k v, keyed (Map m es) -> In (k, v) es -> keyed v.
Proof. intros m es k v K J m' es' W. apply (K m' es'). exact (inside_value _ _ _ _ _ J W). Qed.
Lemma keyed_item : forall l v, keyed (Seq l) -> In v l -> keyed v.
Proof. intros l v K J m' es' W. apply (K m' es'). exact (inside_item _ _ _ J W). Qed.
Lemma keyed_here : forall m es, keyed (Map m es) -> NoDup (map fst es).
Proof. intros m es K. apply (K m es). constructor. Qed.
Lemma list_in : forall k es v, NoDup (map fst es) -> (In v (list_or_empty k es) <-> exists l, In (KText k, Seq l) es /\ In v l).
Proof.
  intros k es v N. unfold list_or_empty. split.
  - destruct (get k es) as [n|] eqn:E; [|intros []]. destruct n as [| | | |l]; try (intros []). intros J. exists l. split; [apply get_in; assumption|exact J].
  - intros (l & J & K). apply (get_in _ _ _ N) in J. rewrite J. exact K.
Qed.
Lemma file_of_in : forall n l s, keyed n -> file_of n = Ok l -> (In s l <-> exists m fs, n = Map m fs /\ In (KText "FILE", Text s) fs).
Proof.
  intros n l s K E. destruct n as [| | |m fs|]; try discriminate E. cbn [file_of] in E. pose proof (keyed_here _ _ K) as N.
  destruct (get "FILE" fs) as [v|] eqn:G.
  - destruct v as [x| | | |]; try discriminate E; injection E as <-.
    + apply (get_in _ _ _ N) in G. split.
      * intros [->|[]]. exists m, fs. split; [reflexivity|exact G].
      * intros (m' & fs' & E & J). injection E as <- <-. apply (get_in _ _ _ N) in G, J. rewrite G in J. injection J as ->. left. reflexivity.
    + split; [intros []|]. intros (m' & fs' & E & J). injection E as <- <-. apply (get_in _ _ _ N) in J. rewrite G in J. discriminate J.
  - injection E as <-. split; [intros []|]. intros (m' & fs' & E & J). injection E as <- <-. apply (get_in _ _ _ N) in J. rewrite G in J. discriminate J.
Qed.
Lemma file_of_ok : forall n, keyed n -> ((exists l, file_of n = Ok l) <-> plain n).
Proof.
  intros n K. unfold plain. split.
  - intros [l E]. destruct n as [| | |m fs|]; try discriminate E. cbn [file_of] in E. pose proof (keyed_here _ _ K) as N. exists m, fs. split; [reflexivity|].
    intros v J. apply (get_in _ _ _ N) in J. rewrite J in E. destruct v; try discriminate E; [right; eexists; reflexivity|left; reflexivity].
  - intros (m & fs & -> & H). cbn [file_of]. pose proof (keyed_here _ _ K) as N. destruct (get "FILE" fs) as [v|] eqn:G; [|eexists; reflexivity].
    apply (get_in _ _ _ N) in G. destruct (H v G) as [->|[s ->]]; eexists; reflexivity.
Qed.
Lemma curves_in : forall n l c, keyed n -> curves_of n = Ok l ->
  (In c l <-> exists m fs k m' gs, n = Map m fs /\ (k = "CURVES"%string \/ k = "CURVE"%string) /\ In (KText k, Map m' gs) fs /\ c = Map m' gs).
Proof.
  intros n l c K E. destruct n as [| | |m fs|]; try discriminate E. cbn [curves_of] in E. pose proof (keyed_here _ _ K) as N.
  match type of E with Ok ?x = Ok _ => assert (l = x) as -> by congruence end. clear E.
  rewrite in_flat_map. split.
  - intros (k & Jk & J). destruct (get k fs) as [v|] eqn:G; [|destruct J]. destruct v as [| | |m' gs|]; try destruct J. destruct H. 
    apply (get_in _ _ _ N) in G. exists m, fs, k, m', gs. split; [reflexivity|]. split; [destruct Jk as [<-|[<-|[]]]; tauto|]. split; [exact G|reflexivity].
    destruct H.
  - intros (m0 & fs0 & k & m' & gs & E & Hk & J & ->). injection E as <- <-. exists k. split; [destruct Hk as [-> | ->]; cbn; tauto|].
    apply (get_in _ _ _ N) in J. rewrite J. left. reflexivity.
Qed.
Lemma mapM_concat : forall (A B : Type) (f : A -> result (list B)) l r x, mapM f l = Ok r ->
  (In x (concat r) <-> exists a y, In a l /\ f a = Ok y /\ In x y).
Proof.
  intros A B f l r x E. apply mapM_Ok in E. induction E as [|a y l r Ha E IH]; cbn [concat].
  - split; [intros []|]. intros (a & y & [] & _).
  - rewrite in_app_iff, IH. split.
    + intros [J|(a' & y' & J & Ea & K)]; [exists a, y; split; [left; reflexivity|split; assumption]|exists a', y'; split; [right; exact J|split; assumption]].
    + intros (a' & y' & [<-|J] & Ea & K); [left; congruence|right; exists a', y'; split; [exact J|split; assumption]].
Qed.
Lemma first_in : forall l seen x, In x (first_of_each seen l) <-> In x l /\ ~ In x seen.
Proof.
  induction l as [|y l IH]; intros seen x; cbn [first_of_each]; [split; [intros []|intros [[] _]]|].
  assert (M : existsb (String.eqb y) seen = true <-> In y seen).
  { rewrite existsb_exists. split; [intros (z & J & E); apply String.eqb_eq in E; subst z; exact J|intros J; exists y; split; [exact J|apply String.eqb_refl]]. }
  destruct (existsb (String.eqb y) seen) eqn:E.
  - rewrite IH. split; [intros [J N]; split; [right; exact J|exact N]|]. intros [[<-|J] N]; [destruct (N (proj1 M eq_refl))|split; assumption].
  - assert (NI : ~ In y seen) by (intros J; apply (proj2 M) in J; discriminate J). cbn [In]. rewrite IH. split.
    + intros [<-|[J N]]; [split; [left; reflexivity|exact NI]|]. split; [right; exact J|]. intros K. apply N. right. exact K.
    + intros [[<-|J] N]; [left; reflexivity|]. destruct (string_dec y x) as [->|D]; [left; reflexivity|right]. split; [exact J|]. intros [K|K]; [exact (D K)|exact (N K)].
Qed.
Lemma first_nodup : forall l seen, NoDup (first_of_each seen l).
Proof.
  induction l as [|y l IH]; intros seen; cbn [first_of_each]; [constructor|]. destruct (existsb (String.eqb y) seen); [apply IH|].
  constructor; [|apply IH]. rewrite first_in. intros [_ N]. apply N. left. reflexivity.
Qed.
Lemma mapM_every : forall (A B : Type) (f : A -> result B) l r a, mapM f l = Ok r -> In a l -> exists y, f a = Ok y.
Proof.
  intros A B f l r a E J. apply mapM_Ok in E. induction E as [|b y l r Hb E IH]; [destruct J|]. destruct J as [->|J]; [exists y; exact Hb|exact (IH J)].
Qed.
Lemma mapM_all : forall (A B : Type) (f : A -> result B) l, (forall a, In a l -> exists y, f a = Ok y) -> exists r, mapM f l = Ok r.
Proof.
  intros A B f l. induction l as [|a l IH]; intros H; [exists []; reflexivity|]. destruct (H a (or_introl eq_refl)) as [y Ey].
  destruct IH as [r Er]; [intros b J; apply H; right; exact J|]. exists (y :: r). cbn. rewrite Ey. cbn. rewrite Er. reflexivity.
Qed.
(** The files found are exactly those referred to, each once. *)
Theorem facility_files : forall m entries names, keyed (Map m entries) -> facility_resource_names entries = Ok names ->
  NoDup names /\ forall s, In s names <-> facility_file entries s.
Proof.
  intros m entries names K E. pose proof (keyed_here _ _ K) as N. unfold facility_resource_names in E.
  apply bind_Ok in E. destruct E as (curves & Ec & E). apply bind_Ok in E. destruct E as (fs & Ef & E). injection E as <-.
  split; [apply first_nodup|]. intros s. rewrite first_in, !in_app_iff, (mapM_concat _ _ _ _ _ _ Ef).
  assert (KC : forall c, In c (concat curves) <-> exists items m fs k m' gs, In (KText "MODELS", Seq items) entries /\ In (Map m fs) items /\
     (k = "CURVES"%string \/ k = "CURVE"%string) /\ In (KText k, Map m' gs) fs /\ c = Map m' gs).
  { intros c. rewrite (mapM_concat _ _ _ _ _ _ Ec). split.
    - intros (n & l & J & El & Jc). apply (list_in _ _ _ N) in J. destruct J as (items & J1 & J2).
      apply (curves_in n l c (keyed_item _ _ (keyed_value _ _ _ _ K J1) J2) El) in Jc.
      destruct Jc as (m0 & fs0 & k & m' & gs & -> & Hk & Jg & ->). exists items, m0, fs0, k, m', gs. tauto.
    - intros (items & m0 & fs0 & k & m' & gs & J1 & J2 & Hk & Jg & ->).
      assert (exists l, curves_of (Map m0 fs0) = Ok l) as [l El] by (eexists; reflexivity).
      exists (Map m0 fs0), l. split; [apply (list_in _ _ _ N); exists items; split; assumption|]. split; [exact El|].
      apply (curves_in _ l _ (keyed_item _ _ (keyed_value _ _ _ _ K J1) J2) El). exists m0, fs0, k, m', gs. tauto. }
  assert (KI : forall n, In n (list_or_empty "FACILITY_INPUTS" entries ++ concat curves) -> keyed n).
  { intros n J. apply in_app_iff in J. destruct J as [J|J].
    - apply (list_in _ _ _ N) in J. destruct J as (items & J1 & J2). exact (keyed_item _ _ (keyed_value _ _ _ _ K J1) J2).
    - apply KC in J. destruct J as (items & m0 & fs0 & k & m' & gs & J1 & J2 & _ & J3 & ->).
      exact (keyed_value _ _ _ _ (keyed_item _ _ (keyed_value _ _ _ _ K J1) J2) J3). }
  split.
  - intros [[H|[H|H]] _].
    + destruct H as (n & l & J & El & Js). pose proof (KI n J) as Kn. apply (file_of_in n l s Kn El) in Js. destruct Js as (m0 & fs0 & -> & Js).
      apply in_app_iff in J. destruct J as [J|J].
      * apply (list_in _ _ _ N) in J. destruct J as (items & J1 & J2). exact (of_input _ _ _ _ _ J1 J2 Js).
      * apply KC in J. destruct J as (items & m1 & fs1 & k & m' & gs & J1 & J2 & Hk & J3 & Eq). injection Eq as -> ->.
        exact (of_curves _ _ _ _ _ _ _ _ J1 J2 Hk J3 Js).
    + destruct (get "DEFINITIONS" entries) as [v|] eqn:G; [|destruct H]. destruct v as [| | |m0 ds|]; try destruct H.
      apply (get_in _ _ _ N) in G. pose proof (keyed_here _ _ (keyed_value _ _ _ _ K G)) as Nd.
      destruct (get "PROCESS_UNITS" ds) as [u|] eqn:G'; [|destruct H]. apply (get_in _ _ _ Nd) in G'. apply find_files_in in H. exact (of_units _ _ _ _ _ G G' H).
    + destruct (get "PROCESS_PIPELINES" entries) as [v|] eqn:G; [|destruct H]. apply (get_in _ _ _ N) in G. apply find_files_in in H. exact (of_pipelines _ _ _ G H).
  - intros H. split; [|intros []]. destruct H as [items m0 fs0 J1 J2 Js|items m0 fs0 k m' gs J1 J2 Hk J3 Js|m0 ds n J1 J2 H|n J1 H].
    + left. assert (In (Map m0 fs0) (list_or_empty "FACILITY_INPUTS" entries ++ concat curves)) as J.
      { apply in_app_iff. left. apply (list_in _ _ _ N). exists items. split; assumption. }
      destruct (mapM_every _ _ _ _ _ _ Ef J) as [l El].
      exists (Map m0 fs0), l. split; [exact J|]. split; [exact El|]. apply (file_of_in _ l s (KI _ J) El). exists m0, fs0. split; [reflexivity|exact Js].
    + left. assert (In (Map m' gs) (list_or_empty "FACILITY_INPUTS" entries ++ concat curves)) as J.
      { apply in_app_iff. right. apply KC. exists items, m0, fs0, k, m', gs. tauto. }
      destruct (mapM_every _ _ _ _ _ _ Ef J) as [l El].
      exists (Map m' gs), l. split; [exact J|]. split; [exact El|]. apply (file_of_in _ l s (KI _ J) El). exists m', gs. split; [reflexivity|exact Js].
    + right. left. pose proof (keyed_here _ _ (keyed_value _ _ _ _ K J1)) as Nd. apply (get_in _ _ _ N) in J1. rewrite J1.
      apply (get_in _ _ _ Nd) in J2. rewrite J2. apply find_files_in. exact H.
    + right. right. apply (get_in _ _ _ N) in J1. rewrite J1. apply find_files_in. exact H.
Qed.
(** They are found when facility inputs, models and curves are mappings. *)
Theorem facility_found : forall m entries, keyed (Map m entries) -> ((exists names, facility_resource_names entries = Ok names) <-> findable entries).
Proof.
  intros m entries K. pose proof (keyed_here _ _ K) as N. unfold facility_resource_names, findable. split.
  - intros [names E]. apply bind_Ok in E. destruct E as (curves & Ec & E). apply bind_Ok in E. destruct E as (fs & Ef & _). split.
    + intros items J1. apply Forall_forall. intros n J2. apply file_of_ok; [exact (keyed_item _ _ (keyed_value _ _ _ _ K J1) J2)|].
      apply (mapM_every _ _ _ _ _ _ Ef). apply in_app_iff. left. apply (list_in _ _ _ N). exists items. split; assumption.
    + intros items n J1 J2. assert (In n (list_or_empty "MODELS" entries)) as J by (apply (list_in _ _ _ N); exists items; split; assumption).
      destruct (mapM_every _ _ _ _ _ _ Ec J) as [l El]. destruct n as [| | |m0 fs0|]; try discriminate El.
      exists m0, fs0. split; [reflexivity|]. intros k m' gs Hk J3.
      pose proof (keyed_item _ _ (keyed_value _ _ _ _ K J1) J2) as Kn. apply file_of_ok; [exact (keyed_value _ _ _ _ Kn J3)|].
      apply (mapM_every _ _ _ _ _ _ Ef). apply in_app_iff. right. apply (mapM_concat _ _ _ _ _ _ Ec).
      exists (Map m0 fs0), l. split; [exact J|]. split; [exact El|]. apply (curves_in _ l _ Kn El). exists m0, fs0, k, m', gs. tauto.
  - intros [H1 H2].
    destruct (mapM_all _ _ curves_of (list_or_empty "MODELS" entries)) as [curves Ec].
    { intros n J. apply (list_in _ _ _ N) in J. destruct J as (items & J1 & J2). destruct (H2 items n J1 J2) as (m0 & fs0 & -> & _). eexists. reflexivity. }
    rewrite Ec. cbn [Base.bind].
    destruct (mapM_all _ _ file_of (list_or_empty "FACILITY_INPUTS" entries ++ concat curves)) as [fs Ef].
    { intros n J. apply in_app_iff in J. destruct J as [J|J].
      - apply (list_in _ _ _ N) in J. destruct J as (items & J1 & J2). apply file_of_ok; [exact (keyed_item _ _ (keyed_value _ _ _ _ K J1) J2)|].
        pose proof (H1 items J1) as F. rewrite Forall_forall in F. exact (F n J2).
      - apply (mapM_concat _ _ _ _ _ _ Ec) in J. destruct J as (n' & l & J & El & Jn). apply (list_in _ _ _ N) in J. destruct J as (items & J1 & J2).
        pose proof (keyed_item _ _ (keyed_value _ _ _ _ K J1) J2) as Kn. apply (curves_in _ l _ Kn El) in Jn.
        destruct Jn as (m0 & fs0 & k & m' & gs & -> & Hk & J3 & ->). destruct (H2 items _ J1 J2) as (m1 & fs1 & Eq & H). injection Eq as <- <-.
        apply file_of_ok; [exact (keyed_value _ _ _ _ Kn J3)|exact (H k m' gs Hk J3)]. }
    rewrite Ef. eexists. reflexivity.
Qed.
(** The files with time series. *)
Theorem timeseries_files : forall m entries names, keyed (Map m entries) -> timeseries_resource_names entries = Ok names ->
  forall s, In s names <-> exists items m' fs, In (KText "TIME_SERIES", Seq items) entries /\ In (Map m' fs) items /\ In (KText "FILE", Text s) fs.
Proof.
  intros m entries names K E s. pose proof (keyed_here _ _ K) as N. unfold timeseries_resource_names in E.
  apply bind_Ok in E. destruct E as (fs & Ef & E). injection E as <-. rewrite (mapM_concat _ _ _ _ _ _ Ef). split.
  - intros (n & l & J & El & Js). apply (list_in _ _ _ N) in J. destruct J as (items & J1 & J2).
    apply (file_of_in n l s (keyed_item _ _ (keyed_value _ _ _ _ K J1) J2) El) in Js. destruct Js as (m0 & fs0 & -> & Js). exists items, m0, fs0. tauto.
  - intros (items & m0 & fs0 & J1 & J2 & Js).
    assert (In (Map m0 fs0) (list_or_empty "TIME_SERIES" entries)) as J by (apply (list_in _ _ _ N); exists items; split; assumption).
    destruct (mapM_every _ _ _ _ _ _ Ef J) as [l El]. exists (Map m0 fs0), l. split; [exact J|]. split; [exact El|].
    apply (file_of_in _ l s (keyed_item _ _ (keyed_value _ _ _ _ K J1) J2) El). exists m0, fs0. split; [reflexivity|exact Js].
Qed.

(** Places in documents, and reading them. *)
From Coq Require Import String PeanoNat Lia.
From Verif Require Import Base BaseLemmas Time_Model Document_Model Document_Spec Flow_Proofs Document_Proofs Document_Proofs2.
Local Open Scope list_scope.

(** ** One key *)
Lemma find_date_iff : forall parse d es v, find_date parse d es = Some v <->
  exists before k after, es = before ++ (k, v) :: after /\ parse k = Some d /\ (forall k' v', In (k', v') before -> exists d', parse k' = Some d' /\ d' <> d).
Proof.
  intros parse d es v. induction es as [|[k w] r IH]; cbn [find_date].
  - split; [discriminate|]. intros (before & k & after & E & _). destruct before; discriminate E.
  - destruct (parse k) as [x|] eqn:P.
    + destruct (Z.eqb_spec x d) as [->|Nx].
      * split.
        -- intros E. injection E as ->. exists [], k, r. split; [reflexivity|]. split; [exact P|intros k' v' []].
        -- intros (before & k0 & after & E & P0 & B). destruct before as [|[k1 w1] before]; [injection E as <- <- <-; reflexivity|].
           injection E as <- <- _. destruct (B k w (or_introl eq_refl)) as (d' & P' & N). rewrite P in P'. injection P' as <-. destruct (N eq_refl).
      * rewrite IH. split.
        -- intros (before & k0 & after & -> & P0 & B). exists ((k, w) :: before), k0, after. split; [reflexivity|]. split; [exact P0|].
           intros k' v' [J|J]; [injection J as <- <-; exists x; split; assumption|exact (B k' v' J)].
        -- intros (before & k0 & after & E & P0 & B). destruct before as [|[k1 w1] before]; [injection E as <- <- <-; rewrite P in P0; injection P0 as ->; destruct (Nx eq_refl)|].
           injection E as <- <- ->. exists before, k0, after. split; [reflexivity|]. split; [exact P0|]. intros k' v' J. apply (B k' v'). right. exact J.
    + split; [discriminate|]. intros (before & k0 & after & E & P0 & B). destruct before as [|[k1 w1] before]; [injection E as <- <- <-; rewrite P in P0; discriminate P0|].
      injection E as <- <- _. destruct (B k w (or_introl eq_refl)) as (d' & P' & _). rewrite P in P'. discriminate P'.
Qed.
Lemma descend_iff : forall upper parse n k v, keyed n -> (descend upper parse n k = Some v <-> leads upper parse n k v).
Proof.
  intros upper parse n k v K. split.
  - intros E. destruct k as [s|i|d]; destruct n as [| | |m es|l]; try discriminate E; cbn [descend] in E.
    + apply (get_in _ _ _ (keyed_here _ _ K)) in E. constructor. exact E.
    + constructor. exact E.
    + apply find_date_iff in E. destruct E as (before & k & after & -> & P & B). constructor; assumption.
  - intros L. destruct L as [m es s v J|l i v E|m before k v after d P B]; cbn [descend].
    + apply (get_in _ _ _ (keyed_here _ _ K)). exact J.
    + exact E.
    + apply find_date_iff. exists before, k, after. split; [reflexivity|]. split; assumption.
Qed.
Lemma leads_inside : forall upper parse n k v, leads upper parse n k v -> inside n v.
Proof.
  intros upper parse n k v L. destruct L as [m es s v J|l i v E|m before k v after d P B].
  - exact (inside_value _ _ _ _ _ J (inside_self _)).
  - exact (inside_item _ _ _ (nth_error_In _ _ E) (inside_self _)).
  - apply (inside_value m _ k v v); [apply in_or_app; right; left; reflexivity|constructor].
Qed.
Lemma inside_trans : forall a b c, inside a b -> inside b c -> inside a c.
Proof.
  intros a b c W. revert c. induction W as [n|m es k v n J W IH|l v n J W IH]; intros c V; [exact V| |].
  - exact (inside_value _ _ _ _ _ J (IH c V)).
  - exact (inside_item _ _ _ J (IH c V)).
Qed.
Lemma keyed_inside : forall a b, keyed a -> inside a b -> keyed b.
Proof. intros a b K W m es V. exact (K m es (inside_trans _ _ _ W V)). Qed.
Lemma all_inside : forall upper parse n p v, leads_all upper parse n p v -> inside n v.
Proof. intros upper parse n p v L. induction L as [n|n k n' p n'' L _ IH]; [constructor|]. exact (inside_trans _ _ _ (leads_inside _ _ _ _ _ L) IH). Qed.
Lemma all_unique : forall upper parse n p a b, keyed n -> leads_all upper parse n p a -> leads_all upper parse n p b -> a = b.
Proof.
  intros upper parse n p a b K L. revert b. induction L as [n|n k n' p n'' L M IH]; intros b H; inversion H; subst; [reflexivity|].
  assert (n' = n'0) as <-.
  { apply (descend_iff upper parse n k n' K) in L. apply (descend_iff upper parse n k n'0 K) in H3. congruence. }
  apply IH; [exact (keyed_inside _ _ K (leads_inside _ _ _ _ _ L))|exact H5].
Qed.
Lemma all_app : forall upper parse n p q a b, leads_all upper parse n p a -> leads_all upper parse a q b -> leads_all upper parse n (p ++ q) b.
Proof. intros upper parse n p q a b L M. induction L as [n|n k n' p n'' L _ IH]; [exact M|]. exact (leads_cons _ _ _ _ _ _ _ L (IH M)). Qed.

(** ** Paths *)
Definition no_map_after (upper : string -> string) (parse : key -> option datetime) (n : node) (p : list path_key) : Prop :=
  forall q q' x, p = q ++ q' -> q <> [] -> leads_all upper parse n q x -> ~ is_map x.
Definition stuck (upper : string -> string) (parse : key -> option datetime) (n : node) (rest : list path_key) : Prop :=
  rest = [] \/ exists k r, rest = k :: r /\ forall x, ~ leads upper parse n k x.
Lemma snoc_prefix : forall (A : Type) (p q q' : list A) k, p ++ [k] = q ++ q' -> (q' = [] /\ q = p ++ [k]) \/ exists t, q' = t ++ [k] /\ p = q ++ t.
Proof.
  intros A p q q' k E. destruct q' as [|x q'] using rev_ind; [left; rewrite app_nil_r in E; auto|]. right. exists q'. clear IHq'.
  rewrite app_assoc in E. apply app_inj_tail in E. destruct E as [-> ->]. auto.
Qed.
Lemma closest_step : forall upper parse top path p1 m es p2 current, keyed top ->
  leads_all upper parse top p1 (Map m es) -> leads_all upper parse (Map m es) p2 current -> no_map_after upper parse (Map m es) p2 ->
  exists p rest n p1' p2' es',
    path = p ++ rest /\ leads_all upper parse current p n /\ stuck upper parse n rest /\
    p1 ++ p2 ++ p = p1' ++ p2' /\ leads_all upper parse top p1' (Map (closest upper parse false current m path) es') /\
    no_map_after upper parse (Map (closest upper parse false current m path) es') p2'.
Proof.
  intros upper parse top path. induction path as [|k r IH]; intros p1 m es p2 current K L1 L2 C.
  - exists [], [], current, p1, p2, es. split; [reflexivity|]. split; [constructor|]. split; [left; reflexivity|]. rewrite app_nil_r. split; [reflexivity|]. split; assumption.
  - pose proof (keyed_inside _ _ K (all_inside _ _ _ _ _ L1)) as Km. pose proof (keyed_inside _ _ Km (all_inside _ _ _ _ _ L2)) as Kc.
    cbn [closest]. destruct (descend upper parse current k) as [next|] eqn:E.
    + apply (descend_iff _ _ _ _ _ Kc) in E.
      assert (L2' : leads_all upper parse (Map m es) (p2 ++ [k]) next) by (apply (all_app _ _ _ _ _ current); [exact L2|exact (leads_cons _ _ _ _ _ _ _ E (leads_nil _ _ _))]).
      assert (Hn : (exists m' es', next = Map m' es') \/ ~ is_map next).
      { destruct next; [right|right|right|left; eexists; eexists; reflexivity|right]; intros (m' & es' & X); discriminate X. }
      destruct Hn as [(m' & es' & ->)|Nm].
      * destruct (IH (p1 ++ p2 ++ [k]) m' es' [] (Map m' es') K) as (p & rest & n & p1' & p2' & es2 & -> & A1 & A2 & A3 & A4 & A5).
        { exact (all_app _ _ _ _ _ _ _ L1 L2'). }
        { constructor. }
        { intros q q' x Eq Nq. destruct q; [destruct (Nq eq_refl)|discriminate Eq]. }
        exists (k :: p), rest, n, p1', p2', es2. split; [reflexivity|]. split; [exact (leads_cons _ _ _ _ _ _ _ E A1)|]. split; [exact A2|].
        split; [rewrite <- A3; rewrite <- !app_assoc; reflexivity|]. split; assumption.
      * assert (Em : match next with Map m0 _ => m0 | _ => m end = m) by (destruct next; try reflexivity; destruct Nm; eexists; eexists; reflexivity).
        rewrite Em.
        destruct (IH p1 m es (p2 ++ [k]) next K L1 L2') as (p & rest & n & p1' & p2' & es2 & -> & A1 & A2 & A3 & A4 & A5).
        { intros q q' x Eq Nq Lq. destruct (snoc_prefix _ _ _ _ _ Eq) as [[-> ->]|(t & -> & ->)].
          - assert (x = next) as -> by exact (all_unique _ _ _ _ _ _ Km Lq L2'). exact Nm.
          - exact (C q t x eq_refl Nq Lq). }
        exists (k :: p), rest, n, p1', p2', es2. split; [reflexivity|]. split; [exact (leads_cons _ _ _ _ _ _ _ E A1)|]. split; [exact A2|].
        split; [rewrite <- A3; rewrite <- !app_assoc; reflexivity|]. split; assumption.
    + exists [], (k :: r), current, p1, p2, es. split; [reflexivity|]. split; [constructor|].
      split; [right; exists k, r; split; [reflexivity|]; intros x L; apply (descend_iff _ _ _ _ _ Kc) in L; rewrite E in L; discriminate L|].
      rewrite app_nil_r. split; [reflexivity|]. split; assumption.
Qed.
(** The place reported for a path: the innermost mapping on the part of the path that exists. *)
Theorem context_of_path : forall upper parse name m entries path, keyed (Map m entries) ->
  exists p rest n p1 p2 m' entries',
    path = p ++ rest /\ leads_all upper parse (Map m entries) p n /\
    (rest = [] \/ exists k r, rest = k :: r /\ forall x, ~ leads upper parse n k x) /\
    p = p1 ++ p2 /\ leads_all upper parse (Map m entries) p1 (Map m' entries') /\
    (forall q q' x, p2 = q ++ q' -> q <> [] -> leads_all upper parse (Map m' entries') q x -> ~ is_map x) /\
    get_file_context upper parse name m entries path
      = mkContext name (fst (mk_start m') + 1, snd (mk_start m'))%Z (fst (mk_end m') + 1, snd (mk_end m'))%Z.
Proof.
  intros upper parse name m entries path K.
  destruct (closest_step upper parse (Map m entries) path [] m entries [] (Map m entries) K) as (p & rest & n & p1 & p2 & es & -> & A1 & A2 & A3 & A4 & A5).
  - constructor.
  - constructor.
  - intros q q' x Eq Nq. destruct q; [destruct (Nq eq_refl)|discriminate Eq].
  - exists p, rest, n, p1, p2, (closest upper parse false (Map m entries) m (p ++ rest)), es. split; [reflexivity|]. split; [exact A1|]. split; [exact A2|].
    split; [exact A3|]. split; [exact A4|]. split; [exact A5|]. reflexivity.
Qed.

(** ** Reading *)
Lemma duplicate_none : forall keys seen, duplicate seen keys = None <-> NoDup keys /\ forall k, In k keys -> ~ In k seen.
Proof.
  induction keys as [|k r IH]; intros seen; cbn [duplicate].
  - split; [intros _; split; [constructor|intros k []]|reflexivity].
  - assert (M : existsb (key_eqb k) seen = true <-> In k seen).
    { rewrite existsb_exists. split; [intros (x & J & E); apply key_eqb_spec in E; subst x; exact J|intros J; exists k; split; [exact J|apply key_eqb_spec; reflexivity]]. }
    destruct (existsb (key_eqb k) seen) eqn:E.
    + split; [discriminate|]. intros [_ H]. destruct (H k (or_introl eq_refl)). apply M. reflexivity.
    + rewrite IH, NoDup_cons_iff. split.
      * intros [N H]. split; [split; [intros J; exact (H k J (or_introl eq_refl))|exact N]|]. intros x [<-|J] Q; [apply M in Q; discriminate Q|exact (H x J (or_intror Q))].
      * intros [[NI N] H]. split; [exact N|]. intros x J [<-|Q]; [exact (NI J)|exact (H x (or_intror J) Q)].
Qed.
Definition construct_entries (include : string -> result node) : list (key * raw) -> result (list (key * node)) :=
  fix go (l : list (key * raw)) : result (list (key * node)) :=
    match l with
    | [] => Ok []
    | (k, v) :: rest => do v' <- construct include v; do rest' <- go rest; Ok ((k, v') :: rest')
    end.
Definition construct_items (include : string -> result node) : list raw -> result (list node) :=
  fix go (l : list raw) : result (list node) :=
    match l with
    | [] => Ok []
    | v :: rest => do v' <- construct include v; do rest' <- go rest; Ok (v' :: rest')
    end.
Lemma construct_map : forall include m es, construct include (RMap m es) =
  match duplicate [] (map fst es) with Some _ => Err ValidationError | None => do l <- construct_entries include es; Ok (Map m l) end.
Proof. reflexivity. Qed.
Lemma construct_seq : forall include l, construct include (RSeq l) = (do l' <- construct_items include l; Ok (Seq l')).
Proof. reflexivity. Qed.
Lemma construct_expands : forall files include, (forall name n, include name = Ok n -> expands files (RInclude name) n) ->
  forall r n, construct include r = Ok n -> expands files r n.
Proof.
  intros files include HI r. induction r as [s| | |m l IH|l IH|s] using raw_induct; intros n E.
  - injection E as <-. constructor.
  - injection E as <-. constructor.
  - injection E as <-. constructor.
  - rewrite construct_map in E. destruct (duplicate [] (map fst l)) eqn:D; [discriminate E|]. apply bind_Ok in E. destruct E as (es & Ee & E). injection E as <-.
    apply duplicate_none in D. constructor; [exact (proj1 D)|]. clear D. revert es Ee. induction l as [|[k v] r IHl]; intros es Ee; cbn [construct_entries] in Ee.
    + injection Ee as <-. constructor.
    + destruct IH as [IHv IHr]. apply bind_Ok in Ee. destruct Ee as (v' & Ev & Ee). apply bind_Ok in Ee. destruct Ee as (r' & Er & Ee). injection Ee as <-.
      constructor; [exact (IHv v' Ev)|exact (IHl IHr r' Er)].
  - rewrite construct_seq in E. apply bind_Ok in E. destruct E as (es & Ee & E). injection E as <-. constructor.
    revert es Ee. induction l as [|v r IHl]; intros es Ee; cbn [construct_items] in Ee.
    + injection Ee as <-. constructor.
    + destruct IH as [IHv IHr]. apply bind_Ok in Ee. destruct Ee as (v' & Ev & Ee). apply bind_Ok in Ee. destruct Ee as (r' & Er & Ee). injection Ee as <-.
      constructor; [exact (IHv v' Ev)|exact (IHl IHr r' Er)].
  - exact (HI s n E).
Qed.
Lemma include_expands : forall files fuel name n, include_file files fuel name = Ok n -> expands files (RInclude name) n.
Proof.
  intros files fuel. induction fuel as [|fuel IH]; intros name n E; cbn [include_file] in E; [discriminate E|].
  destruct (files name) as [r|] eqn:F; [|discriminate E]. apply (expands_include files name r n F). exact (construct_expands files _ IH r n E).
Qed.
Scheme expands_min := Minimality for expands Sort Prop
  with expands_entries_min := Minimality for expands_entries Sort Prop
  with expands_items_min := Minimality for expands_items Sort Prop.
Lemma keyed_leaf : forall n, (forall m es, n <> Map m es) -> (forall l, n <> Seq l) -> keyed n.
Proof. intros n A B m es W. inversion W; subst; [destruct (A _ _ eq_refl)|destruct (A _ _ eq_refl)|destruct (B _ eq_refl)]. Qed.
Lemma expands_keyed : forall files r n, expands files r n -> keyed n.
Proof.
  intros files. apply (expands_min files (fun _ n => keyed n)
    (fun es es' => map fst es' = map fst es /\ forall k v, In (k, v) es' -> keyed v) (fun _ l => forall v, In v l -> keyed v)).
  - intros s. apply keyed_leaf; discriminate.
  - apply keyed_leaf; discriminate.
  - apply keyed_leaf; discriminate.
  - intros m es es' N _ [E H] m' es2 W. inversion W as [|? ? k v ? J V|]; subst; [rewrite E; exact N|]. exact (H k v J m' es2 V).
  - intros l l' _ H m' es2 W. inversion W as [| |? v ? J V]; subst. exact (H v J m' es2 V).
  - intros name r n _ _ K. exact K.
  - split; [reflexivity|intros k v []].
  - intros k v v' r r' _ Kv _ [E H]. split; [cbn; rewrite E; reflexivity|]. intros k0 w [J|J]; [injection J as <- <-; exact Kv|exact (H k0 w J)].
  - intros v [].
  - intros v v' r r' _ Kv _ H w [<-|J]; [exact Kv|exact (H w J)].
Qed.
Lemma expands_complete : forall files r n, expands files r n -> exists f0, forall f, (f0 <= f)%nat -> construct (include_file files f) r = Ok n.
Proof.
  intros files. apply (expands_min files (fun r n => exists f0, forall f, (f0 <= f)%nat -> construct (include_file files f) r = Ok n)
    (fun es es' => exists f0, forall f, (f0 <= f)%nat -> construct_entries (include_file files f) es = Ok es')
    (fun l l' => exists f0, forall f, (f0 <= f)%nat -> construct_items (include_file files f) l = Ok l')).
  - intros s. exists 0%nat. reflexivity.
  - exists 0%nat. reflexivity.
  - exists 0%nat. reflexivity.
  - intros m es es' N _ [f0 H]. exists f0. intros f L. rewrite construct_map.
    assert (duplicate [] (map fst es) = None) as -> by (apply duplicate_none; split; [exact N|intros k _ []]). rewrite (H f L). reflexivity.
  - intros l l' _ [f0 H]. exists f0. intros f L. rewrite construct_seq, (H f L). reflexivity.
  - intros name r n F _ [f0 H]. exists (S f0). intros [|f] L; [lia|]. cbn [construct include_file]. rewrite F. apply H. lia.
  - exists 0%nat. reflexivity.
  - intros k v v' r r' _ [f1 H1] _ [f2 H2]. exists (Nat.max f1 f2). intros f L. cbn [construct_entries]. rewrite H1 by lia. cbn. rewrite H2 by lia. reflexivity.
  - exists 0%nat. reflexivity.
  - intros v v' r r' _ [f1 H1] _ [f2 H2]. exists (Nat.max f1 f2). intros f L. cbn [construct_items]. rewrite H1 by lia. cbn. rewrite H2 by lia. reflexivity.
Qed.
(** What is read is the document with the includes in place, without duplicate keys. *)
Theorem read_exact : forall files fuel main document, read_yaml files fuel main = Ok document ->
  expands files main document /\ is_map document /\ keyed document.
Proof.
  intros files fuel main document E. unfold read_yaml in E. apply bind_Ok in E. destruct E as (d & Ed & E).
  assert (d = document /\ is_map document) as [-> M] by (destruct d; try discriminate E; injection E as <-; split; [reflexivity|eexists; eexists; reflexivity]).
  pose proof (construct_expands files _ (include_expands files fuel) main document Ed) as X. split; [exact X|]. split; [exact M|exact (expands_keyed _ _ _ X)].
Qed.
Theorem read_complete : forall files main document, expands files main document -> is_map document ->
  exists enough, forall fuel, (enough <= fuel)%nat -> read_yaml files fuel main = Ok document.
Proof.
  intros files main document X (m & es & ->). destruct (expands_complete _ _ _ X) as [f0 H]. exists f0. intros f L. unfold read_yaml. rewrite (H f L). reflexivity.
Qed.
(** In an included file the place reported names the main file. *)
Theorem context_file_refuted : exists files main document m entries path m' entries',
  read_yaml files 1 main = Ok document /\ document = Map m entries /\
  leads_all (fun s => s) (fun _ => None) document path (Map m' entries') /\
  mk_file m' <> fc_name (get_file_context (fun s => s) (fun _ => None) (mk_file m) m entries path) /\
  fc_start (get_file_context (fun s => s) (fun _ => None) (mk_file m) m entries path) = (fst (mk_start m') + 1, snd (mk_start m'))%Z.
Proof.
  set (inner := mkMarks "part.yaml" (0, 0)%Z (3, 0)%Z). set (outer := mkMarks "model.yaml" (0, 0)%Z (9, 0)%Z).
  exists (fun _ => Some (RMap inner [(KText "B", RScalar)])), (RMap outer [(KText "A", RInclude "part.yaml")]).
  eexists. exists outer. eexists. exists [PText "A"], inner. eexists. split; [reflexivity|]. split; [reflexivity|].
  split; [econstructor; [constructor; left; reflexivity|constructor]|]. split; [discriminate|reflexivity].
Qed.

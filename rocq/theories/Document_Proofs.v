(** Proofs about YAML documents. *)
From Coq Require Import String PeanoNat Lia.
From Verif Require Import Base BaseLemmas Time_Model Time_Spec Input_Model Input_Spec Input_Proofs2 Document_Model Document_Spec Flow_Proofs.
Local Open Scope list_scope.

(** ** Induction *)
Fixpoint all_values (P : node -> Prop) (l : list (key * node)) : Prop := match l with [] => True | (_, v) :: r => P v /\ all_values P r end.
Fixpoint all_nodes (P : node -> Prop) (l : list node) : Prop := match l with [] => True | v :: r => P v /\ all_nodes P r end.
Lemma node_induct : forall P : node -> Prop,
  (forall s, P (Text s)) -> P Scalar -> P Null ->
  (forall m l, all_values P l -> P (Map m l)) -> (forall l, all_nodes P l -> P (Seq l)) -> forall n, P n.
Proof.
  intros P H1 H2 H3 H4 H5. fix IH 1. intros [s| | |m l|l]; [apply H1|exact H2|exact H3| |].
  - apply H4. induction l as [|[k v] r IHr]; [exact I|]. split; [apply IH|exact IHr].
  - apply H5. induction l as [|v r IHr]; [exact I|]. split; [apply IH|exact IHr].
Qed.
Fixpoint all_raw_values (P : raw -> Prop) (l : list (key * raw)) : Prop := match l with [] => True | (_, v) :: r => P v /\ all_raw_values P r end.
Fixpoint all_raws (P : raw -> Prop) (l : list raw) : Prop := match l with [] => True | v :: r => P v /\ all_raws P r end.
Lemma raw_induct : forall P : raw -> Prop,
  (forall s, P (RText s)) -> P RScalar -> P RNull ->
  (forall m l, all_raw_values P l -> P (RMap m l)) -> (forall l, all_raws P l -> P (RSeq l)) -> (forall s, P (RInclude s)) -> forall n, P n.
Proof.
  intros P H1 H2 H3 H4 H5 H6. fix IH 1. intros [s| | |m l|l|s]; [apply H1|exact H2|exact H3| | |apply H6].
  - apply H4. induction l as [|[k v] r IHr]; [exact I|]. split; [apply IH|exact IHr].
  - apply H5. induction l as [|v r IHr]; [exact I|]. split; [apply IH|exact IHr].
Qed.
Lemma key_eqb_spec : forall a b, key_eqb a b = true <-> a = b.
Proof.
  intros [x|x|x] [y|y|y]; cbn; split; intros H; try discriminate H.
  - apply String.eqb_eq in H. congruence.
  - injection H as ->. apply String.eqb_refl.
  - apply Z.eqb_eq in H. congruence.
  - injection H as ->. apply Z.eqb_refl.
  - apply Z.eqb_eq in H. congruence.
  - injection H as ->. apply Z.eqb_refl.
Qed.

(** ** Dates *)
Definition below (v : node) : list datetime := match v with Map _ _ | Seq _ => find_dates v | _ => [] end.
Lemma below_dates : forall v, below v = find_dates v.
Proof. intros [ | | | | ]; reflexivity. Qed.
Definition dates_entries : list (key * node) -> list datetime -> list datetime :=
  fix go (l : list (key * node)) (output : list datetime) : list datetime :=
    match l with
    | [] => output
    | (k, v) :: r =>
        let output := match k with KDate d => if existsb (Z.eqb d) output then output else output ++ [d] | _ => output end in
        go r (match v with Map _ _ | Seq _ => output ++ find_dates v | _ => output end)
    end.
Definition dates_items : list node -> list datetime -> list datetime :=
  fix go (l : list node) (output : list datetime) : list datetime :=
    match l with
    | [] => output
    | v :: r => go r (match v with Map _ _ | Seq _ => output ++ find_dates v | _ => output end)
    end.
Lemma extended_below : forall v output, match v with Map _ _ | Seq _ => output ++ find_dates v | _ => output end = output ++ find_dates v.
Proof. intros [ | | | | ] output; try reflexivity; cbn; rewrite app_nil_r; reflexivity. Qed.
Lemma dates_entries_in : forall l output d, In d (dates_entries l output) <->
  In d output \/ (exists v, In (KDate d, v) l) \/ (exists k v, In (k, v) l /\ In d (find_dates v)).
Proof.
  induction l as [|[k v] r IH]; intros output d; cbn [dates_entries].
  - split; [tauto|]. intros [H|[[v []]|(k & v & [] & _)]]. exact H.
  - rewrite extended_below, IH, in_app_iff.
    assert (In d match k with KDate d0 => if existsb (Z.eqb d0) output then output else output ++ [d0] | _ => output end <-> In d output \/ k = KDate d) as ->.
    { destruct k as [x|x|x]; try (split; [tauto|intros [H|H]; [exact H|discriminate H]]).
      destruct (existsb (Z.eqb x) output) eqn:E.
      - split; [tauto|]. intros [H|H]; [exact H|]. injection H as ->. apply existsb_exists in E. destruct E as (y & J & Q). apply Z.eqb_eq in Q. subst y. exact J.
      - rewrite in_app_iff. cbn. split; [intros [H|[->|[]]]; tauto|]. intros [H|H]; [tauto|]. injection H as ->. tauto. }
    split.
    + intros [[[H| ->]|H]|[(w & H)|(k' & w & H & G)]].
      * left. exact H.
      * right. left. exists v. left. reflexivity.
      * right. right. exists k, v. split; [left; reflexivity|exact H].
      * right. left. exists w. right. exact H.
      * right. right. exists k', w. split; [right; exact H|exact G].
    + intros [H|[(w & [H|H])|(k' & w & [H|H] & G)]].
      * left. left. left. exact H.
      * injection H as -> ->. left. left. right. reflexivity.
      * right. left. exists w. exact H.
      * injection H as -> ->. left. right. exact G.
      * right. right. exists k', w. split; [exact H|exact G].
Qed.
Lemma dates_items_in : forall l output d, In d (dates_items l output) <-> In d output \/ exists v, In v l /\ In d (find_dates v).
Proof.
  induction l as [|v r IH]; intros output d; cbn [dates_items].
  - split; [tauto|]. intros [H|(v & [] & _)]. exact H.
  - rewrite extended_below, IH, in_app_iff. split.
    + intros [[H|H]|(w & H & G)]; [left; exact H|right; exists v; split; [left; reflexivity|exact H]|right; exists w; split; [right; exact H|exact G]].
    + intros [H|(w & [<-|H] & G)]; [left; left; exact H|left; right; exact G|right; exists w; split; assumption].
Qed.
Lemma all_values_in : forall P l k v, all_values P l -> In (k, v) l -> P v.
Proof. intros P l k v. induction l as [|[k' v'] r IH]; intros A J; [destruct J|]. destruct A as [A1 A2]. destruct J as [J|J]; [injection J as -> ->; exact A1|exact (IH A2 J)]. Qed.
Lemma all_nodes_in : forall P l v, all_nodes P l -> In v l -> P v.
Proof. intros P l v. induction l as [|v' r IH]; intros A J; [destruct J|]. destruct A as [A1 A2]. destruct J as [->|J]; [exact A1|exact (IH A2 J)]. Qed.
(** The dates found are exactly the keys that are dates. *)
Theorem dates_found : forall n d, In d (find_dates n) <-> date_key n d.
Proof.
  intros n d. induction n as [s| | |m l IH|l IH] using node_induct; try (split; [intros []|intros (m & es & v & W & _); inversion W]; fail).
  - change (find_dates (Map m l)) with (dates_entries l []). rewrite dates_entries_in. split.
    + intros [[]|[(v & J)|(k & v & J & G)]]; [exists m, l, v; split; [constructor|exact J]|].
      apply (all_values_in _ _ _ _ IH J) in G. destruct G as (m' & es & w & W & G). exists m', es, w. split; [exact (inside_value _ _ _ _ _ J W)|exact G].
    + intros (m' & es & w & W & G). right. inversion W as [|? ? k v ? J W'|]; subst; [left; exists w; exact G|].
      right. exists k, v. split; [exact J|]. apply (all_values_in _ _ _ _ IH J). exists m', es, w. split; assumption.
  - change (find_dates (Seq l)) with (dates_items l []). rewrite dates_items_in. split.
    + intros [[]|(v & J & G)]. apply (all_nodes_in _ _ _ IH J) in G. destruct G as (m' & es & w & W & G). exists m', es, w. split; [exact (inside_item _ _ _ J W)|exact G].
    + intros (m' & es & w & W & G). right. inversion W as [| |? v ? J W']; subst. exists v. split; [exact J|].
      apply (all_nodes_in _ _ _ IH J). exists m', es, w. split; assumption.
Qed.
(** Every date of the document inside the period of the model starts a period, and no period starts elsewhere. *)
Theorem dates_split : forall tv stop start document a, model_start start tv a -> (a < stop)%Z ->
  exists ps, document_periods tv stop start document = Ok ps /\ contiguous ps /\ spans ps a stop /\
    forall d, is_boundary ps d <-> ((a <= d <= stop)%Z /\ (d = a \/ d = stop \/ In d tv \/ date_key document d)).
Proof.
  intros tv stop start document a M L. destruct (model_periods_proof tv stop start (find_dates document) a M L) as (ps & E & C & S & B).
  exists ps. split; [exact E|]. split; [exact C|]. split; [exact S|]. intros d. rewrite B, dates_found. reflexivity.
Qed.

(** ** Files *)
Lemma find_files_in : forall n s, In s (find_files n) <-> mentions n s.
Proof.
  intros n s. induction n as [x| | |m l IH|l IH] using node_induct; try (split; [intros []|intros (m & es & W & _); inversion W]; fail).
  - cbn [find_files]. rewrite in_flat_map. split.
    + intros ([k v] & J & G).
      assert (In s (find_files v) \/ (k = KText "FILE" /\ v = Text s)) as [F|[-> ->]].
      { destruct k as [x| |]; [|left; exact G|left; exact G]. destruct (String.eqb_spec x "FILE") as [->|N].
        - destruct v; try (left; exact G). right. split; [reflexivity|]. destruct G as [->|[]]. reflexivity.
        - left. revert G. clear - N. repeat (destruct x as [|[[] [] [] [] [] [] [] []] x]; try (exact (fun H => H)); try (destruct (N eq_refl))). }
      * apply (all_values_in _ _ _ _ IH J) in F. destruct F as (m' & es & W & F). exists m', es. split; [exact (inside_value _ _ _ _ _ J W)|exact F].
      * exists m, l. split; [constructor|exact J].
    + intros (m' & es & W & F). inversion W as [|? ? k v ? J W'|]; subst.
      * exists (KText "FILE", Text s). split; [exact F|]. left. reflexivity.
      * exists (k, v). split; [exact J|].
        assert (G : In s (find_files v)) by (apply (all_values_in _ _ _ _ IH J); exists m', es; split; assumption).
        destruct v as [y| | | |]; try destruct G; destruct k as [x| |]; try exact G;
        repeat (destruct x as [|[[] [] [] [] [] [] [] []] x]; try exact G).
  - cbn [find_files]. rewrite in_flat_map. split.
    + intros (v & J & G). apply (all_nodes_in _ _ _ IH J) in G. destruct G as (m' & es & W & F). exists m', es. split; [exact (inside_item _ _ _ J W)|exact F].
    + intros (m' & es & W & F). inversion W as [| |? v ? J W']; subst. exists v. split; [exact J|]. apply (all_nodes_in _ _ _ IH J). exists m', es. split; assumption.
Qed.

(** Dividing the listed units into sections: proofs. *)
From Coq Require Import PeanoNat String.
From Verif Require Import QcTac Base BaseLemmas Num Stream_Model Process_Model Process_Spec Sections_Model Sections_Spec.
Local Open Scope list_scope.

Lemma seqb_eq : forall a b, String.eqb a b = true <-> a = b.
Proof. exact String.eqb_eq. Qed.
Lemma neqb_eq : forall a b, Nat.eqb a b = true <-> a = b.
Proof. exact Nat.eqb_eq. Qed.
Lemma compressor_iff : forall u, is_compressor u = true <-> compresses u.
Proof. intros [i k]. unfold is_compressor, compresses. cbn. destruct k; split; try discriminate; try (intros (c' & Q); discriminate); eauto. Qed.
Lemma compressor_iff_not : forall u, is_compressor u = false <-> ~ compresses u.
Proof. intros u. rewrite <- compressor_iff. destruct (is_compressor u); split; try discriminate; try reflexivity; intros H; elim H; reflexivity. Qed.

Lemma nodup_app : forall A (l m : list A), NoDup (l ++ m) <-> NoDup l /\ NoDup m /\ forall x, In x l -> ~ In x m.
Proof.
  intros A l m. induction l as [|a l IH]; cbn.
  - split; [intros H; split; [constructor|split; [exact H|tauto]]|intros (_ & H & _); exact H].
  - rewrite !NoDup_cons_iff, IH, in_app_iff. split.
    + intros (Ha & Hl & Hm & Hd). split; [tauto|]. split; [exact Hm|]. intros x [<-|Hx]; [tauto|auto].
    + intros ((Ha & Hl) & Hm & Hd). split; [intros [|]; [tauto|apply (Hd a); auto]|]. split; [exact Hl|]. split; [exact Hm|]. intros x Hx. apply Hd. auto.
Qed.

(** ** Names *)
Definition entries (items : list item) : list (string * unit_id) :=
  flat_map (fun it => match fst it with Some n => [(n, fst (snd it))] | None => [] end) items.
Lemma register_ok : forall items names, NoDup (map fst names) ->
  (NoDup (map fst (names ++ entries items)) -> register items names = Ok (names ++ entries items)) /\
  (~ NoDup (map fst (names ++ entries items)) -> register items names = Err ValidationError).
Proof.
  induction items as [|[[n|] u] items IH]; intros names Hn; cbn [register entries flat_map fst snd app].
  - rewrite app_nil_r. split; [reflexivity|contradiction].
  - fold (entries items). destruct (dict_get String.eqb n names) as [i|] eqn:E.
    + split; [|reflexivity]. intros H. exfalso. rewrite map_app in H. cbn in H. apply NoDup_remove_2 in H. apply H. apply in_or_app. left.
      apply dict_get_In in E; [|exact seqb_eq]. apply (in_map fst) in E. exact E.
    + apply dict_get_None in E; [|exact seqb_eq]. assert (names ++ (n, fst u) :: entries items = (names ++ [(n, fst u)]) ++ entries items) as Eq by now rewrite <- app_assoc.
      rewrite Eq. apply IH. rewrite map_app. cbn. apply nodup_app. split; [exact Hn|]. split; [repeat constructor; auto|]. intros x Hx [<-|[]]. contradiction.
  - apply IH. exact Hn.
Qed.
Lemma entries_in : forall items n i, In (n, i) (entries items) <-> exists u, named items n u /\ fst u = i.
Proof.
  intros items n i. unfold entries, named. rewrite in_flat_map. split.
  - intros ([[m|] u] & Hin & H); cbn in H; [|destruct H]. destruct H as [H|[]]. injection H as <- <-. eauto.
  - intros (u & Hin & <-). exists (Some n, u). split; [exact Hin|]. left. reflexivity.
Qed.
Lemma entries_nodup : forall items, NoDup (map fst (entries items)) <-> distinct_names items.
Proof.
  unfold distinct_names. induction items as [|[o u] items IH]; cbn [entries flat_map].
  - split; [|constructor]. intros _ [|i] j n u w H; discriminate.
  - fold (entries items). rewrite map_app. split.
    + intros H. apply nodup_app in H. destruct H as (_ & H & Hd). rewrite IH in H.
      assert (forall n w j, o = Some n -> nth_error items j = Some (Some n, w) -> False) as Hno.
      { intros n w j -> Hj. apply (Hd n); [left; reflexivity|]. apply nth_error_In in Hj. change n with (fst (n, fst w)). apply in_map.
        apply entries_in. exists w. split; [exact Hj|reflexivity]. }
      intros [|i] [|j] n a b Ha Hb; cbn in Ha, Hb.
      * reflexivity.
      * injection Ha as Ho <-. exfalso. eapply Hno; [exact Ho|exact Hb].
      * injection Hb as Ho <-. exfalso. eapply Hno; [exact Ho|exact Ha].
      * f_equal. eapply H; [exact Ha|exact Hb].
    + intros H. apply nodup_app. split; [destruct o; cbn; repeat constructor; auto|]. split.
      * apply IH. intros i j n a b Ha Hb. specialize (H (S i) (S j) n a b Ha Hb). congruence.
      * destruct o as [n|]; cbn; [|tauto]. intros x [<-|[]] Hin. apply in_map_iff in Hin. destruct Hin as ((m & i) & Hm & Hin). cbn in Hm. subst m.
        apply entries_in in Hin. destruct Hin as (w & Hw & _). apply In_nth_error in Hw. destruct Hw as (j & Hj).
        specialize (H 0%nat (S j) n u w eq_refl Hj). discriminate.
Qed.
Lemma register_items : forall items,
  (distinct_names items -> register items [] = Ok (entries items)) /\ (~ distinct_names items -> register items [] = Err ValidationError).
Proof.
  intros items. destruct (register_ok items [] (NoDup_nil _)) as (H1 & H2). cbn [app] in H1, H2. rewrite entries_nodup in H1, H2. tauto.
Qed.
Lemma entries_get : forall items n u, distinct_names items -> named items n u -> dict_get String.eqb n (entries items) = Some (fst u).
Proof.
  intros items n u Hd H. apply dict_get_NoDup; [exact seqb_eq|now apply entries_nodup|]. apply entries_in. eauto.
Qed.
Lemma entries_found : forall items n i, dict_get String.eqb n (entries items) = Some i -> exists u, named items n u /\ fst u = i.
Proof. intros items n i H. apply dict_get_In in H; [|exact seqb_eq]. now apply entries_in. Qed.
Lemma named_listed : forall items n u, named items n u -> In u (listed items).
Proof. intros items n u H. apply (in_map snd) in H. exact H. Qed.
Lemma same_unit : forall items u w, distinct_units items -> In u (listed items) -> In w (listed items) -> fst u = fst w -> u = w.
Proof.
  intros items u w. unfold distinct_units. induction (listed items) as [|x l IH]; cbn [ids map]; [intros _ []|].
  intros Hd Hu Hw E. apply NoDup_cons_iff in Hd. destruct Hd as (Hx & Hd).
  destruct Hu as [-> | Hu], Hw as [-> | Hw]; auto.
  - exfalso. apply Hx. rewrite E. now apply in_map.
  - exfalso. apply Hx. rewrite <- E. now apply in_map.
Qed.

(** ** Constraints *)
Definition placed (names : list (string * unit_id)) (c : constraint) : list (unit_id * constraint) :=
  match co_unit c with Some n => match dict_get String.eqb n names with Some i => [(i, c)] | None => [] end | None => [] end.
Definition unnamed (c : constraint) : bool := match co_unit c with None => true | Some _ => false end.
Definition known (names : list (string * unit_id)) (cs : list constraint) : Prop :=
  forall c n, In c cs -> co_unit c = Some n -> dict_get String.eqb n names <> None.
Definition listopt {A} (o : option A) : list A := match o with Some a => [a] | None => [] end.
Lemma collect_inv : forall names cs bu t bu' t', collect names cs bu t = Ok (bu', t') -> NoDup (map fst bu) ->
  known names cs /\ bu' = bu ++ flat_map (placed names) cs /\ NoDup (map fst bu') /\ listopt t' = listopt t ++ filter unnamed cs.
Proof.
  intros names. induction cs as [|c cs IH]; intros bu t bu' t' H Hn; cbn [collect flat_map filter] in *.
  - injection H as <- <-. rewrite !app_nil_r. split; [intros c n []|auto].
  - unfold placed at 1, unnamed at 1. destruct (co_unit c) as [n|] eqn:Eu.
    + destruct (dict_get String.eqb n names) as [i|] eqn:Ei; [|discriminate].
      destruct (dict_get Nat.eqb i bu) as [|] eqn:Eb; [discriminate|].
      apply dict_get_None in Eb; [|exact neqb_eq].
      apply IH in H.
      * destruct H as (Hk & -> & Hd & Ht). rewrite <- app_assoc in *. split; [|auto].
        intros c' n' [<-|Hc] E; [congruence|eapply Hk; eauto].
      * rewrite map_app. apply nodup_app. split; [exact Hn|]. split; [repeat constructor; auto|]. intros x Hx [<-|[]]. contradiction.
    + destruct t as [t|]; [discriminate|]. apply IH in H; [|exact Hn]. destruct H as (Hk & -> & Hd & Ht). split; [|auto].
      intros c' n' [<-|Hc] E; [congruence|eapply Hk; eauto].
Qed.
Lemma collect_ok : forall names cs bu t, known names cs -> NoDup (map fst (bu ++ flat_map (placed names) cs)) ->
  (List.length (listopt t ++ filter unnamed cs) <= 1)%nat -> exists t', collect names cs bu t = Ok (bu ++ flat_map (placed names) cs, t').
Proof.
  intros names. induction cs as [|c cs IH]; intros bu t Hk Hn Ht; cbn [collect flat_map filter] in *.
  - rewrite app_nil_r. eauto.
  - assert (known names cs) as Hk' by (intros c' n' Hc; apply Hk; now right).
    unfold placed at 1 in Hn. unfold placed at 1. unfold unnamed at 1 in Ht. destruct (co_unit c) as [n|] eqn:Eu.
    + specialize (Hk c n (or_introl eq_refl) Eu). destruct (dict_get String.eqb n names) as [i|]; [|contradiction].
      destruct (dict_get Nat.eqb i bu) as [x|] eqn:Eb.
      * exfalso. apply dict_get_In in Eb; [|exact neqb_eq]. rewrite map_app in Hn. apply nodup_app in Hn. destruct Hn as (_ & _ & Hn).
        apply (Hn i); [|left; reflexivity]. apply (in_map fst) in Eb. exact Eb.
      * rewrite app_assoc in *. apply IH; auto.
    + destruct t as [t|]; [cbn in Ht; lia|]. cbn [listopt app] in *. apply IH; auto.
Qed.
Lemma collect_err : forall names cs bu t e, collect names cs bu t = Err e -> e = ValidationError.
Proof.
  intros names. induction cs as [|c cs IH]; intros bu t e H; cbn [collect] in H; [discriminate|].
  destruct (co_unit c) as [n|]; [destruct (dict_get String.eqb n names) as [i|]; [destruct (dict_get Nat.eqb i bu)|]|destruct t]; try congruence; eauto.
Qed.

(** ** Walking along the units *)
Definition at_unit (bu : list (unit_id * constraint)) (u : unit_) : list (unit_id * constraint) :=
  match dict_get Nat.eqb (fst u) bu with Some c => [(fst u, c)] | None => [] end.
Lemma walk_parts : forall bu units cur ss tr, walk bu units cur = (ss, tr) -> (forall w, In w cur -> dict_get Nat.eqb (fst w) bu = None) ->
  concat (map s_units ss) ++ tr = cur ++ units /\ (forall w, In w tr -> dict_get Nat.eqb (fst w) bu = None) /\
  Forall (fun s => exists front u, s_units s = front ++ [u] /\ s_target s = fst u /\ dict_get Nat.eqb (fst u) bu = Some (s_constraint s) /\
    forall w, In w front -> dict_get Nat.eqb (fst w) bu = None) ss /\
  map (fun s => (s_target s, s_constraint s)) ss =
    flat_map (at_unit bu) units.
Proof.
  intros bu. induction units as [|u units IH]; intros cur ss tr H Hc; cbn [walk flat_map] in *.
  - injection H as <- <-. cbn. rewrite app_nil_r. auto.
  - unfold at_unit at 1. destruct (dict_get Nat.eqb (fst u) bu) as [c|] eqn:E.
    + destruct (walk bu units []) as [ss' tr'] eqn:W. injection H as <- <-. apply IH in W; [|intros w []]. destruct W as (H1 & H2 & H3 & H4).
      cbn [map concat s_units app s_target s_constraint]. rewrite <- !app_assoc, H1, H4. cbn [app]. split; [reflexivity|]. split; [exact H2|]. split; [|reflexivity].
      constructor; [|exact H3]. cbn. exists cur, u. auto.
    + apply IH in H.
      * rewrite <- app_assoc in H. exact H.
      * intros w Hw. apply in_app_or in Hw. destruct Hw as [Hw|[<-|[]]]; auto.
Qed.
Lemma walk_suffix : forall bu (y x cur : list unit_), (forall w, In w y -> dict_get Nat.eqb (fst w) bu = None) ->
  exists t, snd (walk bu (x ++ y) cur) = t ++ y.
Proof.
  intros bu y x cur H. revert cur. induction x as [|u x IH]; intros cur; cbn [app walk].
  - exists cur. revert cur H. induction y as [|w y IHy]; intros cur H; cbn [walk]; [now rewrite app_nil_r|].
    rewrite (H w (or_introl eq_refl)), IHy, <- app_assoc; [reflexivity|]. intros v Hv. apply H. now right.
  - destruct (dict_get Nat.eqb (fst u) bu); [|apply IH]. destruct (IH []) as (t & Ht). exists t. destruct (walk bu (x ++ y) []). exact Ht.
Qed.

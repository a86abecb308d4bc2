(** References to definitions. *)
From Coq Require Import PeanoNat String Lia.
From Verif Require Import Base BaseLemmas Definitions_Model Definitions_Spec.
Local Open Scope list_scope.

Lemma may_refer_iff : forall a, is_reference_union a = true <-> may_refer a.
Proof.
  intros a. unfold may_refer. destruct a as [| |args| | |]; cbn [is_reference_union]; try (split; [discriminate|intros (x & E & _); discriminate E]).
  rewrite existsb_exists. split.
  - intros (x & I & E). destruct x; try discriminate E. exists args. auto.
  - intros (x & E & I). injection E as ->. exists Reference. auto.
Qed.
Lemma contains_item_type : forall a c, contains a c -> item_type a = c.
Proof. intros a c C. destruct C; reflexivity. Qed.
Lemma lookup_spec : forall defs s, match lookup defs s with Ok d => defines defs s d | Err e => e = KeyError /\ ~ exists d, defines defs s d end.
Proof.
  unfold lookup. induction defs as [|[k d] defs IH]; intros s; cbn [dict_get of_option].
  - split; [reflexivity|]. intros (d & before & after & E & _). destruct before; discriminate E.
  - destruct (String.eqb_spec s k) as [->|N]; cbn [of_option].
    + exists [], defs. split; [reflexivity|intros []].
    + specialize (IH s). destruct (dict_get String.eqb s defs) as [x|]; cbn [of_option] in *.
      * destruct IH as (before & after & -> & F). exists ((k, d) :: before), after. split; [reflexivity|]. intros [E|E]; [cbn in E; congruence|auto].
      * destruct IH as [_ IH]. split; [reflexivity|]. intros (x & [|b before] & after & E & F); cbn in E; injection E as E1 E2.
        -- congruence.
        -- apply IH. exists x, before, after. split; [exact E2|]. intros I. apply F. right. exact I.
Qed.
Lemma defines_unique : forall defs s d d', defines defs s d -> defines defs s d' -> d = d'.
Proof.
  induction defs as [|[k x] defs IH]; intros s d d' (b & a & E & F) (b' & a' & E' & F'); [destruct b; discriminate E|].
  destruct b as [|y b], b' as [|y' b']; cbn [app] in E, E'.
  - congruence.
  - exfalso. apply F'. left. inversion E'. inversion E. subst. reflexivity.
  - exfalso. apply F. left. inversion E'. inversion E. subst. reflexivity.
  - apply (IH s d d'); [exists b, a|exists b', a'].
    + split; [inversion E; reflexivity|]. intros I. apply F. right. exact I.
    + split; [inversion E'; reflexivity|]. intros I. apply F'. right. exact I.
Qed.

Lemma each_nth : forall A B (f : A -> result B) l l', each f l = Ok l' -> forall i x, nth_error l i = Some x -> exists y, f x = Ok y /\ nth_error l' i = Some y.
Proof.
  intros A B f. induction l as [|a l IH]; intros l' E i x N; [destruct i; discriminate N|]. cbn in E. destruct (f a) as [b|] eqn:F; [|discriminate E]. cbn [bind] in E. fold (each f) in E. destruct (each f l) as [bs|] eqn:G; [|discriminate E]. cbn [bind] in E. injection E as <-.
  destruct i as [|i]; cbn in N |- *; [injection N as <-; eauto|]. exact (IH bs eq_refl i x N).
Qed.
Lemma each_err : forall A B (f : A -> result B) l e, each f l = Err e -> exists i x, nth_error l i = Some x /\ f x = Err e.
Proof.
  intros A B f. induction l as [|a l IH]; intros e E; [discriminate E|]. cbn in E. destruct (f a) as [b|e'] eqn:F.
  - cbn [bind] in E. fold (each f) in E. destruct (each f l) as [bs|e'] eqn:G; [discriminate E|]. cbn [bind] in E. destruct (IH e) as (i & x & N & X); [congruence|]. exists (S i), x. auto.
  - cbn [bind] in E. exists 0%nat, a. split; [reflexivity|congruence].
Qed.
Lemma each_same : forall A (f : A -> result A) l, (forall x, In x l -> f x = Ok x) -> each f l = Ok l.
Proof.
  intros A f. induction l as [|a l IH]; intros H; [reflexivity|]. cbn. rewrite (H a (or_introl eq_refl)). cbn [bind]. fold (each f). rewrite IH; [reflexivity|]. intros x I. apply H. right. exact I.
Qed.

Section Induction.
  Variable P : value -> Prop.
  Hypothesis case_nothing : P Nothing.
  Hypothesis case_text : forall s, P (Text s).
  Hypothesis case_other : forall n, P (Other n).
  Hypothesis case_model : forall fields, (forall n a v, In (n, a, v) fields -> P v) -> P (Model fields).
  Hypothesis case_dict : forall entries, (forall k v, In (k, v) entries -> P v) -> P (Dict entries).
  Hypothesis case_items : forall items, (forall v, In v items -> P v) -> P (Items items).
  Fixpoint value_induct (v : value) : P v :=
    match v with
    | Nothing => case_nothing
    | Text s => case_text s
    | Other n => case_other n
    | Model fields => case_model fields
        ((fix go l : forall n a v, In (n, a, v) l -> P v :=
            match l with
            | [] => fun _ _ _ I => match I with end
            | (n', a', v') :: r => fun n a v I => match I with or_introl E => eq_ind v' P (value_induct v') v (f_equal snd E) | or_intror I' => go r n a v I' end
            end) fields)
    | Dict entries => case_dict entries
        ((fix go l : forall k v, In (k, v) l -> P v :=
            match l with
            | [] => fun _ _ I => match I with end
            | (k', v') :: r => fun k v I => match I with or_introl E => eq_ind v' P (value_induct v') v (f_equal snd E) | or_intror I' => go r k v I' end
            end) entries)
    | Items items => case_items items
        ((fix go l : forall v, In v l -> P v :=
            match l with
            | [] => fun _ I => match I with end
            | v' :: r => fun v I => match I with or_introl E => eq_ind v' P (value_induct v') v E | or_intror I' => go r v I' end
            end) items)
    end.
End Induction.

(** what is at a place afterwards *)
Lemma resolve_model : forall defs a fields w, resolve defs a (Model fields) = Ok w -> exists fields', w = Model fields' /\
  forall i n fa v, nth_error fields i = Some (n, fa, v) -> exists v', resolve defs fa v = Ok v' /\ nth_error fields' i = Some (n, fa, v').
Proof.
  intros defs a fields w E. cbn [resolve] in E. destruct (each _ fields) as [l|] eqn:G; [|discriminate E]. cbn [bind] in E. injection E as <-. exists l. split; [reflexivity|].
  intros i n fa v N. destruct (each_nth _ _ _ _ _ G i _ N) as (y & F & M). cbn in F. destruct (resolve defs fa v) as [v'|]; [|discriminate F]. cbn [bind] in F. exists v'. split; [reflexivity|]. congruence.
Qed.
Lemma resolve_dict : forall defs a entries w, resolve defs a (Dict entries) = Ok w -> exists entries', w = Dict entries' /\
  forall i k v, nth_error entries i = Some (k, v) -> exists v', resolve defs (item_type a) v = Ok v' /\ nth_error entries' i = Some (k, v').
Proof.
  intros defs a entries w E. cbn [resolve] in E. destruct (each _ entries) as [l|] eqn:G; [|discriminate E]. cbn [bind] in E. injection E as <-. exists l. split; [reflexivity|].
  intros i k v N. destruct (each_nth _ _ _ _ _ G i _ N) as (y & F & M). cbn in F. destruct (resolve defs (item_type a) v) as [v'|]; [|discriminate F]. cbn [bind] in F. exists v'. split; [reflexivity|]. congruence.
Qed.
Lemma resolve_items : forall defs a items w, resolve defs a (Items items) = Ok w -> exists items', w = Items items' /\
  forall i v, nth_error items i = Some v -> exists v', resolve defs (item_type a) v = Ok v' /\ nth_error items' i = Some v'.
Proof.
  intros defs a items w E. cbn [resolve] in E. destruct (each _ items) as [l|] eqn:G; [|discriminate E]. cbn [bind] in E. injection E as <-. exists l. split; [reflexivity|].
  intros i v N. destruct (each_nth _ _ _ _ _ G i _ N) as (y & F & M). exists y. auto.
Qed.
Lemma resolve_at : forall defs a v p b x, typed a v p b x -> forall w, resolve defs a v = Ok w -> exists y, resolve defs b x = Ok y /\ placed w p y.
Proof.
  intros defs a v p b x T. induction T as [a v|a fields i n fa v p b x N T IH|a c entries i k v p b x C N T IH|a c items i v p b x C N T IH]; intros w E.
  - exists w. split; [exact E|constructor].
  - apply resolve_model in E as (l & -> & H). destruct (H i n fa v N) as (v' & R & M). destruct (IH v' R) as (y & Y & Q). exists y. split; [exact Y|]. econstructor; eassumption.
  - apply resolve_dict in E as (l & -> & H). destruct (H i k v N) as (v' & R & M). rewrite (contains_item_type a c C) in R. destruct (IH v' R) as (y & Y & Q). exists y. split; [exact Y|]. econstructor; eassumption.
  - apply resolve_items in E as (l & -> & H). destruct (H i v N) as (v' & R & M). rewrite (contains_item_type a c C) in R. destruct (IH v' R) as (y & Y & Q). exists y. split; [exact Y|]. econstructor; eassumption.
Qed.

Lemma references_replaced : forall m defs w p s, resolve_definitions m defs = Ok w -> refers m p s -> exists d, defines defs s d /\ placed w p d.
Proof.
  intros m defs w p s E (b & T & B). destruct (resolve_at defs Plain (Model m) p b (Text s) T w E) as (y & Y & P). cbn [resolve] in Y. apply may_refer_iff in B. rewrite B in Y. pose proof (lookup_spec defs s) as L. rewrite Y in L. exists y. auto.
Qed.
Lemma rest_unchanged : forall m defs w p b x, resolve_definitions m defs = Ok w -> typed Plain (Model m) p b x -> simple x -> ~ (may_refer b /\ exists s, x = Text s) -> placed w p x.
Proof.
  intros m defs w p b x E T S N. destruct (resolve_at defs Plain (Model m) p b x T w E) as (y & Y & P). destruct x; cbn [resolve simple] in *; try contradiction; try (injection Y as <-; exact P).
  destruct (is_reference_union b) eqn:U; [|injection Y as <-; exact P]. exfalso. apply N. apply may_refer_iff in U. split; [exact U|exists s; reflexivity].
Qed.

(** errors *)
Lemma resolve_err : forall defs v a e, annotated a v -> resolve defs a v = Err e -> e = KeyError /\ exists p b s, typed a v p b (Text s) /\ may_refer b /\ ~ exists d, defines defs s d.
Proof.
  intros defs. induction v as [|s|n|fields IH|entries IH|items IH] using value_induct; intros a e A E; cbn [resolve] in E; try discriminate E.
  - destruct (is_reference_union a) eqn:U; [|discriminate E]. pose proof (lookup_spec defs s) as L. rewrite E in L. destruct L as [-> L]. split; [reflexivity|]. exists [], a, s. split; [constructor|]. split; [apply may_refer_iff; exact U|exact L].
  - destruct (each _ fields) as [l|e'] eqn:G; [discriminate E|]. cbn [bind] in E. injection E as <-. apply each_err in G as (i & [[n fa] v] & N & F). cbn in F. destruct (resolve defs fa v) as [w|e''] eqn:R; [discriminate F|]. cbn [bind] in F. injection F as <-.
    pose proof (nth_error_In _ _ N) as I. inversion A as [? ? S|? ? H| | ]; subst; [destruct S|]. destruct (IH n fa v I fa e'' (H n fa v I) R) as (K & p & b & s & T & B & D). split; [exact K|]. exists (i :: p), b, s. split; [econstructor; eassumption|auto].
  - destruct (each _ entries) as [l|e'] eqn:G; [discriminate E|]. cbn [bind] in E. injection E as <-. apply each_err in G as (i & [k v] & N & F). cbn in F. destruct (resolve defs (item_type a) v) as [w|e''] eqn:R; [discriminate F|]. cbn [bind] in F. injection F as <-.
    pose proof (nth_error_In _ _ N) as I. inversion A as [? ? S| |? c ? C H| ]; subst; [destruct S|]. rewrite (contains_item_type a c C) in R. destruct (IH k v I c e'' (H k v I) R) as (K & p & b & s & T & B & D). split; [exact K|]. exists (i :: p), b, s. split; [econstructor; eassumption|auto].
  - destruct (each _ items) as [l|e'] eqn:G; [discriminate E|]. cbn [bind] in E. injection E as <-. apply each_err in G as (i & v & N & F).
    pose proof (nth_error_In _ _ N) as I. inversion A as [? ? S| | |? c ? C H]; subst; [destruct S|]. rewrite (contains_item_type a c C) in F. destruct (IH v I c e' (H v I) F) as (K & p & b & s & T & B & D). split; [exact K|]. exists (i :: p), b, s. split; [econstructor; eassumption|auto].
Qed.
Lemma resolve_key_error : forall defs v a e, resolve defs a v = Err e -> e = KeyError.
Proof.
  intros defs. induction v as [|s|n|fields IH|entries IH|items IH] using value_induct; intros a e E; cbn [resolve] in E; try discriminate E.
  - destruct (is_reference_union a); [|discriminate E]. pose proof (lookup_spec defs s) as L. rewrite E in L. apply L.
  - destruct (each _ fields) as [l|e'] eqn:G; [discriminate E|]. cbn [bind] in E. injection E as <-. apply each_err in G as (i & [[n fa] v] & N & F). cbn in F. destruct (resolve defs fa v) as [w|e''] eqn:R; [discriminate F|]. cbn [bind] in F. injection F as <-. exact (IH n fa v (nth_error_In _ _ N) fa e'' R).
  - destruct (each _ entries) as [l|e'] eqn:G; [discriminate E|]. cbn [bind] in E. injection E as <-. apply each_err in G as (i & [k v] & N & F). cbn in F. destruct (resolve defs (item_type a) v) as [w|e''] eqn:R; [discriminate F|]. cbn [bind] in F. injection F as <-. exact (IH k v (nth_error_In _ _ N) _ e'' R).
  - destruct (each _ items) as [l|e'] eqn:G; [discriminate E|]. cbn [bind] in E. injection E as <-. apply each_err in G as (i & v & N & F). exact (IH v (nth_error_In _ _ N) _ e' F).
Qed.
Lemma unknown_references : forall m defs, annotated Plain (Model m) ->
  (resolve_definitions m defs = Err KeyError <-> exists p s, refers m p s /\ ~ exists d, defines defs s d) /\
  ((exists w, resolve_definitions m defs = Ok w) <-> forall p s, refers m p s -> exists d, defines defs s d).
Proof.
  intros m defs A. split; split.
  - intros E. destruct (resolve_err defs (Model m) Plain KeyError A E) as (_ & p & b & s & T & B & D). exists p, s. split; [exists b; auto|exact D].
  - intros (p & s & R & D). destruct (resolve_definitions m defs) as [w|e] eqn:E; [|f_equal; exact (resolve_key_error defs (Model m) Plain e E)]. destruct (references_replaced m defs w p s E R) as (d & X & _). destruct D. exists d. exact X.
  - intros (w & E) p s R. destruct (references_replaced m defs w p s E R) as (d & X & _). exists d. exact X.
  - intros H. destruct (resolve_definitions m defs) as [w|e] eqn:E; [exists w; reflexivity|]. destruct (resolve_err defs (Model m) Plain e A E) as (_ & p & b & s & T & B & D). destruct D. apply (H p s). exists b. auto.
Qed.
(** nothing to do *)
Lemma resolve_same : forall defs v a, annotated a v -> (forall p b s, typed a v p b (Text s) -> ~ may_refer b) -> resolve defs a v = Ok v.
Proof.
  intros defs. induction v as [|s|n|fields IH|entries IH|items IH] using value_induct; intros a A H; cbn [resolve]; try reflexivity.
  - destruct (is_reference_union a) eqn:U; [|reflexivity]. apply may_refer_iff in U. destruct (H [] a s (typed_here _ _) U).
  - rewrite each_same; [reflexivity|]. intros [[n fa] v] I. inversion A as [? ? S|? ? X| | ]; subst; [destruct S|]. destruct (In_nth_error _ _ I) as (i & N). rewrite (IH n fa v I fa (X n fa v I)); [reflexivity|]. intros p b s T. apply (H (i :: p) b s). econstructor; eassumption.
  - rewrite each_same; [reflexivity|]. intros [k v] I. inversion A as [? ? S| |? c ? C X| ]; subst; [destruct S|]. destruct (In_nth_error _ _ I) as (i & N). rewrite (contains_item_type a c C), (IH k v I c (X k v I)); [reflexivity|]. intros p b s T. apply (H (i :: p) b s). econstructor; eassumption.
  - rewrite each_same; [reflexivity|]. intros v I. inversion A as [? ? S| | |? c ? C X]; subst; [destruct S|]. destruct (In_nth_error _ _ I) as (i & N). rewrite (contains_item_type a c C), (IH v I c (X v I)); [reflexivity|]. intros p b s T. apply (H (i :: p) b s). econstructor; eassumption.
Qed.
Lemma no_references : forall m defs, annotated Plain (Model m) -> (forall p s, ~ refers m p s) -> resolve_definitions m defs = Ok (Model m).
Proof. intros m defs A H. apply resolve_same; [exact A|]. intros p b s T B. apply (H p s). exists b. auto. Qed.

(** what is left *)
Lemma optional_refuted : exists m defs w b s, resolve_definitions m defs = Ok w /\
  nth_error m 0 = Some ("targets"%string, Union [Collection [b]; Plain], Items [Text s]) /\ may_refer b /\ (exists d, defines defs s d) /\ placed w [0; 0]%nat (Text s).
Proof.
  exists [("targets"%string, Union [Collection [Union [Plain; Reference]]; Plain], Items [Text "pump"])], [("pump"%string, Other 1)].
  eexists. exists (Union [Plain; Reference]), "pump"%string. split; [reflexivity|]. split; [reflexivity|]. split; [eexists; split; [reflexivity|right; left; reflexivity]|].
  split; [exists (Other 1), [], []; split; [reflexivity|intros []]|]. eapply placed_field; [reflexivity|]. eapply placed_item; [reflexivity|constructor].
Qed.
Lemma nested_refuted : exists m defs w p s, resolve_definitions m defs = Ok w /\ (exists d, defines defs s d) /\
  (exists fields b n, placed w p (Model fields) /\ In (n, b, Text s) fields /\ may_refer b).
Proof.
  exists [("unit"%string, Union [Plain; Reference], Text "train")], [("train"%string, Model [("chart"%string, Union [Plain; Reference], Text "chart")]); ("chart"%string, Other 1)].
  eexists. exists [0%nat], "chart"%string. split; [reflexivity|]. split.
  - exists (Other 1), [("train"%string, Model [("chart"%string, Union [Plain; Reference], Text "chart")])], []. split; [reflexivity|]. intros [E|[]]. discriminate E.
  - eexists _, (Union [Plain; Reference]), "chart"%string. split; [eapply placed_field; [reflexivity|constructor]|]. split; [left; reflexivity|]. eexists. split; [reflexivity|]. right. left. reflexivity.
Qed.

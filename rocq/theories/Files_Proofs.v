(** Charts from files: names but for their case, and columns. *)
From Coq Require Import PeanoNat String Ascii Lia.
From Verif Require Import QcTac Base BaseLemmas Input_Model Chart_Model Files_Model Files_Spec.
Local Open Scope list_scope.
Local Open Scope Qc_scope.

Lemma lower_code : forall c, nat_of_ascii (lower_ascii c) = (if Nat.leb 65 (nat_of_ascii c) && Nat.leb (nat_of_ascii c) 90 then nat_of_ascii c + 32 else nat_of_ascii c)%nat.
Proof.
  intros c. unfold lower_ascii. destruct (Nat.leb 65 (nat_of_ascii c) && Nat.leb (nat_of_ascii c) 90) eqn:E; [|reflexivity].
  apply andb_true_iff in E as [A B]. apply Nat.leb_le in A, B. apply nat_ascii_embedding. lia.
Qed.
Lemma ascii_code : forall c d, nat_of_ascii c = nat_of_ascii d -> c = d.
Proof. intros c d E. rewrite <- (ascii_nat_embedding c), <- (ascii_nat_embedding d), E. reflexivity. Qed.
Lemma lower_letter : forall c d, lower_ascii c = lower_ascii d <-> same_letter c d.
Proof.
  intros c d. unfold same_letter, capital_of. pose proof (lower_code c) as C. pose proof (lower_code d) as D.
  split.
  - intros E. rewrite E, D in C. clear D E.
    destruct (Nat.leb 65 (nat_of_ascii c) && Nat.leb (nat_of_ascii c) 90) eqn:E1; destruct (Nat.leb 65 (nat_of_ascii d) && Nat.leb (nat_of_ascii d) 90) eqn:E2.
    + left. apply ascii_code. lia.
    + right. left. apply andb_true_iff in E1 as [A B]. apply Nat.leb_le in A, B. lia.
    + right. right. apply andb_true_iff in E2 as [A B]. apply Nat.leb_le in A, B. lia.
    + left. apply ascii_code. lia.
  - intros E. apply ascii_code. rewrite C, D. clear C D. destruct E as [<-|[[A B]|[A B]]]; [reflexivity| |].
    + destruct (Nat.leb_spec 65 (nat_of_ascii c)); destruct (Nat.leb_spec (nat_of_ascii c) 90); destruct (Nat.leb_spec 65 (nat_of_ascii d)); destruct (Nat.leb_spec (nat_of_ascii d) 90); cbn [andb]; lia.
    + destruct (Nat.leb_spec 65 (nat_of_ascii c)); destruct (Nat.leb_spec (nat_of_ascii c) 90); destruct (Nat.leb_spec 65 (nat_of_ascii d)); destruct (Nat.leb_spec (nat_of_ascii d) 90); cbn [andb]; lia.
Qed.
Lemma lower_alike : forall s t, lower s = lower t <-> alike s t.
Proof.
  induction s as [|c s IH]; intros [|d t]; cbn [lower]; split; intros E; try discriminate E; try (inversion E; fail).
  - constructor.
  - reflexivity.
  - injection E as A B. constructor; [apply lower_letter; exact A|apply IH; exact B].
  - inversion E as [|? ? ? ? A B]. subst. f_equal; [apply lower_letter; exact A|apply IH; exact B].
Qed.
Lemma alike_refl : forall s, alike s s.
Proof. intros s. apply lower_alike. reflexivity. Qed.

(** columns *)
Lemma cells_numbers : forall (cells : list (option Qc)) (values : list Qc), mapM (of_option ValidationError) cells = Ok values <-> cells = map Some values.
Proof.
  induction cells as [|[x|] cells IH]; intros values; cbn [mapM of_option].
  - split; intros E; [injection E as <-; reflexivity|destruct values; [reflexivity|discriminate E]].
  - cbn [Base.bind]. split.
    + intros E. destruct (mapM (of_option ValidationError) cells) as [v|] eqn:V; [|discriminate E]. injection E as <-. cbn. f_equal. apply IH. reflexivity.
    + intros E. destruct values as [|y values]; [discriminate E|]. injection E as -> E. apply IH in E. rewrite E. reflexivity.
  - cbn [Base.bind]. split; [discriminate|]. intros E. destruct values; discriminate E.
Qed.
Lemma first_alike : forall name hs i, index_of String.eqb (lower name) (map lower hs) = Some i <->
  exists h, nth_error hs i = Some h /\ alike h name /\ forall j g, (j < i)%nat -> nth_error hs j = Some g -> ~ alike g name.
Proof.
  intros name. induction hs as [|h hs IH]; intros i; cbn [map index_of].
  - split; [discriminate|]. intros (h & E & _). destruct i; discriminate E.
  - destruct (String.eqb (lower name) (lower h)) eqn:E.
    + apply String.eqb_eq in E. split.
      * intros X. injection X as <-. exists h. split; [reflexivity|]. split; [apply lower_alike; auto|]. intros j g L. lia.
      * intros (g & A & B & C). destruct i as [|i]; [reflexivity|]. exfalso. apply (C 0%nat h); [lia|reflexivity|]. apply lower_alike. auto.
    + apply String.eqb_neq in E. split.
      * intros X. destruct (index_of String.eqb (lower name) (map lower hs)) as [k|] eqn:K; [|discriminate X]. cbn in X. injection X as <-.
        destruct (proj1 (IH k) eq_refl) as (g & A & B & C). exists g. split; [exact A|]. split; [exact B|].
        intros [|j] g' L N; cbn in N; [injection N as <-; intros W; apply lower_alike in W; congruence|apply (C j); [lia|exact N]].
      * intros (g & A & B & C). destruct i as [|i]; [cbn in A; injection A as <-; apply lower_alike in B; congruence|].
        rewrite (proj2 (IH i)); [reflexivity|]. exists g. split; [exact A|]. split; [exact B|]. intros j g' L N. apply (C (S j) g'); [lia|exact N].
Qed.
Lemma no_alike : forall name hs, index_of String.eqb (lower name) (map lower hs) = None <-> ~ exists h, In h hs /\ alike h name.
Proof.
  intros name hs. split.
  - intros E (h & I & A). apply lower_alike in A. apply index_of_None in E; [|intros a b; apply String.eqb_eq]. apply E. rewrite <- A. apply in_map. exact I.
  - intros N. destruct (index_of String.eqb (lower name) (map lower hs)) as [i|] eqn:E; [|reflexivity]. exfalso. apply N.
    apply first_alike in E as (h & A & B & _). exists h. split; [exact (nth_error_In _ _ A)|exact B].
Qed.
Lemma float_column : forall f name values, get_float_column f name = Ok values <-> column_is f name values.
Proof.
  intros f name values. unfold get_float_column, file_column, column_is. split.
  - intros E. destruct (index_of String.eqb (lower name) (map lower (f_headers f))) as [i|] eqn:I; [|discriminate E].
    destruct (nth_error (f_columns f) i) as [cells|] eqn:N; [|discriminate E]. cbn [of_option Base.bind] in E. apply cells_numbers in E. subst cells.
    apply first_alike in I as (h & A & B & C). exists i, h. auto.
  - intros (i & h & A & B & C & N). rewrite (proj2 (first_alike name (f_headers f) i)) by (exists h; auto). rewrite N. cbn [of_option Base.bind].
    apply cells_numbers. reflexivity.
Qed.
Lemma column_unique : forall f name v w, column_is f name v -> column_is f name w -> v = w.
Proof. intros f name v w A B. apply float_column in A, B. congruence. Qed.
Lemma float_column_missing : forall f name, get_float_column f name = Err KeyError <-> ~ has_header f name.
Proof.
  intros f name. unfold has_header. rewrite <- no_alike. unfold get_float_column, file_column.
  destruct (index_of String.eqb (lower name) (map lower (f_headers f))) as [i|] eqn:I; [|cbn; tauto]. split; [|discriminate].
  destruct (nth_error (f_columns f) i) as [cells|]; cbn [of_option Base.bind]; [|discriminate].
  intros E. exfalso. revert E. clear. induction cells as [|[x|] r IH]; cbn [mapM of_option Base.bind]; try discriminate.
  destruct (mapM (of_option ValidationError) r) as [v|e] eqn:M; cbn [Base.bind]; [discriminate|]. intros E. injection E as ->. apply IH. reflexivity.
Qed.
Lemma column_length : forall f, proper_file f -> exists n, (0 < n)%nat /\ forall name v, column_is f name v -> List.length v = n.
Proof.
  intros f [_ _ (n & P & L)]. exists n. split; [exact P|]. intros name v (i & h & _ & _ & _ & N). apply nth_error_In, L in N. rewrite map_length in N. exact N.
Qed.
Lemma column_same : forall f h name v, alike h name -> column_is f h v -> column_is f name v.
Proof.
  intros f h name v A C. apply float_column in C. apply float_column. apply lower_alike in A. unfold get_float_column, file_column in *. rewrite <- A. exact C.
Qed.

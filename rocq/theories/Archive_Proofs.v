(** Files of a model: strings, paths and extensions. *)
From Coq Require Import PeanoNat String Ascii Lia.
From Verif Require Import Base BaseLemmas Input_Model Files_Spec Files_Proofs Archive_Model Archive_Spec.
Local Open Scope list_scope.

Lemma app_assoc_s : forall a b c : string, ((a ++ b) ++ c = a ++ (b ++ c))%string.
Proof. induction a as [|x a IH]; intros b c; [reflexivity|]. cbn. f_equal. apply IH. Qed.
Lemma app_nil_s : forall a : string, (a ++ "" = a)%string.
Proof. induction a as [|x a IH]; [reflexivity|]. cbn. f_equal. exact IH. Qed.
Lemma app_length_s : forall a b : string, String.length (a ++ b) = (String.length a + String.length b)%nat.
Proof. induction a as [|x a IH]; intros b; [reflexivity|]. cbn. f_equal. apply IH. Qed.
Lemma chars_app : forall a b : string, list_ascii_of_string (a ++ b) = list_ascii_of_string a ++ list_ascii_of_string b.
Proof. induction a as [|x a IH]; intros b; [reflexivity|]. cbn. f_equal. apply IH. Qed.
Lemma app_inv_s : forall a b c : string, (a ++ b = a ++ c)%string -> b = c.
Proof. induction a as [|x a IH]; intros b c E; [exact E|]. cbn in E. injection E as E. apply IH. exact E. Qed.
Lemma without_cons : forall c x s, without c (String x s) <-> x <> c /\ without c s.
Proof. intros c x s. unfold without. cbn. tauto. Qed.
Lemma without_app : forall c a b, without c (a ++ b) <-> without c a /\ without c b.
Proof. intros c a b. unfold without. rewrite chars_app, in_app_iff. tauto. Qed.

Lemma prefix_iff : forall p s, String.prefix p s = true <-> exists r, s = (p ++ r)%string.
Proof.
  induction p as [|x p IH]; intros s.
  - cbn. split; [intros _; exists s; reflexivity|]. intros _. destruct s; reflexivity.
  - destruct s as [|y s]; cbn.
    + split; [discriminate|]. intros [r E]. discriminate E.
    + destruct (ascii_dec x y) as [<-|N].
      * rewrite IH. split; intros [r E]; exists r; [rewrite E; reflexivity|injection E as E; exact E].
      * split; [discriminate|]. intros [r E]. injection E as E _. congruence.
Qed.
Lemma contains_iff : forall t s, contains t s = true <-> occurs t s.
Proof.
  intros t. unfold occurs. induction s as [|x s IH]; cbn [contains]; rewrite orb_true_iff, prefix_iff.
  - split.
    + intros [[r E]|E]; [|discriminate E]. exists ""%string, r. exact E.
    + intros (a & b & E). left. destruct a; [exists b; exact E|discriminate E].
  - rewrite IH. split.
    + intros [[r E]|(a & b & E)]; [exists ""%string, r; exact E|]. exists (String x a), b. rewrite E. reflexivity.
    + intros (a & b & E). destruct a as [|y a]; [left; exists b; exact E|]. injection E as -> E. right. exists a, b. exact E.
Qed.

(** ** split and join *)
Lemma split_ne : forall c s, split_at c s <> [].
Proof. intros c s. destruct s as [|x s]; cbn; [discriminate|]. destruct (split_at c s); [discriminate|]. destruct (Ascii.eqb x c); discriminate. Qed.
Lemma split_one : forall c s, without c s -> split_at c s = [s].
Proof.
  intros c. induction s as [|x s IH]; intros W; [reflexivity|]. apply without_cons in W as [A B]. cbn. rewrite (IH B). destruct (Ascii.eqb_spec x c); [congruence|reflexivity].
Qed.
Lemma split_first : forall c s t, without c s -> split_at c (s ++ String c t) = s :: split_at c t.
Proof.
  intros c. induction s as [|x s IH]; intros t W.
  - cbn. rewrite Ascii.eqb_refl. destruct (split_at c t) eqn:E; [destruct (split_ne c t E)|reflexivity].
  - apply without_cons in W as [A B]. cbn. rewrite (IH t B). destruct (Ascii.eqb_spec x c); [congruence|reflexivity].
Qed.
Lemma join_cons : forall sep x y l, join_with sep (x :: y :: l) = (x ++ sep ++ join_with sep (y :: l))%string.
Proof. reflexivity. Qed.
Lemma join_app : forall sep a b, a <> [] -> b <> [] -> join_with sep (a ++ b) = (join_with sep a ++ sep ++ join_with sep b)%string.
Proof.
  intros sep. induction a as [|x a IH]; intros b A B; [congruence|]. destruct a as [|y a].
  - destruct b as [|z b]; [congruence|]. reflexivity.
  - change ((x :: y :: a) ++ b) with (x :: y :: (a ++ b)). rewrite !join_cons. change (y :: a ++ b) with ((y :: a) ++ b). rewrite IH by (try discriminate; exact B). rewrite !app_assoc_s. reflexivity.
Qed.
Lemma join_concat : forall sep l, join_with sep l = String.concat sep l.
Proof. intros sep. induction l as [|x l IH]; [reflexivity|]. destruct l as [|y l]; [reflexivity|]. rewrite join_cons, IH. reflexivity. Qed.
Lemma split_join : forall c l, l <> [] -> (forall x, In x l -> without c x) -> split_at c (join_with (String c "") l) = l.
Proof.
  intros c. induction l as [|x l IH]; intros N W; [congruence|]. destruct l as [|y l].
  - cbn. apply split_one. apply W. left. reflexivity.
  - rewrite join_cons. cbn [append]. rewrite split_first by (apply W; left; reflexivity). f_equal. apply IH; [discriminate|]. intros z I. apply W. right. exact I.
Qed.
Lemma join_split : forall c s, join_with (String c "") (split_at c s) = s.
Proof.
  intros c. induction s as [|x s IH]; [reflexivity|]. cbn [split_at]. destruct (split_at c s) as [|p l] eqn:E; [destruct (split_ne c s E)|]. destruct (Ascii.eqb_spec x c) as [->|N].
  - rewrite join_cons. cbn [append]. rewrite IH. reflexivity.
  - destruct l as [|q l]; [cbn in IH |- *; congruence|]. rewrite join_cons in IH |- *. cbn [append] in IH |- *. congruence.
Qed.
Lemma split_without : forall c s x, In x (split_at c s) -> without c x.
Proof.
  intros c. induction s as [|y s IH]; intros x I.
  - destruct I as [<-|[]]. intros [].
  - cbn [split_at] in I. destruct (split_at c s) as [|p l] eqn:E; [destruct (split_ne c s E)|]. destruct (Ascii.eqb_spec y c) as [->|N].
    + destruct I as [<-|I]; [intros []|apply IH; exact I].
    + destruct I as [<-|I]; [|apply IH; right; exact I]. apply without_cons. split; [exact N|]. apply IH. left. reflexivity.
Qed.

(** ** paths *)
Lemma path_written : forall p, proper_path p -> path_of (written p) = p.
Proof.
  intros p [N P]. unfold path_of, written, slash. change "/"%string with (String "/" ""). rewrite <- join_concat, split_join; [|exact N|intros x I; apply P in I as (_ & _ & _ & W); exact W].
  clear N. induction p as [|x p IH]; [reflexivity|]. cbn [filter]. destruct (P x (or_introl eq_refl)) as (A & B & _).
  destruct (String.eqb_spec x ""); [congruence|]. destruct (String.eqb_spec x "."); [congruence|]. cbn [orb negb]. f_equal. apply IH. intros y I. apply P. right. exact I.
Qed.
Lemma path_str_written : forall p, p <> [] -> path_str p = written p.
Proof. intros p N. unfold path_str, written. destruct p; [congruence|apply join_concat]. Qed.
Lemma path_eqb_spec : forall p q, path_eqb p q = true <-> p = q.
Proof.
  induction p as [|a p IH]; intros [|b q]; cbn; split; intros E; try discriminate E; try reflexivity.
  - apply andb_true_iff in E as [A B]. apply String.eqb_eq in A. apply IH in B. congruence.
  - injection E as -> ->. rewrite String.eqb_refl. apply IH. reflexivity.
Qed.
Lemma path_name_app : forall dirs x, path_name (dirs ++ [x]) = x.
Proof. intros dirs x. unfold path_name. apply last_last. Qed.

(** ** extensions *)
Lemma suffix_name : forall name ext, ext <> ""%string -> without "." ext -> (suffix_of_name name = String "." ext <-> exists stem, stem <> ""%string /\ name = (stem ++ "." ++ ext)%string).
Proof.
  intros name ext E W. unfold suffix_of_name, dot. split.
  - intros S. destruct (rev (split_at "." name)) as [|ending [|z r]] eqn:R; try discriminate S. cbn [tl] in S.
    destruct (String.eqb_spec ending ""); [cbn [orb] in S; discriminate S|]. destruct (String.eqb_spec (join_with "." (rev (z :: r))) "") as [|N]; [cbn [orb] in S; discriminate S|]. cbn [orb] in S. injection S as ->.
    exists (join_with "." (rev (z :: r))). split; [exact N|]. rewrite <- (join_split "." name), <- (rev_involutive (split_at "." name)), R. cbn [rev] in N |- *.
    rewrite join_app; [reflexivity| |discriminate]. intros X. apply app_eq_nil in X as [_ X]. discriminate X.
  - intros (stem & N & ->). cbn [append]. assert (split_at "." (stem ++ String "." ext) = split_at "." stem ++ [ext]) as ->.
    { clear N. rewrite <- (join_split "." stem) at 1. pose proof (split_without "." stem) as Q. pose proof (split_ne "." stem) as Z. remember (split_at "." stem) as l. clear Heql.
      rewrite <- (split_join "." (l ++ [ext])).
      - rewrite join_app by (try exact Z; discriminate). reflexivity.
      - destruct l; discriminate.
      - intros x I. apply in_app_iff in I as [I|[<-|[]]]; [apply Q; exact I|exact W]. }
    rewrite rev_app_distr. change (rev [ext]) with [ext]. cbn [app]. destruct (rev (split_at "." stem)) as [|z r] eqn:R.
    + exfalso. apply (split_ne "." stem). rewrite <- (rev_involutive (split_at "." stem)), R. reflexivity.
    + cbn [tl]. replace (rev (z :: r)) with (split_at "." stem) by (rewrite <- R; symmetry; apply rev_involutive). rewrite join_split.
      destruct (String.eqb_spec ext ""); [congruence|]. destruct (String.eqb_spec stem ""); [congruence|]. reflexivity.
Qed.
Lemma suffix_shape : forall name, suffix_of_name name = ""%string \/ exists ext, suffix_of_name name = String "." ext /\ ext <> ""%string /\ without "." ext.
Proof.
  intros name. unfold suffix_of_name, dot. destruct (rev (split_at "." name)) as [|ending [|z r]] eqn:R; try (left; reflexivity).
  destruct (String.eqb_spec ending ""); [left; reflexivity|]. destruct (String.eqb (join_with "." (rev (z :: r))) ""); cbn [orb]; [left; reflexivity|].
  right. exists ending. split; [reflexivity|]. split; [assumption|]. apply (split_without "." name). apply in_rev. rewrite R. left. reflexivity.
Qed.
Lemma suffix_extension : forall p ext, p <> [] -> ext <> ""%string -> without "." ext -> (suffix p = String "." ext <-> extension p ext).
Proof.
  intros p ext N E W. unfold suffix, extension. destruct (exists_last N) as (dirs & x & ->). rewrite path_name_app. rewrite (suffix_name x ext E W). split.
  - intros (stem & A & ->). exists dirs, stem. auto.
  - intros (dirs' & stem & X & A & _). apply app_inj_tail in X as [_ ->]. exists stem. auto.
Qed.
Lemma no_extension : forall p, p <> [] -> (suffix p = ""%string <-> ~ exists ext, extension p ext).
Proof.
  intros p N. split.
  - intros S (ext & X). pose proof X as (_ & _ & _ & _ & E & W). apply (suffix_extension p ext N E W) in X. congruence.
  - intros H. unfold suffix. destruct (suffix_shape (path_name p)) as [S|(ext & S & E & W)]; [exact S|]. exfalso. apply H. exists ext. apply (suffix_extension p ext N E W). exact S.
Qed.
Lemma extension_unique : forall p a b, extension p a -> extension p b -> a = b.
Proof.
  intros p a b A B. assert (p <> []) as N by (destruct A as (d & s & -> & _); destruct d; discriminate). pose proof A as (_ & _ & _ & _ & EA & WA). pose proof B as (_ & _ & _ & _ & EB & WB).
  apply (suffix_extension p a N EA WA) in A. apply (suffix_extension p b N EB WB) in B. congruence.
Qed.
Lemma model_file_spec : forall p, p <> [] -> (is_csv p || is_yaml p = true <-> model_file p).
Proof.
  intros p N. unfold is_csv, is_yaml, model_file. cbn [existsb]. unfold suffix at 1 2 3. destruct (suffix_shape (path_name p)) as [S|(ext & S & E & W)].
  - rewrite S. split; [discriminate|]. intros (ext & X & _). exfalso. apply (proj1 (no_extension p N) S). exists ext. exact X.
  - rewrite S. pose proof (proj1 (suffix_extension p ext N E W) S) as X. cbn [lower]. change (lower_ascii ".") with "."%char. cbn [String.eqb]. rewrite !Ascii.eqb_refl.
    assert (forall t, String.eqb (lower ext) (lower t) = true <-> alike ext t) as Q by (intros t; rewrite String.eqb_eq; apply lower_alike).
    pose proof (Q "csv"%string) as Q1. pose proof (Q "yml"%string) as Q2. pose proof (Q "yaml"%string) as Q3. change (lower "csv") with "csv"%string in Q1. change (lower "yml") with "yml"%string in Q2. change (lower "yaml") with "yaml"%string in Q3.
    rewrite !orb_true_iff, Q1, Q2, Q3. split.
    + intros H. exists ext. split; [exact X|]. intuition discriminate.
    + intros (t & T & H). rewrite <- (extension_unique p ext t X T) in H. tauto.
Qed.

(** The files that runs write: names. *)
From Coq Require Import PeanoNat String Ascii Lia.
From Verif Require Import Base BaseLemmas Archive_Model Archive_Spec Archive_Proofs Outputs_Model Outputs_Spec.
Local Open Scope list_scope.

Lemma take_app : forall a b : string, substring 0 (String.length a) (a ++ b) = a.
Proof. induction a as [|x a IH]; intros b; cbn; [destruct b; reflexivity|]. f_equal. apply IH. Qed.
Lemma take_all : forall a : string, substring 0 (String.length a) a = a.
Proof. intros a. rewrite <- (app_nil_s a) at 2. apply take_app. Qed.

Lemma bare_stem : forall name, bare name (stem_of_name name).
Proof.
  intros name. unfold bare, stem_of_name. destruct (suffix_shape name) as [S|(ext & S & E & W)].
  - right. rewrite S. cbn [String.length]. rewrite Nat.sub_0_r, take_all. split; [reflexivity|]. intros (t & ext & X & T & E & W).
    assert (suffix_of_name name = String "." ext) as Y by (apply (suffix_name name ext E W); exists t; auto). congruence.
  - left. exists ext. rewrite S. apply (suffix_name name ext E W) in S as (s & N & ->). rewrite app_length_s. cbn [append String.length].
    replace (String.length s + S (String.length ext) - S (String.length ext))%nat with (String.length s) by lia. rewrite take_app. repeat split; auto.
Qed.
Lemma bare_unique : forall name s t, bare name s -> bare name t -> s = t.
Proof.
  intros name s t [(e & X)|[-> X]] [(f & Y)|[-> Y]].
  - destruct X as (X & A & E & W). destruct Y as (Y & B & F & V).
    assert (suffix_of_name name = String "." e) as P by (apply (suffix_name name e E W); exists s; auto).
    assert (suffix_of_name name = String "." f) as Q by (apply (suffix_name name f F V); exists t; auto).
    assert (e = f) as <- by congruence. rewrite X in Y. clear - Y.
    revert t Y. induction s as [|c s IH]; intros [|c' t] Y; [reflexivity| | |].
    + exfalso. apply (f_equal String.length) in Y. rewrite !app_length_s in Y. cbn in Y. lia.
    + exfalso. apply (f_equal String.length) in Y. rewrite !app_length_s in Y. cbn in Y. lia.
    + cbn in Y. injection Y as -> Y. f_equal. apply IH. exact Y.
  - destruct Y. exists s, e. exact X.
  - destruct X. exists t, f. exact Y.
  - reflexivity.
Qed.
Lemma bare_eq : forall name s, bare name s -> s = stem_of_name name.
Proof. intros name s B. exact (bare_unique name s _ B (bare_stem name)). Qed.
Lemma bare_nonempty : forall name s, name <> ""%string -> bare name s -> s <> ""%string.
Proof. intros name s N [(e & _ & A & _)|[-> _]]; auto. Qed.
Lemma bare_rest : forall name s, bare name s -> name = s \/ exists r, name = (s ++ String "." r)%string.
Proof. intros name s [(e & -> & _)|[-> _]]; [right; exists e; reflexivity|left; reflexivity]. Qed.
Lemma bare_undotted : forall name s, without "." name -> bare name s -> s = name.
Proof. intros name s W B. destruct (bare_rest name s B) as [->|(r & ->)]; [reflexivity|]. apply without_app in W as [_ W]. apply without_cons in W as [N _]. congruence. Qed.

Lemma without_slash_bare : forall name s, without "/" name -> bare name s -> without "/" s.
Proof. intros name s W B. destruct (bare_rest name s B) as [->|(r & ->)]; [exact W|]. apply without_app in W. tauto. Qed.

(** two texts with endings *)
Lemma tail_eq : forall (a b u v : string), String.length u = String.length v -> (a ++ u = b ++ v)%string -> a = b /\ u = v.
Proof.
  induction a as [|c a IH]; intros b u v L E.
  - destruct b as [|c b]; [auto|]. exfalso. apply (f_equal String.length) in E. cbn in E. rewrite app_length_s in E. lia.
  - destruct b as [|c' b].
    + exfalso. apply (f_equal String.length) in E. cbn in E. rewrite app_length_s in E. lia.
    + cbn in E. injection E as -> E. apply IH in E as [-> ->]; auto.
Qed.
Lemma without_compute : forall c s, existsb (Ascii.eqb c) (list_ascii_of_string s) = false -> without c s.
Proof. intros c s E X. assert (existsb (Ascii.eqb c) (list_ascii_of_string s) = true) as Y by (apply existsb_exists; exists c; split; [exact X|apply Ascii.eqb_refl]). congruence. Qed.

(** what the paths are *)
Lemma join_plain : forall folder t, t <> ""%string -> t <> "."%string -> without "/" t -> path_join folder t = folder ++ [t].
Proof.
  intros folder t A B W. unfold path_join. destruct t as [|c t]; [congruence|]. pose proof W as W0. apply without_cons in W0 as [N _]. destruct (Ascii.eqb_spec c slash) as [E|_]; [exfalso; apply N; exact E|].
  f_equal. unfold path_of. unfold slash. rewrite (split_one "/" _ W). cbn [filter]. destruct (String.eqb_spec (String c t) ""); [congruence|]. destruct (String.eqb_spec (String c t) "."); [congruence|]. reflexivity.
Qed.
Lemma with_name_app : forall folder x name, with_name (folder ++ [x]) name = Ok (folder ++ [name]).
Proof. intros folder x name. unfold with_name, path_parent. rewrite removelast_last. destruct (folder ++ [x]) eqn:E; [destruct folder; discriminate E|reflexivity]. Qed.
Lemma longer : forall p e : string, (1 < String.length e)%nat -> (p ++ e)%string <> ""%string /\ (p ++ e)%string <> "."%string.
Proof. intros p e L. split; intros E; apply (f_equal String.length) in E; rewrite app_length_s in E; cbn in E; lia. Qed.
Lemma join_longer : forall folder p e, (1 < String.length e)%nat -> without "/" p -> without "/" e -> path_join folder (p ++ e) = folder ++ [(p ++ e)%string].
Proof. intros folder p e L A B. destruct (longer p e L). apply join_plain; auto. apply without_app. auto. Qed.

Definition plain_document (d : document) : Prop := match d with Ltp g | Stp g => without "/" g | _ => True end.
Lemma path_for_named : forall folder prefix d name, proper_part prefix -> plain_document d -> named prefix d name -> path_for folder prefix d = Ok (folder ++ [name]).
Proof.
  intros folder prefix d name (A & B & C & W) P N. unfold path_for, with_suffix. rewrite (join_plain folder prefix A B W), path_name_app.
  destruct N as [|s X|s X| | |s X|g|g]; cbn [plain_document] in P; try (rewrite (bare_eq prefix s X), with_name_app; reflexivity).
  - destruct (String.eqb_spec prefix ""); [congruence|]. rewrite join_longer; [reflexivity|cbn; lia|exact W|apply without_compute; reflexivity].
  - rewrite join_longer; [reflexivity|cbn; lia|exact W|apply without_compute; reflexivity].
  - rewrite join_longer; [reflexivity|cbn; lia|exact W|apply without_compute; reflexivity].
  - rewrite join_longer; [reflexivity| |exact W|].
    + cbn [append String.length]. rewrite app_length_s. cbn. lia.
    + apply without_app. split; [apply without_compute; reflexivity|]. apply without_app. split; [exact P|apply without_compute; reflexivity].
  - rewrite join_longer; [reflexivity| |exact W|].
    + cbn [append String.length]. rewrite app_length_s. cbn. lia.
    + apply without_app. split; [apply without_compute; reflexivity|]. apply without_app. split; [exact P|apply without_compute; reflexivity].
Qed.
Lemma named_some : forall prefix d, exists name, named prefix d name.
Proof.
  intros prefix d. destruct d; eexists; econstructor; apply bare_stem.
Qed.
Lemma named_unique : forall prefix d a b, named prefix d a -> named prefix d b -> a = b.
Proof. intros prefix d a b A B. destruct A; inversion B; subst; try reflexivity; match goal with X : bare ?p ?s, Y : bare ?p ?t |- _ => rewrite (bare_unique p s t X Y); reflexivity end. Qed.

(** different documents have different names *)
Definition last4 (s : string) : list ascii := firstn 4 (rev (list_ascii_of_string s)).
Lemma last_app : forall s e, (4 <= String.length e)%nat -> last4 (s ++ e) = last4 e.
Proof.
  intros s e L. unfold last4. rewrite chars_app, rev_app_distr, firstn_app. rewrite rev_length. replace (4 - length (list_ascii_of_string e))%nat with 0%nat; [cbn; apply app_nil_r|].
  assert (forall t, length (list_ascii_of_string t) = String.length t) as Q by (induction t; cbn; auto). rewrite Q. lia.
Qed.
Definition ending_of (d : document) : string :=
  match d with FlowDiagram | ResultsJson | RunInfoJson | IntensityJson => "json" | ResultsCsv | IntensityCsv => ".csv" | Ltp _ | Stp _ => ".tsv" end.
Lemma named_ending : forall prefix d name, named prefix d name -> last4 name = last4 (ending_of d).
Proof.
  intros prefix d name N. destruct N; cbn [ending_of]; try (rewrite last_app by (cbn; lia); reflexivity).
  - rewrite last_app; [|cbn [append String.length]; rewrite app_length_s; cbn; lia]. change ("." ++ g ++ ".ltp.tsv")%string with (String "." g ++ ".ltp.tsv")%string. rewrite last_app by (cbn; lia). reflexivity.
  - rewrite last_app; [|cbn [append String.length]; rewrite app_length_s; cbn; lia]. change ("." ++ g ++ ".stp.tsv")%string with (String "." g ++ ".stp.tsv")%string. rewrite last_app by (cbn; lia). reflexivity.
Qed.
Lemma named_injective : forall prefix d e name, named prefix d name -> named prefix e name -> d = e.
Proof.
  intros prefix d e name A B. pose proof (named_ending _ _ _ A) as P. rewrite (named_ending _ _ _ B) in P.
  destruct d, e; cbn in P; try discriminate P; try reflexivity; inversion A; inversion B; subst;
  repeat match goal with X : bare ?p ?s, Y : bare ?p ?t |- _ => assert (s = t) as -> by exact (bare_unique p s t X Y); clear X end.
  all: repeat match goal with X : bare ?p ?s |- _ => destruct (bare_rest p s X) as [E|(r & E)]; rewrite E in *; clear X end.
  all: clear A B P; repeat (rewrite app_assoc_s in * ); cbn [append] in *.
  all: try match goal with H : (?a ++ _ = ?a ++ _)%string |- _ => apply app_inv_s in H end.
  all: try discriminate.
  all: try match goal with H : String _ _ = String _ _ |- _ => injection H as H end.
  all: try match goal with H : (?g ++ ?u)%string = (?h ++ ?v)%string |- _ => apply tail_eq in H as [H1 H2]; [try discriminate H2|reflexivity] end.
  all: try congruence.
Qed.

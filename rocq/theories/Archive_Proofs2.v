(** Files of a model: paths relative to the main file, and names. *)
From Coq Require Import PeanoNat String Ascii Lia.
From Verif Require Import Base BaseLemmas Input_Model Files_Spec Files_Proofs Archive_Model Archive_Spec Archive_Proofs.
Local Open Scope list_scope.

(** ** str.replace *)
Lemma remove_skip : forall pattern a b, remove_all pattern (a ++ b) (String.length a) = remove_all pattern b 0.
Proof. intros pattern. induction a as [|x a IH]; intros b; [reflexivity|]. cbn. apply IH. Qed.
Lemma remove_none : forall pattern s, ~ occurs pattern s -> remove_all pattern s 0 = s.
Proof.
  intros pattern. induction s as [|x s IH]; intros H; [reflexivity|]. cbn [remove_all]. destruct pattern as [|y p]; [reflexivity|].
  destruct (String.prefix (String y p) (String x s)) eqn:P.
  - exfalso. apply H. apply prefix_iff in P as [r E]. exists ""%string, r. exact E.
  - f_equal. apply IH. intros (a & b & E). apply H. exists (String x a), b. rewrite E. reflexivity.
Qed.
Lemma remove_start : forall pattern r, (forall before after, (pattern ++ r = before ++ pattern ++ after)%string -> before = ""%string) -> remove_all pattern (pattern ++ r) 0 = r.
Proof.
  intros [|x p] r H; [cbn; destruct r; reflexivity|]. change (String x p ++ r)%string with (String x (p ++ r)). cbn [remove_all].
  assert (String.prefix (String x p) (String x (p ++ r)) = true) as -> by (apply prefix_iff; exists r; reflexivity). rewrite remove_skip. apply remove_none. intros (a & b & E).
  assert (String x p ++ a = "")%string as X by (apply (H _ b); rewrite E, app_assoc_s; reflexivity). discriminate X.
Qed.

(** ** Relative paths *)
Lemma written_app : forall a b, a <> [] -> b <> [] -> written (a ++ b) = (written a ++ "/" ++ written b)%string.
Proof. intros a b A B. unfold written. rewrite <- !join_concat. apply join_app; assumption. Qed.
Lemma written_cons : forall x b, b <> [] -> written (x :: b) = (x ++ "/" ++ written b)%string.
Proof. intros x b B. apply (written_app [x] b); [discriminate|exact B]. Qed.
Lemma common_spec : forall d x y m f, x <> y -> common_path (d ++ y :: f) (d ++ x :: m) = match d with [] => ""%string | _ => (written d ++ "/")%string end.
Proof.
  induction d as [|a d IH]; intros x y m f N; cbn [app common_path].
  - destruct (String.eqb_spec y x); [congruence|reflexivity].
  - rewrite String.eqb_refl, (IH x y m f N). destruct d as [|b d]; [reflexivity|]. rewrite (written_cons a (b :: d)) by discriminate. rewrite !app_assoc_s. reflexivity.
Qed.
Lemma strip_spec : forall d y f, (d = [] \/ only_at_start d (d ++ y :: f)) -> strip_common_path (match d with [] => ""%string | _ => (written d ++ "/")%string end) (path_str (d ++ y :: f)) = written (y :: f).
Proof.
  intros d y f H. rewrite path_str_written by (destruct d; discriminate). unfold strip_common_path. destruct d as [|a d].
  - cbn [app]. destruct (written (y :: f)); reflexivity.
  - destruct H as [H|H]; [discriminate H|]. unfold only_at_start in H. remember (a :: d) as ad. rewrite written_app in H |- * by (subst; discriminate). rewrite <- app_assoc_s in H |- *. apply remove_start. exact H.
Qed.
Lemma ups_spec : forall parts linked, (forall p, In p parts -> proper_part p) ->
  fold_left (fun acc part => if negb (String.eqb part "") && negb (String.eqb part "/") then ("../" ++ acc)%string else acc) parts (written linked) = written (repeat ".."%string (List.length parts) ++ linked) \/ linked = [].
Proof.
  induction parts as [|p parts IH]; intros linked P; [left; reflexivity|]. destruct linked as [|y f]; [right; reflexivity|]. left. cbn [fold_left].
  destruct (P p (or_introl eq_refl)) as (A & _ & _ & W). destruct (String.eqb_spec p ""); [congruence|]. destruct (String.eqb_spec p "/") as [->|_]; [exfalso; apply W; left; reflexivity|]. cbn [negb andb].
  change ("../" ++ written (y :: f))%string with (".." ++ "/" ++ written (y :: f))%string. rewrite <- (written_cons ".." (y :: f)) by discriminate.
  destruct (IH (".."%string :: y :: f)) as [E|E]; [intros q I; apply P; right; exact I| |discriminate E]. rewrite E. f_equal. cbn [List.length repeat app].
  clear. induction (List.length parts) as [|n IH]; [reflexivity|]. cbn [repeat app]. f_equal. exact IH.
Qed.
Lemma removelast_length : forall {A} (x : A) l, List.length (removelast (x :: l)) = List.length l.
Proof. intros A x l. revert x. induction l as [|y l IH]; intros x; [reflexivity|]. change (removelast (x :: y :: l)) with (x :: removelast (y :: l)). cbn [List.length]. rewrite IH. reflexivity. Qed.
Lemma removelast_in : forall {A} (l : list A) x, In x (removelast l) -> In x l.
Proof. induction l as [|y l IH]; intros x I; [destruct I|]. destruct l as [|z l]; [destruct I|]. change (removelast (y :: z :: l)) with (y :: removelast (z :: l)) in I. destruct I as [->|I]; [left; reflexivity|right; apply IH; exact I]. Qed.

Lemma relative_text : forall d x y m f (main file : valid_file), parting d x y m f (v_path main) (v_path file) -> proper_path (v_path main) ->
  (d = [] \/ only_at_start d (v_path main) /\ only_at_start d (v_path file)) ->
  relative_path main file = written (repeat ".."%string (List.length m) ++ y :: f).
Proof.
  intros d x y m f main file (E1 & E2 & N) P S. unfold relative_path. rewrite E1 in *. rewrite E2 in *.
  destruct (path_eqb (d ++ y :: f) (d ++ x :: m)) eqn:Q.
  { apply path_eqb_spec in Q. apply app_inv_head in Q. congruence. }
  rewrite (common_spec d x y m f N). cbv zeta. rewrite !strip_spec by (destruct S as [S|[A B]]; [left; exact S|right; assumption]). unfold make_relative_path. destruct P as [_ P].
  rewrite path_written by (split; [discriminate|intros q I; apply P, in_app_iff; right; exact I]).
  destruct (ups_spec (removelast (x :: m)) (y :: f)) as [->|X]; [|rewrite removelast_length; reflexivity|discriminate X].
  intros q I. apply P, in_app_iff. right. apply removelast_in. exact I.
Qed.
Lemma leads_downs : forall f d, (forall q, In q f -> q <> ".."%string) -> leads d f (d ++ f).
Proof.
  induction f as [|y f IH]; intros d P; [rewrite app_nil_r; constructor|]. apply leads_down; [apply P; left; reflexivity|]. replace (d ++ y :: f) with ((d ++ [y]) ++ f) by (rewrite <- app_assoc; reflexivity). apply IH. intros q I. apply P. right. exact I.
Qed.
Lemma leads_ups : forall q d steps target, leads d steps target -> leads (d ++ q) (repeat ".."%string (List.length q) ++ steps) target.
Proof.
  intros q. induction q as [|a q IH] using rev_ind; intros d steps target L; [rewrite app_nil_r; exact L|]. rewrite app_length, Nat.add_comm. cbn [List.length Nat.add repeat app]. rewrite app_assoc. apply leads_up. apply IH. exact L.
Qed.
Lemma relative_leads : forall d x y m f main file, parting d x y m f main file -> proper_path file -> leads (removelast main) (repeat ".."%string (List.length m) ++ y :: f) file.
Proof.
  intros d x y m f main file (E1 & E2 & N) [_ P]. subst main file. rewrite removelast_app by discriminate. rewrite <- (removelast_length x m). apply leads_ups. apply leads_downs. intros q I. apply (P q). apply in_app_iff. right. exact I.
Qed.
Lemma leads_fun : forall dir steps a b, leads dir steps a -> leads dir steps b -> a = b.
Proof.
  intros dir steps a b L. revert b. induction L as [dir|dir x steps t L IH|dir x steps t N L IH]; intros b M.
  - inversion M; reflexivity.
  - inversion M; subst.
    + match goal with H : _ ++ _ = _ ++ _ |- _ => apply app_inj_tail in H as [-> _] end. apply IH. assumption.
    + congruence.
  - inversion M; subst; [congruence|]. apply IH. assumption.
Qed.
Lemma written_inj : forall a b, (forall x, In x a -> without "/" x) -> (forall x, In x b -> without "/" x) -> a <> [] -> b <> [] -> written a = written b -> a = b.
Proof.
  intros a b A B NA NB E. unfold written in E. change "/"%string with (String "/" "") in E. rewrite <- !join_concat in E. rewrite <- (split_join "/" a NA A), <- (split_join "/" b NB B), E. reflexivity.
Qed.

(** ** The table of all files *)
Lemma dict_set_fresh : forall {V} (k : list string) (v : V) d, ~ In k (map fst d) -> dict_set path_eqb k v d = d ++ [(k, v)].
Proof.
  intros V k v. induction d as [|[a w] d IH]; intros N; [reflexivity|]. cbn [dict_set]. destruct (path_eqb k a) eqn:E.
  - apply path_eqb_spec in E. exfalso. apply N. left. symmetry. exact E.
  - cbn [app]. f_equal. apply IH. intros I. apply N. right. exact I.
Qed.
Lemma table_spec : forall {F} (k : F -> list string) (v : F -> string) fs, NoDup (map k fs) -> fold_left (fun d f => dict_set path_eqb (k f) (v f) d) fs [] = map (fun f => (k f, v f)) fs.
Proof.
  intros F k v fs N. change (map (fun f => (k f, v f)) fs) with ([] ++ map (fun f => (k f, v f)) fs).
  assert (forall f, In f fs -> ~ In (k f) (map fst (@nil (list string * string)))) as D by (intros f _ []).
  revert N D. generalize (@nil (list string * string)). induction fs as [|f fs IH]; intros d N D; cbn [fold_left map]; [symmetry; apply app_nil_r|].
  cbn in N. inversion N as [|? ? A B]; subst. rewrite dict_set_fresh by (apply D; left; reflexivity). rewrite IH; [rewrite <- app_assoc; reflexivity|exact B|].
  intros g I. rewrite map_app, in_app_iff. intros [X|[X|[]]]; [exact (D g (or_intror I) X)|]. apply A. change (k f = k g) in X. rewrite X. apply in_map. exact I.
Qed.

(** ** C133 *)
Lemma relative_proof : forall (fs : list valid_file) (main file : valid_file) d x y m f, NoDup (map v_path fs) -> In file fs ->
  parting d x y m f (v_path main) (v_path file) -> proper_path (v_path main) -> proper_path (v_path file) ->
  (d = [] \/ only_at_start d (v_path main) /\ only_at_start d (v_path file)) ->
  exists steps, In (v_path file, written steps) (make_relative_paths fs main) /\ steps = repeat ".."%string (List.length m) ++ y :: f /\ leads (removelast (v_path main)) steps (v_path file).
Proof.
  intros fs main file d x y m f N I P PM PF S. exists (repeat ".."%string (List.length m) ++ y :: f). split; [|split; [reflexivity|exact (relative_leads d x y m f _ _ P PF)]].
  unfold make_relative_paths. rewrite table_spec by exact N. rewrite <- (relative_text d x y m f main file P PM S). apply (in_map (fun g => (v_path g, relative_path main g))). exact I.
Qed.
Lemma relative_each : forall (fs : list valid_file) (main : valid_file), NoDup (map v_path fs) -> map fst (make_relative_paths fs main) = map v_path fs.
Proof. intros fs main N. unfold make_relative_paths. rewrite table_spec by exact N. rewrite map_map. reflexivity. Qed.
Lemma relative_main : forall (fs : list valid_file) (main : valid_file), NoDup (map v_path fs) -> In main fs -> In (v_path main, v_name main) (make_relative_paths fs main).
Proof.
  intros fs main N I. unfold make_relative_paths. rewrite table_spec by exact N. assert (relative_path main main = v_name main) as E.
  { unfold relative_path. assert (path_eqb (v_path main) (v_path main) = true) as -> by (apply path_eqb_spec; reflexivity). reflexivity. }
  rewrite <- E. apply (in_map (fun g => (v_path g, relative_path main g))). exact I.
Qed.
Lemma relative_top : forall (fs : list valid_file) (main file : valid_file) x, NoDup (map v_path fs) -> In file fs -> proper_path (v_path main) -> proper_path (v_path file) -> v_path main = [x] -> ~ In x (firstn 1 (v_path file)) ->
  In (v_path file, written (v_path file)) (make_relative_paths fs main).
Proof.
  intros fs main file x N I PM PF E H. destruct (v_path file) as [|y f] eqn:F; [destruct PF as [PF _]; congruence|]. rewrite <- F.
  destruct (relative_proof fs main file [] x y [] f N I) as (steps & A & -> & _); [|exact PM|rewrite F; exact PF|left; reflexivity|].
  - unfold parting. rewrite E, F. repeat split; auto. intros ->. apply H. left. reflexivity.
  - rewrite F. rewrite F in A. exact A.
Qed.
Lemma relative_distinct : forall (main f1 f2 : valid_file) d1 x1 y1 m1 r1 d2 x2 y2 m2 r2,
  parting d1 x1 y1 m1 r1 (v_path main) (v_path f1) -> parting d2 x2 y2 m2 r2 (v_path main) (v_path f2) ->
  proper_path (v_path main) -> proper_path (v_path f1) -> proper_path (v_path f2) ->
  (d1 = [] \/ only_at_start d1 (v_path main) /\ only_at_start d1 (v_path f1)) -> (d2 = [] \/ only_at_start d2 (v_path main) /\ only_at_start d2 (v_path f2)) ->
  relative_path main f1 = relative_path main f2 -> v_path f1 = v_path f2.
Proof.
  intros main f1 f2 d1 x1 y1 m1 r1 d2 x2 y2 m2 r2 P1 P2 PM F1 F2 S1 S2 E. rewrite (relative_text _ _ _ _ _ _ _ P1 PM S1), (relative_text _ _ _ _ _ _ _ P2 PM S2) in E.
  assert (forall d x y m r (g : valid_file), parting d x y m r (v_path main) (v_path g) -> proper_path (v_path g) -> forall q, In q (repeat ".."%string (List.length m) ++ y :: r) -> without "/" q) as W.
  { intros d x y m r g (_ & E2 & _) [_ Q] q I. apply in_app_iff in I as [I|I]; [apply repeat_spec in I as ->; unfold without; cbn; intros [X|[X|[]]]; discriminate X|]. apply Q. rewrite E2. apply in_app_iff. right. exact I. }
  apply written_inj in E.
  - pose proof (relative_leads _ _ _ _ _ _ _ P1 F1) as L1. pose proof (relative_leads _ _ _ _ _ _ _ P2 F2) as L2. rewrite E in L1. exact (leads_fun _ _ _ _ L1 L2).
  - exact (W _ _ _ _ _ f1 P1 F1).
  - exact (W _ _ _ _ _ f2 P2 F2).
  - destruct (repeat ".."%string (List.length m1)); discriminate.
  - destruct (repeat ".."%string (List.length m2)); discriminate.
Qed.

(** ** C134 *)
Lemma replace_id : forall c e s, without c s -> replace_char c e s = s.
Proof. intros c e. induction s as [|x s IH]; intros W; [reflexivity|]. apply without_cons in W as [A B]. cbn. destruct (Ascii.eqb_spec x c); [congruence|]. rewrite IH by exact B. reflexivity. Qed.
Lemma replace_app : forall c e a b, replace_char c e (a ++ b) = (replace_char c e a ++ replace_char c e b)%string.
Proof. intros c e. induction a as [|x a IH]; intros b; [reflexivity|]. cbn. f_equal. apply IH. Qed.
Lemma replace_written : forall p, (forall x, In x p -> without "/" x) -> replace_char "/" "_" (written p) = String.concat "_" p.
Proof.
  induction p as [|x p IH]; intros W; [reflexivity|]. destruct p as [|y p]; [cbn; apply replace_id; apply W; left; reflexivity|].
  rewrite written_cons by discriminate. rewrite replace_app, replace_app. change (replace_char "/" "_" "/") with "_"%string. rewrite IH by (intros z I; apply W; right; exact I). rewrite replace_id by (apply W; left; reflexivity). reflexivity.
Qed.
Lemma replace_length : forall c e s, String.length (replace_char c e s) = String.length s.
Proof. intros c e. induction s as [|x s IH]; [reflexivity|]. cbn. f_equal. exact IH. Qed.
Lemma existsb_str : forall x l, existsb (String.eqb x) l = true <-> In x l.
Proof.
  intros x l. rewrite existsb_exists. split.
  - intros (y & I & E). apply String.eqb_eq in E as ->. exact I.
  - intros I. exists x. split; [exact I|apply String.eqb_refl].
Qed.
Lemma duplicates_from : forall all fs seen name, In name (find_duplicates_from seen fs all) <-> ~ In name seen /\ In name (map v_name fs) /\ (1 < occurrences name all)%nat.
Proof.
  intros all. induction fs as [|f fs IH]; intros seen name; cbn [find_duplicates_from map]; [cbn; tauto|].
  destruct (existsb (String.eqb (v_name f)) seen) eqn:S.
  - apply existsb_str in S. rewrite IH. cbn [In]. split; [tauto|]. intros (A & [B|B] & C); [subst name; tauto|tauto].
  - assert (~ In (v_name f) seen) as S' by (intros X; apply existsb_str in X; congruence). destruct (Nat.ltb_spec 1 (occurrences (v_name f) all)) as [L|L].
    + cbn [In]. rewrite IH. cbn [In]. destruct (string_dec (v_name f) name) as [<-|D]; [tauto|tauto].
    + rewrite IH. cbn [In]. destruct (string_dec (v_name f) name) as [<-|D]; [split; [tauto|intros (_ & _ & X); lia]|tauto].
Qed.
Lemma duplicates_spec : forall fs f, In f fs -> NoDup (map v_path fs) ->
  (existsb (String.eqb (v_name f)) (find_duplicates fs) = true <-> exists g, In g fs /\ v_path g <> v_path f /\ v_name g = v_name f).
Proof.
  intros fs f I N. rewrite existsb_str. unfold find_duplicates. rewrite duplicates_from. unfold occurrences. split.
  - intros (_ & _ & L). assert (NoDup (filter (fun f0 => String.eqb (v_name f0) (v_name f)) fs)) as ND by (apply NoDup_filter; exact (NoDup_map_inv _ _ N)).
    assert (forall g, In g (filter (fun f0 => String.eqb (v_name f0) (v_name f)) fs) -> In g fs /\ v_name g = v_name f) as Q by (intros g J; apply filter_In in J as [J E]; apply String.eqb_eq in E; auto).
    destruct (filter (fun f0 => String.eqb (v_name f0) (v_name f)) fs) as [|a [|b l]]; cbn in L; try lia.
    destruct (Q a (or_introl eq_refl)) as [Ia Ea]. destruct (Q b (or_intror (or_introl eq_refl))) as [Ib Eb].
    assert (a <> b) as D by (intros ->; inversion ND as [|? ? X _]; apply X; left; reflexivity).
    assert (v_path a <> v_path b) as DP.
    { intros X. apply D. clear - X Ia Ib N. induction fs as [|c fs IH]; [destruct Ia|]. cbn in N. inversion N as [|? ? A B]; subst. destruct Ia as [->|Ia], Ib as [->|Ib]; [reflexivity| | |apply IH; assumption].
      - exfalso. apply A. rewrite X. apply in_map. exact Ib.
      - exfalso. apply A. rewrite <- X. apply in_map. exact Ia. }
    destruct (path_eqb (v_path a) (v_path f)) eqn:PA.
    + apply path_eqb_spec in PA. exists b. split; [exact Ib|]. split; [congruence|exact Eb].
    + exists a. split; [exact Ia|]. split; [|exact Ea]. intros X. apply path_eqb_spec in X. congruence.
  - intros (g & Ig & D & E). split; [intros []|]. split; [apply in_map; exact I|].
    assert (In f (filter (fun f0 => String.eqb (v_name f0) (v_name f)) fs)) as Jf by (apply filter_In; split; [exact I|apply String.eqb_refl]).
    assert (In g (filter (fun f0 => String.eqb (v_name f0) (v_name f)) fs)) as Jg by (apply filter_In; split; [exact Ig|apply String.eqb_eq; exact E]).
    destruct (filter (fun f0 => String.eqb (v_name f0) (v_name f)) fs) as [|a [|b l]]; cbn; try lia; [destruct Jf|]. destruct Jf as [<-|[]], Jg as [<-|[]]. congruence.
Qed.
Lemma renamed_spec : forall fresh p, proper_path p -> (String.length (written p) <= 100)%nat -> renamed fresh p = String.concat "_" p.
Proof.
  intros fresh p [N P] L. unfold renamed, slash. rewrite path_str_written by exact N. cbv zeta. rewrite replace_length. destruct (Nat.ltb_spec 100 (String.length (written p))); [lia|]. apply replace_written. intros x I. apply P. exact I.
Qed.
Lemma names_table : forall fresh fs, NoDup (map v_path fs) ->
  rename_duplicates fresh fs (find_duplicates fs) = map (fun f => (v_path f, if existsb (String.eqb (v_name f)) (find_duplicates fs) then renamed fresh (v_path f) else v_name f)) fs.
Proof. intros fresh fs N. unfold rename_duplicates. apply table_spec. exact N. Qed.
Lemma names_keys : forall fresh fs, NoDup (map v_path fs) -> map fst (rename_duplicates fresh fs (find_duplicates fs)) = map v_path fs.
Proof. intros fresh fs N. rewrite names_table by exact N. rewrite map_map. reflexivity. Qed.
Lemma names_kept : forall fresh fs f, NoDup (map v_path fs) -> In f fs -> (forall g, In g fs -> v_name g = v_name f -> v_path g = v_path f) ->
  In (v_path f, v_name f) (rename_duplicates fresh fs (find_duplicates fs)).
Proof.
  intros fresh fs f N I U. rewrite names_table by exact N. destruct (existsb (String.eqb (v_name f)) (find_duplicates fs)) eqn:D.
  - apply (duplicates_spec fs f I N) in D as (g & Ig & X & E). exfalso. apply X. apply U; assumption.
  - pose proof (in_map (fun f => (v_path f, if existsb (String.eqb (v_name f)) (find_duplicates fs) then renamed fresh (v_path f) else v_name f)) fs f I) as Z. cbn in Z. rewrite D in Z. exact Z.
Qed.
Lemma names_changed : forall fresh fs f g, NoDup (map v_path fs) -> In f fs -> In g fs -> v_name g = v_name f -> v_path g <> v_path f -> proper_path (v_path f) -> (String.length (written (v_path f)) <= 100)%nat ->
  In (v_path f, String.concat "_" (v_path f)) (rename_duplicates fresh fs (find_duplicates fs)).
Proof.
  intros fresh fs f g N I Ig E X P L. rewrite names_table by exact N.
  assert (existsb (String.eqb (v_name f)) (find_duplicates fs) = true) as D by (apply (duplicates_spec fs f I N); exists g; auto).
  pose proof (in_map (fun f => (v_path f, if existsb (String.eqb (v_name f)) (find_duplicates fs) then renamed fresh (v_path f) else v_name f)) fs f I) as Z. cbn in Z. rewrite D, renamed_spec in Z by assumption. exact Z.
Qed.
Lemma underscore_inj : forall a b, (forall x, In x a -> without "_" x) -> (forall x, In x b -> without "_" x) -> a <> [] -> b <> [] -> String.concat "_" a = String.concat "_" b -> a = b.
Proof.
  intros a b A B NA NB E. change "_"%string with (String "_" "") in E. rewrite <- !join_concat in E. rewrite <- (split_join "_" a NA A), <- (split_join "_" b NB B), E. reflexivity.
Qed.
Lemma distinct_map : forall {A B C} (k : A -> B) (h : A -> C) (l : list A), NoDup (map k l) -> (forall a b, In a l -> In b l -> h a = h b -> k a = k b) -> NoDup (map h l).
Proof.
  intros A B C k h. induction l as [|f l IH]; intros N Q; cbn [map]; [constructor|]. cbn in N. inversion N as [|? ? X Y]; subst. constructor.
  - intros J. apply in_map_iff in J as (g & E & Ig). apply X. rewrite (Q f g (or_introl eq_refl) (or_intror Ig) (eq_sym E)). apply in_map. exact Ig.
  - apply IH; [exact Y|]. intros a b Ia Ib. apply Q; right; assumption.
Qed.
Lemma names_distinct : forall fresh fs, NoDup (map v_path fs) ->
  (forall f, In f fs -> proper_path (v_path f) /\ v_name f = last (v_path f) ""%string /\ (String.length (written (v_path f)) <= 100)%nat /\ forall x, In x (v_path f) -> without "_" x) ->
  NoDup (map snd (rename_duplicates fresh fs (find_duplicates fs))).
Proof.
  intros fresh fs N H. rewrite names_table by exact N. rewrite map_map. cbn [snd].
  assert (forall f g, In f fs -> In g fs -> (if existsb (String.eqb (v_name f)) (find_duplicates fs) then renamed fresh (v_path f) else v_name f) = (if existsb (String.eqb (v_name g)) (find_duplicates fs) then renamed fresh (v_path g) else v_name g) -> v_path f = v_path g) as Q.
  { assert (forall f g, In f fs -> In g fs -> existsb (String.eqb (v_name f)) (find_duplicates fs) = true -> existsb (String.eqb (v_name g)) (find_duplicates fs) = false -> renamed fresh (v_path f) = v_name g -> False) as M.
    { intros f g If Ig Df Dg E. destruct (H f If) as (Pf & Nf & Lf & Uf). destruct (H g Ig) as (Pg & Ng & Lg & Ug). rewrite renamed_spec in E by assumption.
      assert (In (last (v_path g) ""%string) (v_path g)) as J by (destruct Pg as [Z _]; destruct (exists_last Z) as (l & z & ->); rewrite last_last; apply in_app_iff; right; left; reflexivity).
      assert (v_path f = [v_name g]) as F.
      { apply underscore_inj; [exact Uf|intros x [<-|[]]; rewrite Ng; apply Ug; exact J|apply Pf|discriminate|]. exact E. }
      assert (v_name f = v_name g) as V by (rewrite Nf, F; reflexivity). rewrite V in Df. congruence. }
    intros f g If Ig E. destruct (existsb (String.eqb (v_name f)) (find_duplicates fs)) eqn:Df, (existsb (String.eqb (v_name g)) (find_duplicates fs)) eqn:Dg.
    - destruct (H f If) as (Pf & Nf & Lf & Uf). destruct (H g Ig) as (Pg & Ng & Lg & Ug). rewrite !renamed_spec in E by assumption. apply underscore_inj; [exact Uf|exact Ug|apply Pf|apply Pg|exact E].
    - destruct (M f g If Ig Df Dg E).
    - destruct (M g f Ig If Dg Df (eq_sym E)).
    - destruct (path_eqb (v_path f) (v_path g)) eqn:X; [apply path_eqb_spec; exact X|]. exfalso. assert (existsb (String.eqb (v_name g)) (find_duplicates fs) = true) as Z; [|congruence].
      apply (duplicates_spec fs g Ig N). exists f. split; [exact If|]. split; [|exact E]. intros Y. apply path_eqb_spec in Y. congruence. }
  exact (distinct_map v_path _ fs N Q).
Qed.
Lemma substring_length : forall s i k, (i + k <= String.length s)%nat -> String.length (String.substring i k s) = k.
Proof.
  induction s as [|x s IH]; intros i k L; cbn in L.
  - assert (i = 0 /\ k = 0)%nat as [-> ->] by lia. reflexivity.
  - destruct i as [|i]; [destruct k as [|k]; [reflexivity|]|]; cbn; [rewrite IH by (cbn; lia); reflexivity|]. apply IH. lia.
Qed.
Lemma renamed_length : forall fresh p, (forall q, String.length (fresh q) = 6%nat) -> (String.length (renamed fresh p) <= 100)%nat.
Proof.
  intros fresh p F. unfold renamed. cbv zeta. set (name := replace_char slash "_" (path_str p)). destruct (Nat.ltb_spec 100 (String.length name)) as [L|L]; [|exact L].
  rewrite app_length_s, substring_length, F by lia. lia.
Qed.
Lemma names_length : forall fresh fs f g, NoDup (map v_path fs) -> In f fs -> In g fs -> v_name g = v_name f -> v_path g <> v_path f -> (forall q, String.length (fresh q) = 6%nat) ->
  exists name, In (v_path f, name) (rename_duplicates fresh fs (find_duplicates fs)) /\ (String.length name <= 100)%nat.
Proof.
  intros fresh fs f g N I Ig E X F. rewrite names_table by exact N. exists (renamed fresh (v_path f)). split; [|apply renamed_length; exact F].
  assert (existsb (String.eqb (v_name f)) (find_duplicates fs) = true) as D by (apply (duplicates_spec fs f I N); exists g; auto).
  pose proof (in_map (fun f => (v_path f, if existsb (String.eqb (v_name f)) (find_duplicates fs) then renamed fresh (v_path f) else v_name f)) fs f I) as Z. cbn in Z. rewrite D in Z. exact Z.
Qed.
Lemma app_tail_s : forall a b s : string, (a ++ s = b ++ s)%string -> a = b.
Proof.
  induction a as [|x a IH]; intros [|y b] s E; [reflexivity| | |].
  - apply (f_equal String.length) in E. cbn in E. rewrite app_length_s in E. lia.
  - apply (f_equal String.length) in E. cbn in E. rewrite app_length_s in E. lia.
  - cbn in E. injection E as -> E. f_equal. exact (IH b s E).
Qed.
Lemma same_name_distinct : forall a b n, (forall x, In x a -> without "_" x) -> (forall x, In x b -> without "_" x) -> String.concat "_" (a ++ [n]) = String.concat "_" (b ++ [n]) -> a = b.
Proof.
  assert (forall a n, a <> [] -> String.concat "_" (a ++ [n]) = (String.concat "_" a ++ String "_" n)%string) as C by (intros a n N; rewrite <- !join_concat, join_app by (try exact N; discriminate); reflexivity).
  intros a b n A B E. destruct a as [|x a], b as [|y b]; [reflexivity| | |].
  - rewrite (C (y :: b)) in E by discriminate. apply (f_equal String.length) in E. rewrite app_length_s in E. cbn [app String.concat String.length] in E. lia.
  - rewrite (C (x :: a)) in E by discriminate. apply (f_equal String.length) in E. rewrite app_length_s in E. cbn [app String.concat String.length] in E. lia.
  - rewrite !C in E by discriminate. apply app_tail_s in E. apply underscore_inj; [exact A|exact B|discriminate|discriminate|exact E].
Qed.
Lemma names_same : forall fresh fs f g df dg n, NoDup (map v_path fs) -> In f fs -> In g fs -> v_name f = n -> v_name g = n -> v_path f = df ++ [n] -> v_path g = dg ++ [n] -> df <> dg ->
  proper_path (v_path f) -> proper_path (v_path g) -> (String.length (written (v_path f)) <= 100)%nat -> (String.length (written (v_path g)) <= 100)%nat ->
  (forall x, In x df -> without "_" x) -> (forall x, In x dg -> without "_" x) ->
  exists a b, In (v_path f, a) (rename_duplicates fresh fs (find_duplicates fs)) /\ In (v_path g, b) (rename_duplicates fresh fs (find_duplicates fs)) /\ a <> b.
Proof.
  intros fresh fs f g df dg n N If Ig Nf Ng Ef Eg D Pf Pg Lf Lg Uf Ug. assert (v_path f <> v_path g) as X by (rewrite Ef, Eg; intros X; apply app_inj_tail in X as [X _]; exact (D X)).
  exists (String.concat "_" (v_path f)), (String.concat "_" (v_path g)). split; [apply (names_changed fresh fs f g); congruence|]. split; [apply (names_changed fresh fs g f); congruence|].
  intros E. rewrite Ef, Eg in E. apply same_name_distinct in E; [exact (D E)|exact Uf|exact Ug].
Qed.

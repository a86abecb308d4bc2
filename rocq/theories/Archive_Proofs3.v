(** Files of a model: which of them are used, and files in archives. *)
From Coq Require Import PeanoNat String Ascii Lia.
From Verif Require Import Base BaseLemmas Input_Model Files_Spec Files_Proofs Archive_Model Archive_Spec Archive_Proofs Archive_Proofs2.
Local Open Scope list_scope.

Lemma divided_filter : forall {A} (P : A -> Prop) (b : A -> bool) l, (forall x, In x l -> (b x = true <-> P x)) -> divided P l (filter b l) (filter (fun x => negb (b x)) l).
Proof.
  intros A P b. induction l as [|x l IH]; intros H; cbn [filter]; [constructor|]. pose proof (H x (or_introl eq_refl)) as Q. assert (divided P l (filter b l) (filter (fun x => negb (b x)) l)) as D by (apply IH; intros y I; apply H; right; exact I).
  destruct (b x); cbn [negb]; constructor; try exact D; [apply Q; reflexivity|]. intros X. apply Q in X. discriminate X.
Qed.
Lemma divided_fun : forall {A} (P : A -> Prop) l a b a' b', divided P l a b -> divided P l a' b' -> a = a' /\ b = b'.
Proof.
  intros A P l a b a' b' D. revert a' b'. induction D; intros a' b' D'; inversion D'; subst; try contradiction; [auto| |].
  - match goal with H : divided P l _ _ |- _ => apply IHD in H as [-> ->] end. auto.
  - match goal with H : divided P l _ _ |- _ => apply IHD in H as [-> ->] end. auto.
Qed.
Lemma divided_in : forall {A} (P : A -> Prop) l a b, divided P l a b -> (forall x, In x a -> In x l /\ P x) /\ (forall x, In x b -> In x l /\ ~ P x).
Proof.
  intros A P l a b D. induction D as [|x l yes no Px D [IH1 IH2]|x l yes no Nx D [IH1 IH2]]; split; intros y J; try destruct J.
  - subst. split; [left; reflexivity|assumption].
  - destruct (IH1 y H) as [X Y]. split; [right|]; assumption.
  - destruct (IH2 y J) as [X Y]. split; [right|]; assumption.
  - destruct (IH1 y J) as [X Y]. split; [right|]; assumption.
  - subst. split; [left; reflexivity|assumption].
  - destruct (IH2 y H) as [X Y]. split; [right|]; assumption.
Qed.

(** ** Paths of names *)
Lemma names_path_of : forall s, names_path s (path_of s).
Proof.
  intros s. unfold names_path, path_of, slash. exists (split_at "/" s). eexists. split; [apply split_ne|]. split; [apply split_without|]. split.
  - unfold written. rewrite <- join_concat. symmetry. exact (join_split "/" s).
  - apply (divided_filter _ (fun p => negb (String.eqb p "" || String.eqb p "."))). intros x _. destruct (String.eqb_spec x ""), (String.eqb_spec x "."); cbn; split; try discriminate; try tauto.
Qed.
Lemma names_path_spec : forall s p, names_path s p <-> p = path_of s.
Proof.
  intros s p. split; [|intros ->; apply names_path_of]. intros (parts & skipped & N & W & -> & D). destruct (names_path_of (written parts)) as (parts' & skipped' & N' & W' & E & D').
  apply (written_inj parts parts' W W' N N') in E as <-. exact (proj1 (divided_fun _ _ _ _ _ _ D D')).
Qed.
Lemma suffix_ext : forall p ext, ext <> ""%string -> without "." ext -> (suffix p = String "." ext <-> extension p ext).
Proof.
  intros p ext E W. destruct p as [|x p].
  - split; [discriminate|]. intros (d & s & X & _). destruct d; discriminate X.
  - apply suffix_extension; [discriminate|exact E|exact W].
Qed.
Lemma suffix_none : forall p, suffix p = ""%string <-> ~ exists ext, extension p ext.
Proof.
  intros [|x p]; [|apply no_extension; discriminate]. split; [|reflexivity]. intros _ (ext & d & s & X & _). destruct d; discriminate X.
Qed.
Lemma model_file_all : forall p, is_csv p || is_yaml p = true <-> model_file p.
Proof.
  intros [|x p]; [|apply model_file_spec; discriminate]. split; [discriminate|]. intros (ext & (d & s & X & _) & _). destruct d; discriminate X.
Qed.
(** a path of a name with an extension has a dot in it *)
Lemma dotted : forall s ext, extension (path_of s) ext -> contains "." s = true.
Proof.
  intros s ext (d & stem & E & _). apply contains_iff. destruct (names_path_of s) as (parts & skipped & N & W & -> & D).
  assert (In (stem ++ "." ++ ext)%string parts) as J by (apply (proj1 (divided_in _ _ _ _ D)); rewrite E; apply in_app_iff; right; left; reflexivity).
  apply in_split in J as (a & b & ->). unfold occurs. assert (forall a b y, exists u v, written (a ++ y :: b) = (u ++ y ++ v)%string) as Q.
  { clear. intros a b y. destruct a as [|z a]; [destruct b as [|w b]|].
    - exists ""%string, ""%string. cbn. symmetry. apply app_nil_s.
    - exists ""%string, ("/" ++ written (w :: b))%string. cbn [app]. rewrite written_cons by discriminate. reflexivity.
    - destruct b as [|w b].
      + exists (written (z :: a) ++ "/")%string, ""%string. rewrite written_app by discriminate. cbn [written String.concat]. rewrite app_nil_s, app_assoc_s. reflexivity.
      + exists (written (z :: a) ++ "/")%string, ("/" ++ written (w :: b))%string. rewrite written_app by discriminate. rewrite (written_cons y (w :: b)) by discriminate. rewrite app_assoc_s. reflexivity. }
  destruct (Q a b (stem ++ "." ++ ext)%string) as (u & v & ->). exists (u ++ stem)%string, (ext ++ v)%string. rewrite !app_assoc_s. reflexivity.
Qed.

(** ** allowed_file *)
Definition exts : list string := ["yaml"; "csv"; "yml"; "zip"]%string.
Lemma allowed_none : forall name, contains "." name = false -> allowed_file name = Ok false.
Proof. intros name C. unfold allowed_file. rewrite C. reflexivity. Qed.
Lemma allowed_err : forall name, contains "." name = true -> ~ (exists ext, extension (path_of name) ext) -> allowed_file name = Err IndexError.
Proof. intros name C N. apply suffix_none in N. unfold allowed_file. rewrite C, N. reflexivity. Qed.
Lemma allowed_ext : forall name ext, extension (path_of name) ext -> allowed_file name = Ok (existsb (String.eqb ext) exts).
Proof.
  intros name ext X. unfold allowed_file. rewrite (dotted name ext X). pose proof X as (_ & _ & _ & _ & E & W). apply (suffix_ext _ ext E W) in X. rewrite X. unfold dot.
  change (String "." ext) with ("" ++ String "." ext)%string. rewrite split_first by (intros []). rewrite (split_one "." ext W). reflexivity.
Qed.

(** ** One file *)
Lemma one_zip : forall archive on_disk number acc f, zipped f -> validate_one archive on_disk number acc f = if Nat.ltb 1 number then Err ValidationError else unpack_zip archive on_disk (g_content f).
Proof.
  intros archive on_disk number acc f (p & Np & X). apply names_path_spec in Np as ->. unfold validate_one. rewrite (allowed_ext _ _ X). cbn [Base.bind existsb exts]. cbn [String.eqb Ascii.eqb Bool.eqb orb].
  pose proof X as (_ & _ & _ & _ & E & W). apply (suffix_ext _ _ E W) in X. unfold is_zip. rewrite X. reflexivity.
Qed.
Lemma one_usable : forall archive on_disk number acc f, usable f -> validate_one archive on_disk number acc f = Ok (fst acc ++ [mkValid (path_of (g_name f)) (g_name f) (g_content f)], snd acc).
Proof.
  intros archive on_disk number acc f (p & ext & Np & X & H). apply names_path_spec in Np as ->. unfold validate_one. rewrite (allowed_ext _ _ X).
  pose proof X as (_ & _ & _ & _ & E & W). apply (suffix_ext _ _ E W) in X. unfold is_zip, is_csv, is_yaml. rewrite X. destruct H as [->|[->| ->]]; reflexivity.
Qed.
Lemma one_other : forall archive on_disk number acc f, ~ usable f -> ~ zipped f ->
  validate_one archive on_disk number acc f = (if contains "." (g_name f) then match suffix (path_of (g_name f)) with ""%string => Err IndexError | _ => Ok (fst acc, snd acc ++ [mkInvalid (path_of (g_name f)) (g_name f)]) end else Ok (fst acc, snd acc ++ [mkInvalid (path_of (g_name f)) (g_name f)])).
Proof.
  intros archive on_disk number acc f NU NZ. unfold validate_one. destruct (contains "." (g_name f)) eqn:C; [|rewrite allowed_none by exact C; reflexivity].
  destruct (suffix_shape (path_name (path_of (g_name f)))) as [S|(ext & S & E & W)]; fold (suffix (path_of (g_name f))) in S; rewrite S.
  - rewrite allowed_err; [reflexivity|exact C|apply suffix_none; exact S].
  - pose proof (proj1 (suffix_ext _ ext E W) S) as X. rewrite (allowed_ext _ _ X). destruct (existsb (String.eqb ext) exts) eqn:A; [|reflexivity]. exfalso. apply existsb_str in A. cbn in A.
    destruct A as [<-|[<-|[<-|[<-|[]]]]].
    + apply NU. exists (path_of (g_name f)), "yaml"%string. split; [apply names_path_of|]. auto.
    + apply NU. exists (path_of (g_name f)), "csv"%string. split; [apply names_path_of|]. auto.
    + apply NU. exists (path_of (g_name f)), "yml"%string. split; [apply names_path_of|]. auto.
    + apply NZ. exists (path_of (g_name f)). split; [apply names_path_of|exact X].
Qed.
Lemma usable_dec : forall f, usable f \/ ~ usable f.
Proof.
  intros f. destruct (suffix_shape (path_name (path_of (g_name f)))) as [S|(ext & S & E & W)]; fold (suffix (path_of (g_name f))) in S.
  - right. intros (p & ext & Np & X & _). apply names_path_spec in Np as ->. apply (proj1 (suffix_none _) S). exists ext. exact X.
  - pose proof (proj1 (suffix_ext _ ext E W) S) as X. assert (forall t, extension (path_of (g_name f)) t -> t = ext) as U by (intros t T; exact (extension_unique _ _ _ T X)).
    destruct (in_dec string_dec ext ["csv"; "yml"; "yaml"]%string) as [J|J].
    + left. exists (path_of (g_name f)), ext. split; [apply names_path_of|]. split; [exact X|]. cbn in J. intuition.
    + right. intros (p & t & Np & T & H). apply names_path_spec in Np as ->. apply U in T as ->. apply J. cbn. intuition.
Qed.
(** ** The loop without archives *)
Definition fine (f : given_file) : Prop := occurs "." (g_name f) -> exists p ext, names_path (g_name f) p /\ extension p ext.
Lemma fine_other : forall archive on_disk number acc f, ~ usable f -> ~ zipped f ->
  (fine f -> validate_one archive on_disk number acc f = Ok (fst acc, snd acc ++ [mkInvalid (path_of (g_name f)) (g_name f)])) /\ (~ fine f -> validate_one archive on_disk number acc f = Err IndexError).
Proof.
  intros archive on_disk number acc f NU NZ. rewrite one_other by assumption. unfold fine. rewrite <- contains_iff. destruct (contains "." (g_name f)) eqn:C.
  - destruct (suffix (path_of (g_name f))) as [|c s] eqn:S; split.
    + intros H. exfalso. destruct (H eq_refl) as (p & ext & Np & X). apply names_path_spec in Np as ->. apply (proj1 (suffix_none _) S). exists ext. exact X.
    + reflexivity.
    + reflexivity.
    + intros H. exfalso. apply H. intros _. destruct (suffix_shape (path_name (path_of (g_name f)))) as [T|(ext & T & E & W)]; fold (suffix (path_of (g_name f))) in T; [congruence|].
      exists (path_of (g_name f)), ext. split; [apply names_path_of|]. apply (suffix_ext _ ext E W). exact T.
  - split; [reflexivity|]. intros H. exfalso. apply H. discriminate.
Qed.
Lemma fine_dec : forall f, fine f \/ ~ fine f.
Proof.
  intros f. unfold fine. rewrite <- contains_iff. destruct (contains "." (g_name f)); [|left; discriminate].
  destruct (suffix_shape (path_name (path_of (g_name f)))) as [T|(ext & T & E & W)]; fold (suffix (path_of (g_name f))) in T.
  - right. intros H. destruct (H eq_refl) as (p & ext & Np & X). apply names_path_spec in Np as ->. apply (proj1 (suffix_none _) T). exists ext. exact X.
  - left. intros _. exists (path_of (g_name f)), ext. split; [apply names_path_of|]. apply (suffix_ext _ ext E W). exact T.
Qed.
Lemma usable_fine : forall f, usable f -> fine f.
Proof. intros f (p & ext & N & X & _) _. exists p, ext. auto. Qed.
Lemma loop_ok : forall archive on_disk number fs acc, (forall f, In f fs -> ~ zipped f) -> (forall f, In f fs -> fine f) ->
  exists yes no v i, divided usable fs yes no /\ Forall2 taken yes v /\ Forall2 left_out no i /\ validate_loop archive on_disk number acc fs = Ok (fst acc ++ v, snd acc ++ i).
Proof.
  intros archive on_disk number. induction fs as [|f fs IH]; intros acc Z F.
  - exists [], [], [], []. cbn [validate_loop]. rewrite !app_nil_r. destruct acc. repeat split; constructor.
  - cbn [validate_loop]. destruct (usable_dec f) as [U|U].
    + rewrite (one_usable _ _ _ _ _ U). cbn [Base.bind]. destruct (IH (fst acc ++ [mkValid (path_of (g_name f)) (g_name f) (g_content f)], snd acc)) as (yes & no & v & i & D & A & B & ->); [intros g J; apply Z; right; exact J|intros g J; apply F; right; exact J|].
      exists (f :: yes), no, (mkValid (path_of (g_name f)) (g_name f) (g_content f) :: v), i. split; [constructor; assumption|]. split; [constructor; [|exact A]|]; [split; [apply names_path_of|split; reflexivity]|]. split; [exact B|]. cbn [fst snd]. rewrite <- app_assoc. reflexivity.
    + rewrite (proj1 (fine_other archive on_disk number acc f U (Z f (or_introl eq_refl))) (F f (or_introl eq_refl))). cbn [Base.bind].
      destruct (IH (fst acc, snd acc ++ [mkInvalid (path_of (g_name f)) (g_name f)])) as (yes & no & v & i & D & A & B & ->); [intros g J; apply Z; right; exact J|intros g J; apply F; right; exact J|].
      exists yes, (f :: no), v, (mkInvalid (path_of (g_name f)) (g_name f) :: i). split; [constructor; assumption|]. split; [exact A|]. split; [constructor; [|exact B]; split; [apply names_path_of|reflexivity]|]. cbn [fst snd]. rewrite <- app_assoc. reflexivity.
Qed.
Lemma loop_err : forall archive on_disk number fs acc, (forall f, In f fs -> ~ zipped f) -> (exists f, In f fs /\ ~ fine f) -> validate_loop archive on_disk number acc fs = Err IndexError.
Proof.
  intros archive on_disk number. induction fs as [|f fs IH]; intros acc Z (g & J & NF); [destruct J|]. cbn [validate_loop]. destruct (fine_dec f) as [Ff|Ff].
  - assert (In g fs) as J' by (destruct J as [->|J]; [contradiction|exact J]). destruct (usable_dec f) as [U|U].
    + rewrite (one_usable _ _ _ _ _ U). cbn [Base.bind]. apply IH; [intros h K; apply Z; right; exact K|exists g; auto].
    + rewrite (proj1 (fine_other archive on_disk number acc f U (Z f (or_introl eq_refl))) Ff). cbn [Base.bind]. apply IH; [intros h K; apply Z; right; exact K|exists g; auto].
  - destruct (usable_dec f) as [U|U]; [destruct (Ff (usable_fine f U))|]. rewrite (proj2 (fine_other archive on_disk number acc f U (Z f (or_introl eq_refl))) Ff). reflexivity.
Qed.

(** ** C135 *)
Lemma files_accepted : forall archive on_disk fs, (forall f, In f fs -> ~ zipped f) ->
  ((exists r, validate_filetypes archive on_disk fs = Ok r) <-> forall f, In f fs -> occurs "." (g_name f) -> exists p ext, names_path (g_name f) p /\ extension p ext).
Proof.
  intros archive on_disk fs Z. unfold validate_filetypes. split.
  - intros [r E] f J O. destruct (fine_dec f) as [F|F]; [exact (F O)|]. rewrite loop_err in E; [discriminate E|exact Z|exists f; auto].
  - intros F. destruct (loop_ok archive on_disk (List.length fs) fs ([], []) Z F) as (yes & no & v & i & _ & _ & _ & ->). eexists. reflexivity.
Qed.
Lemma files_sorted : forall archive on_disk fs v i, (forall f, In f fs -> ~ zipped f) -> validate_filetypes archive on_disk fs = Ok (v, i) ->
  exists yes no, divided usable fs yes no /\ Forall2 taken yes v /\ Forall2 left_out no i.
Proof.
  intros archive on_disk fs v i Z E. pose proof (proj1 (files_accepted archive on_disk fs Z) (ex_intro _ _ E)) as F. unfold validate_filetypes in E.
  destruct (loop_ok archive on_disk (List.length fs) fs ([], []) Z F) as (yes & no & v' & i' & D & A & B & E'). rewrite E' in E. cbn [fst snd app] in E. injection E as <- <-. exists yes, no. auto.
Qed.
Lemma zip_not_alone : forall archive on_disk fs f, In f fs -> zipped f -> (1 < List.length fs)%nat -> forall r, validate_filetypes archive on_disk fs <> Ok r.
Proof.
  intros archive on_disk fs f J Z L r. unfold validate_filetypes. apply Nat.ltb_lt in L. revert L. generalize (List.length fs) as number. intros number L. generalize (@nil valid_file, @nil invalid_file) as acc. induction fs as [|g fs IH]; intros acc; [destruct J|]. cbn [validate_loop].
  destruct J as [->|J].
  - rewrite (one_zip _ _ _ _ _ Z), L. discriminate.
  - destruct (validate_one archive on_disk number acc g); [|discriminate]. cbn [Base.bind]. apply IH. exact J.
Qed.
Lemma entries_sorted : forall on_disk es v i, sort_entries on_disk es = (v, i) ->
  exists seen skipped yes no, divided (looked_at on_disk) es seen skipped /\ divided entry_usable seen yes no /\ Forall2 entry_taken yes v /\ Forall2 entry_left_out no i.
Proof.
  intros on_disk. induction es as [|e es IH]; intros v i E; cbn [sort_entries] in E.
  - injection E as <- <-. exists [], [], [], []. repeat split; constructor.
  - destruct (sort_entries on_disk es) as [v0 i0]. destruct (IH v0 i0 eq_refl) as (seen & skipped & yes & no & A & B & C & D). cbv zeta in E. clear IH.
    assert (is_ignored on_disk (path_of (e_name e)) || e_dir e = false <-> looked_at on_disk e) as Q.
    { unfold is_ignored, looked_at. cbn [existsb]. rewrite !orb_false_iff. rewrite <- !not_true_iff_false, !contains_iff.
      assert (forall k, k = ".DS_Store"%string \/ k = "__MACOSX"%string -> (occurs k (path_str (path_of (e_name e))) <-> occurs k (written (path_of (e_name e))))) as O.
      { intros k K. destruct (path_of (e_name e)) as [|x p]; [|rewrite path_str_written by discriminate; reflexivity].
        rewrite <- !contains_iff. destruct K as [->| ->]; reflexivity. }
      rewrite (O ".DS_Store"%string), (O "__MACOSX"%string) by auto. rewrite !not_true_iff_false. split.
      - intros ((H1 & H2 & H3 & _) & H4). split; [exact H4|]. intros p Np. apply names_path_spec in Np as ->. auto.
      - intros (H4 & H). destruct (H _ (names_path_of _)) as (H1 & H2 & H3). repeat split; auto. }
    destruct (is_ignored on_disk (path_of (e_name e)) || e_dir e).
    + injection E as <- <-. exists seen, (e :: skipped), yes, no. split; [|auto]. apply divided_no; [|exact A]. intros X. apply Q in X. discriminate X.
    + assert (is_csv (path_of (e_name e)) || is_yaml (path_of (e_name e)) = true <-> entry_usable e) as R.
      { rewrite model_file_all. unfold entry_usable. split; [intros X; exists (path_of (e_name e)); split; [apply names_path_of|exact X]|]. intros (p & Np & X). apply names_path_spec in Np as ->. exact X. }
      destruct (is_csv (path_of (e_name e)) || is_yaml (path_of (e_name e))); injection E as <- <-.
      * exists (e :: seen), skipped, (e :: yes), no. split; [apply divided_yes; [apply Q; reflexivity|exact A]|]. split; [apply divided_yes; [apply R; reflexivity|exact B]|]. split; [constructor; [|exact C]|exact D]. split; [apply names_path_of|split; reflexivity].
      * exists (e :: seen), skipped, yes, (e :: no). split; [apply divided_yes; [apply Q; reflexivity|exact A]|]. split; [apply divided_no; [|exact B]|].
        { intros X. apply R in X. discriminate X. }
        split; [exact C|]. constructor; [|exact D]. split; [apply names_path_of|reflexivity].
Qed.
Lemma differ_spec : forall l, paths_differ l = true <-> NoDup l.
Proof.
  induction l as [|p l IH]; cbn [paths_differ]; [split; [constructor|reflexivity]|]. rewrite andb_true_iff, negb_true_iff, IH, <- not_true_iff_false, existsb_exists. split.
  - intros [A B]. constructor; [|exact B]. intros J. apply A. exists p. split; [exact J|apply path_eqb_spec; reflexivity].
  - intros N. inversion N as [|? ? A B]; subst. split; [|exact B]. intros (q & J & E). apply path_eqb_spec in E as ->. contradiction.
Qed.
Lemma zip_alone : forall archive on_disk f, zipped f -> validate_filetypes archive on_disk [f] = unpack_zip archive on_disk (g_content f).
Proof. intros archive on_disk f Z. unfold validate_filetypes. cbn [validate_loop]. rewrite (one_zip _ _ _ _ _ Z). cbn [List.length Nat.ltb Nat.leb]. destruct (unpack_zip archive on_disk (g_content f)); reflexivity. Qed.
Lemma zip_files : forall archive on_disk f v i, zipped f ->
  (validate_filetypes archive on_disk [f] = Ok (v, i) <->
   exists es seen skipped yes no, archive (g_content f) = Some es /\ divided (looked_at on_disk) es seen skipped /\ divided entry_usable seen yes no /\ Forall2 entry_taken yes v /\ Forall2 entry_left_out no i /\ NoDup (map v_path v)).
Proof.
  intros archive on_disk f v i Z. rewrite (zip_alone archive on_disk f Z). unfold unpack_zip. split.
  - intros E. destruct (archive (g_content f)) as [es|] eqn:A; [|discriminate E]. destruct (sort_entries on_disk es) as [v0 i0] eqn:S. destruct (paths_differ (map v_path v0)) eqn:D; [|discriminate E]. injection E as -> ->.
    destruct (entries_sorted on_disk es v i S) as (seen & skipped & yes & no & H1 & H2 & H3 & H4). exists es, seen, skipped, yes, no. apply differ_spec in D. auto 10.
  - intros (es & seen & skipped & yes & no & -> & D1 & D2 & T & L & N). destruct (sort_entries on_disk es) as [v0 i0] eqn:S.
    destruct (entries_sorted on_disk es v0 i0 S) as (seen' & skipped' & yes' & no' & H1 & H2 & H3 & H4). destruct (divided_fun _ _ _ _ _ _ D1 H1) as [<- _]. destruct (divided_fun _ _ _ _ _ _ D2 H2) as [<- <-].
    assert (v0 = v) as ->.
    { clear - T H3. revert v0 H3. induction T as [|e x l m R T IH]; intros v0 H3; inversion H3 as [|? y ? m' R' H3']; subst; [reflexivity|]. f_equal; [|apply IH; exact H3'].
      destruct R as (A & B & C), R' as (A' & B' & C'). apply names_path_spec in A. apply names_path_spec in A'. destruct x, y; cbn in *. congruence. }
    assert (i0 = i) as ->.
    { clear - L H4. revert i0 H4. induction L as [|e x l m R L IH]; intros i0 H4; inversion H4 as [|? y ? m' R' H4']; subst; [reflexivity|]. f_equal; [|apply IH; exact H4'].
      destruct R as (A & B), R' as (A' & B'). apply names_path_spec in A. apply names_path_spec in A'. destruct x, y; cbn in *. congruence. }
    apply differ_spec in N. rewrite N. reflexivity.
Qed.
Lemma starts_spec : forall f, is_yaml (v_path f) && is_main f = true <-> starts f.
Proof.
  intros f. rewrite andb_true_iff. unfold starts.
  assert (is_yaml (v_path f) = true <-> exists ext, extension (v_path f) ext /\ (alike ext "yml" \/ alike ext "yaml")) as A.
  { unfold is_yaml. unfold suffix. destruct (suffix_shape (path_name (v_path f))) as [S|(ext & S & E & W)]; rewrite S.
    - split; [discriminate|]. intros (ext & X & _). exfalso. apply (proj1 (suffix_none (v_path f)) S). exists ext. exact X.
    - pose proof (proj1 (suffix_ext _ ext E W) S) as X. cbn [lower existsb]. change (lower_ascii ".") with "."%char. cbn [String.eqb]. rewrite !Ascii.eqb_refl. rewrite orb_false_r.
      assert (forall t, String.eqb (lower ext) (lower t) = true <-> alike ext t) as Q by (intros t; rewrite String.eqb_eq; apply lower_alike).
      pose proof (Q "yml"%string) as Q2. pose proof (Q "yaml"%string) as Q3. change (lower "yml") with "yml"%string in Q2. change (lower "yaml") with "yaml"%string in Q3. rewrite orb_true_iff, Q2, Q3. split.
      + intros H. exists ext. auto.
      + intros (t & T & H). rewrite (extension_unique _ _ _ T X) in H. exact H. }
  rewrite A. unfold is_main. cbn [existsb]. rewrite !orb_true_iff, !contains_iff. assert (false = true <-> False) as -> by (split; [discriminate|tauto]). tauto.
Qed.
Lemma main_proof : forall fs f, get_main_file fs = Ok f <-> exists before after, fs = before ++ f :: after /\ starts f /\ (forall g, In g (before ++ after) -> ~ starts g).
Proof.
  intros fs f. unfold get_main_file. split.
  - intros E. destruct (filter (fun f => is_yaml (v_path f) && is_main f) fs) as [|a [|b l]] eqn:F; try discriminate E. injection E as ->.
    assert (In f fs) as J by (apply (proj1 (filter_In (fun f => is_yaml (v_path f) && is_main f) f fs)); rewrite F; left; reflexivity).
    assert (is_yaml (v_path f) && is_main f = true) as K by (apply (proj1 (filter_In (fun f => is_yaml (v_path f) && is_main f) f fs)); rewrite F; left; reflexivity).
    apply in_split in J as (before & after & ->). exists before, after. split; [reflexivity|]. split; [apply starts_spec; exact K|].
    rewrite filter_app in F. cbn [filter] in F. rewrite K in F. assert (filter (fun f => is_yaml (v_path f) && is_main f) before = [] /\ filter (fun f => is_yaml (v_path f) && is_main f) after = []) as [A B].
    { destruct (filter (fun f => is_yaml (v_path f) && is_main f) before) as [|x l]; [cbn [app] in F; injection F as F; auto|]. exfalso. apply (f_equal (@List.length _)) in F. cbn in F. rewrite app_length in F. cbn in F. lia. }
    intros g J S. apply starts_spec in S. assert (In g (filter (fun f => is_yaml (v_path f) && is_main f) (before ++ after))) as X by (apply filter_In; auto). rewrite filter_app, A, B in X. destruct X.
  - intros (before & after & -> & S & N). apply starts_spec in S. rewrite filter_app. cbn [filter]. rewrite S.
    assert (forall l, (forall g, In g l -> ~ starts g) -> filter (fun f => is_yaml (v_path f) && is_main f) l = []) as Q.
    { induction l as [|g l IH]; intros H; [reflexivity|]. cbn [filter]. destruct (is_yaml (v_path g) && is_main g) eqn:G; [|apply IH; intros h J; apply H; right; exact J]. exfalso. apply (H g); [left; reflexivity|]. apply starts_spec. exact G. }
    rewrite !Q by (intros g J; apply N, in_app_iff; auto). reflexivity.
Qed.

(** ** What does not hold *)
(** the common directory is removed wherever it is written: two files get the same path, and a path leads nowhere *)
Definition in_tree (p : list string) : valid_file := mkValid p (last p ""%string) ""%string.
Lemma repeated_directory_refuted : ~ forall d x y m f (main file : valid_file), parting d x y m f (v_path main) (v_path file) -> proper_path (v_path main) -> proper_path (v_path file) ->
  relative_path main file = written (repeat ".."%string (List.length m) ++ y :: f).
Proof.
  intros H. assert (relative_path (in_tree ["a"; "m.yml"]%string) (in_tree ["a"; "ba"; "x.csv"]%string) = "ba/x.csv"%string) as E.
  { apply (H ["a"]%string "m.yml"%string "ba"%string [] ["x.csv"]%string); cbn.
    - repeat split. discriminate.
    - split; [discriminate|]. intros q [<-|[<-|[]]]; repeat split; try discriminate; unfold without; cbn; intuition discriminate.
    - split; [discriminate|]. intros q [<-|[<-|[<-|[]]]]; repeat split; try discriminate; unfold without; cbn; intuition discriminate. }
  vm_compute in E. discriminate E.
Qed.
Lemma same_relative_refuted : ~ forall (main f g : valid_file), proper_path (v_path main) -> proper_path (v_path f) -> proper_path (v_path g) -> relative_path main f = relative_path main g -> v_path f = v_path g.
Proof.
  intros H. assert (["a"; "b"; "a"; "x.csv"]%string = ["a"; "b"; "x.csv"]%string) as E.
  { apply (H (in_tree ["a"; "m.yml"]%string) (in_tree ["a"; "b"; "a"; "x.csv"]%string) (in_tree ["a"; "b"; "x.csv"]%string)).
    1-3: split; [discriminate|]; intros q I; cbn in I; repeat (destruct I as [<-|I]; [repeat split; try discriminate; unfold without; cbn; intuition discriminate|]); destruct I.
    vm_compute. reflexivity. }
  discriminate E.
Qed.
(** underscores in names: two files get the same name *)
Lemma underscores_refuted : ~ forall fresh fs, NoDup (map v_path fs) ->
  (forall f, In f fs -> proper_path (v_path f) /\ v_name f = last (v_path f) ""%string /\ (String.length (written (v_path f)) <= 100)%nat) -> NoDup (map snd (rename_duplicates fresh fs (find_duplicates fs))).
Proof.
  intros H. pose (fs := [in_tree ["a"; "b.csv"]; in_tree ["c"; "b.csv"]; in_tree ["a_b.csv"]]%string).
  assert (NoDup ["a_b.csv"; "c_b.csv"; "a_b.csv"]%string) as E.
  { apply (H (fun _ => ""%string) fs).
    - repeat constructor; cbn; intuition discriminate.
    - intros f I. split; [|split; [destruct I as [<-|[<-|[<-|[]]]]; reflexivity|destruct I as [<-|[<-|[<-|[]]]]; cbn; lia]].
      destruct I as [<-|[<-|[<-|[]]]]; (split; [discriminate|]); intros q I; cbn in I; repeat (destruct I as [<-|I]; [repeat split; try discriminate; unfold without; cbn; intuition discriminate|]); destruct I. }
  inversion E as [|? ? X _]. apply X. right. left. reflexivity.
Qed.
(** the case of the extension matters for a file given by itself only *)
Lemma case_refuted : ~ forall archive on_disk fs v i, validate_filetypes archive on_disk fs = Ok (v, i) -> forall f p, In f fs -> names_path (g_name f) p -> model_file p -> In p (map v_path v).
Proof.
  intros H. assert (names_path "data.CSV" ["data.CSV"]%string) as Np by (apply names_path_spec; reflexivity).
  apply (H (fun _ => None) (fun _ => false) [mkGiven "data.CSV" ""] [] [mkInvalid ["data.CSV"]%string "data.CSV"] eq_refl (mkGiven "data.CSV" "") ["data.CSV"]%string); [left; reflexivity|exact Np|].
  apply model_file_all. reflexivity.
Qed.
(** a dot without an extension: an error that says nothing of the file *)
Lemma dot_refuted : ~ forall archive on_disk fs, (forall f, In f fs -> ~ zipped f) -> exists r, validate_filetypes archive on_disk fs = Ok r.
Proof.
  intros H. destruct (H (fun _ => None) (fun _ => false) [mkGiven "runs.v2/data" ""]) as [r E]; [|discriminate E].
  intros f [<-|[]] (p & Np & X). apply names_path_spec in Np as ->. apply (suffix_ext _ "zip") in X; [discriminate X|discriminate|]. unfold without. cbn. intuition discriminate.
Qed.

(** The files that runs write: runs. *)
From Coq Require Import PeanoNat String Ascii Lia.
From Verif Require Import Base BaseLemmas Archive_Model Archive_Spec Archive_Proofs Outputs_Model Outputs_Spec Outputs_Proofs.
Local Open Scope list_scope.

Lemma folder_eq : forall r folder, writes_to r folder -> output_folder r = folder.
Proof.
  intros r folder [E|(E & dirs & name & M & ->)]; unfold output_folder; rewrite E; [reflexivity|]. rewrite M. unfold path_parent. rewrite removelast_last. apply join_plain; try discriminate. apply without_compute. reflexivity.
Qed.
Lemma prefix_eq : forall r prefix, prefixed r prefix -> name_prefix r = prefix.
Proof.
  intros r prefix [E|(E & dirs & name & M & B)]; unfold name_prefix; rewrite E; [reflexivity|]. rewrite M, path_name_app. symmetry. apply bare_eq. exact B.
Qed.
Lemma groups_same : forall tables acc : list (string * string), NoDup (map fst (acc ++ tables)) -> fold_left (fun d t => dict_set String.eqb (fst t) (snd t) d) tables acc = acc ++ tables.
Proof.
  induction tables as [|[g t] tables IH]; intros acc N; cbn [fold_left]; [symmetry; apply app_nil_r|]. cbn [fst snd].
  rewrite dict_set_keys_notin; [rewrite IH; rewrite <- app_assoc; [reflexivity|exact N]|intros; apply String.eqb_eq|].
  rewrite map_app in N. cbn in N. apply NoDup_remove_2 in N. intros X. apply N. apply in_or_app. left. exact X.
Qed.
Lemma groups_plain : forall tables, plain_tables tables -> groups_of tables = tables.
Proof. intros tables [N _]. unfold groups_of. rewrite groups_same; [reflexivity|exact N]. Qed.

Lemma asked_iff : forall r d text, plain_tables (r_ltp_tables r) -> plain_tables (r_stp_tables r) -> (In (d, text) (to_write_first r ++ to_write r) <-> asked r d text).
Proof.
  intros r d text L Q. unfold to_write_first, to_write. rewrite (groups_plain _ L), (groups_plain _ Q). rewrite !in_app_iff. split.
  - intros [X|[X|[X|[X|X]]]].
    + destruct (r_flow r) eqn:E; [|destruct X]. destruct X as [X|[]]. injection X as <- <-. constructor. exact E.
    + destruct (r_csv r) eqn:E; [|destruct X]. destruct X as [X|[X|[]]]; injection X as <- <-; constructor; exact E.
    + destruct (r_json r) eqn:E; [|destruct X]. destruct X as [X|[X|[X|[]]]]; injection X as <- <-; constructor; exact E.
    + destruct (r_ltp r) eqn:E; [|destruct X]. apply in_map_iff in X as ([g t] & X & Y). injection X as <- <-. constructor; [exact E|exact Y].
    + destruct (r_stp r) eqn:E; [|destruct X]. apply in_map_iff in X as ([g t] & X & Y). injection X as <- <-. constructor; [exact E|exact Y].
  - intros A. destruct A as [E|E|E|E|E|E|g t E Y|g t E Y]; rewrite E.
    + left. left. reflexivity.
    + right. left. left. reflexivity.
    + right. left. right. left. reflexivity.
    + right. right. left. left. reflexivity.
    + right. right. left. right. left. reflexivity.
    + right. right. left. right. right. left. reflexivity.
    + right. right. right. left. apply in_map_iff. exists (g, t). split; [reflexivity|exact Y].
    + right. right. right. right. apply in_map_iff. exists (g, t). split; [reflexivity|exact Y].
Qed.
Lemma nodup_key : forall (l : list (string * string)) k a b, NoDup (map fst l) -> In (k, a) l -> In (k, b) l -> a = b.
Proof.
  induction l as [|[x y] l IH]; intros k a b N A B; [destruct A|]. cbn in N. apply NoDup_cons_iff in N as [F N].
  destruct A as [A|A], B as [B|B].
  - congruence.
  - injection A as -> ->. exfalso. apply F. apply in_map_iff. exists (k, b). auto.
  - injection B as -> ->. exfalso. apply F. apply in_map_iff. exists (k, a). auto.
  - exact (IH k a b N A B).
Qed.
Lemma asked_once : forall r d a b, plain_tables (r_ltp_tables r) -> plain_tables (r_stp_tables r) -> asked r d a -> asked r d b -> a = b.
Proof.
  intros r d a b [L _] [Q _] A B. destruct A; inversion B; subst; try reflexivity; eauto using nodup_key.
Qed.
Lemma asked_plain : forall r d a, plain_tables (r_ltp_tables r) -> plain_tables (r_stp_tables r) -> asked r d a -> plain_document d.
Proof. intros r d a [_ L] [_ Q] A. destruct A; cbn; trivial; [exact (L _ _ H0)|exact (Q _ _ H0)]. Qed.

Lemma folder_made : forall k folder, has_place k folder -> exists k', make_folder k folder = Ok k' /\ directory k' folder = true /\ (forall q, q <> folder -> directory k' q = directory k q) /\ file_at k' = file_at k.
Proof.
  intros k folder (dirs & name & -> & D & P). unfold make_folder, path_parent. rewrite removelast_last, D. cbn [negb]. destruct (directory k (dirs ++ [name])) eqn:E.
  - exists k. repeat split; auto.
  - destruct P as [P|P]; [congruence|]. rewrite P. eexists. split; [reflexivity|]. cbn [directory file_at]. split; [|split; [|reflexivity]].
    + rewrite E. cbn. apply path_eqb_spec. reflexivity.
    + intros q N. destruct (path_eqb q (dirs ++ [name])) eqn:F; [apply path_eqb_spec in F; congruence|apply orb_false_r].
Qed.

Lemma write_all_spec : forall folder prefix l k, proper_part prefix -> directory k folder = true ->
  (forall d text, In (d, text) l -> plain_document d) ->
  (forall d text name, In (d, text) l -> named prefix d name -> directory k (folder ++ [name]) = false) ->
  exists k', write_all folder prefix k l = (k', Ok tt) /\ directory k' = directory k /\
    forall p, (exists d text name, In (d, text) l /\ named prefix d name /\ p = folder ++ [name] /\ file_at k' p = Some text) \/
              ((forall d text name, In (d, text) l -> named prefix d name -> p <> folder ++ [name]) /\ file_at k' p = file_at k p).
Proof.
  intros folder prefix. induction l as [|[d text] l IH]; intros k P D Q U; cbn [write_all].
  - exists k. split; [reflexivity|]. split; [reflexivity|]. intros p. right. split; [intros ? ? ? []|reflexivity].
  - destruct (named_some prefix d) as [name N]. rewrite (path_for_named folder prefix d name P (Q d text (or_introl eq_refl)) N). cbn [bind].
    unfold write_file, path_parent. rewrite removelast_last, D, (U d text name (or_introl eq_refl) N). cbn [andb negb].
    destruct (IH (mkDisk (directory k) (fun q => if path_eqb q (folder ++ [name]) then Some text else file_at k q))) as (k' & W & S & F); auto.
    + intros d' t' I. exact (Q d' t' (or_intror I)).
    + intros d' t' n' I. exact (U d' t' n' (or_intror I)).
    + exists k'. split; [exact W|]. split; [exact S|]. intros p. destruct (F p) as [(d' & t' & n' & A & B & C & E)|[A B]].
      * left. exists d', t', n'. split; [right; exact A|auto].
      * cbn [file_at] in B. destruct (path_eqb p (folder ++ [name])) eqn:X.
        -- apply path_eqb_spec in X. left. exists d, text, name. split; [left; reflexivity|auto].
        -- right. split; [|exact B]. intros d' t' n' [I|I] M; [|exact (A d' t' n' I M)]. injection I as <- <-. rewrite (named_unique prefix d n' name M N). intros ->. assert (path_eqb (folder ++ [name]) (folder ++ [name]) = true) by (apply path_eqb_spec; reflexivity). congruence.
Qed.

Lemma write_all_app : forall folder prefix l l' k, write_all folder prefix k (l ++ l') =
  match write_all folder prefix k l with (k', Err e) => (k', Err e) | (k', Ok _) => write_all folder prefix k' l' end.
Proof.
  intros folder prefix. induction l as [|[d text] l IH]; intros l' k; [reflexivity|]. cbn [app write_all]. destruct (bind (path_for folder prefix d) _) as [k'|]; [apply IH|reflexivity].
Qed.
Lemma below : forall (folder : path) name, folder ++ [name] <> folder.
Proof. intros folder name E. apply (f_equal (@List.length string)) in E. rewrite app_length in E. cbn in E. lia. Qed.

Lemma run_spec : forall k folder prefix r, plain_run k folder prefix r ->
  exists k', run_command k r = (k', Ok tt) /\ all_written k' folder prefix r /\
    (forall p, (forall d text name, asked r d text -> named prefix d name -> p <> folder ++ [name]) -> file_at k' p = file_at k p) /\
    directory k' folder = true /\ (forall q, q <> folder -> directory k' q = directory k q).
Proof.
  intros k folder prefix r (G & W & X & H & P & L & Q & U). unfold run_command. rewrite (folder_eq r folder W), (prefix_eq r prefix X).
  destruct (folder_made k folder H) as (k1 & M & D & O & F). rewrite M, G. rewrite <- write_all_app.
  destruct (write_all_spec folder prefix (to_write_first r ++ to_write r) k1 P D) as (k' & Y & S & Z).
  - intros d text I. apply (asked_iff r d text L Q) in I. exact (asked_plain r d text L Q I).
  - intros d text name I N. apply (asked_iff r d text L Q) in I. rewrite (O _ (below folder name)). exact (U d text name I N).
  - exists k'. split; [exact Y|]. rewrite S. split; [|split; [|split; [exact D|exact O]]].
    + intros d text name A N. destruct (Z (folder ++ [name])) as [(d' & t' & n' & I & N' & E & V)|[B _]].
      * apply app_inj_tail in E as [_ <-]. rewrite (named_injective prefix d d' name N N') in A. apply (asked_iff r d' t' L Q) in I. rewrite (asked_once r d' text t' L Q A I). exact V.
      * exfalso. apply (asked_iff r d text L Q) in A. exact (B d text name A N eq_refl).
    + intros p B. destruct (Z p) as [(d' & t' & n' & I & N' & E & V)|[_ V]]; [|rewrite V, F; reflexivity]. exfalso. apply (asked_iff r d' t' L Q) in I. exact (B d' t' n' I N' E).
Qed.

(** the files of a run *)
Lemma run_writes : forall k folder prefix r, plain_run k folder prefix r -> exists k', run_command k r = (k', Ok tt) /\ all_written k' folder prefix r.
Proof.
  intros k folder prefix r H. destruct (run_spec k folder prefix r H) as (k' & A & B & _). exists k'. auto.
Qed.
Lemma run_leaves : forall k k' folder prefix r p, plain_run k folder prefix r -> run_command k r = (k', Ok tt) ->
  (forall d text name, asked r d text -> named prefix d name -> p <> folder ++ [name]) -> file_at k' p = file_at k p.
Proof.
  intros k k' folder prefix r p H E N. destruct (run_spec k folder prefix r H) as (k1 & A & _ & B & _). assert (k' = k1) as -> by congruence. exact (B p N).
Qed.

(** two runs *)
Lemma first_dot : forall p q u v, without "." p -> without "." q -> (p ++ String "." u = q ++ String "." v)%string -> p = q /\ u = v.
Proof.
  induction p as [|c p IH]; intros [|c' q] u v A B E; cbn in E.
  - injection E as ->. auto.
  - injection E as <- _. apply without_cons in B as [B _]. congruence.
  - injection E as -> _. apply without_cons in A as [A _]. congruence.
  - injection E as -> E. apply without_cons in A as [_ A]. apply without_cons in B as [_ B]. destruct (IH q u v A B E) as [-> ->]. auto.
Qed.
Definition before_dot (p : string) (d : document) : string :=
  match d with
  | FlowDiagram | ResultsCsv | Ltp _ | Stp _ => p
  | IntensityCsv | IntensityJson => p ++ "_intensity"
  | ResultsJson => p ++ "_v3"
  | RunInfoJson => p ++ "_run_info"
  end.
Definition after_dot (d : document) : string :=
  match d with
  | FlowDiagram => "flow-diagram.json"
  | ResultsCsv | IntensityCsv => "csv"
  | ResultsJson | RunInfoJson | IntensityJson => "json"
  | Ltp g => g ++ ".ltp.tsv"
  | Stp g => g ++ ".stp.tsv"
  end.
Lemma named_parts : forall p d name, without "." p -> named p d name -> name = (before_dot p d ++ String "." (after_dot d))%string /\ without "." (before_dot p d).
Proof.
  intros p d name W N. destruct N; cbn [before_dot after_dot];
    try match goal with X : bare _ _ |- _ => rewrite (bare_undotted _ _ W X) end;
    (split; [rewrite ?app_assoc_s; reflexivity|]); try exact W; apply without_app; (split; [exact W|apply without_compute; reflexivity]).
Qed.
Lemma names_apart : forall p q d e name, without "." p -> without "." q -> p <> q -> q <> (p ++ "_intensity")%string -> p <> (q ++ "_intensity")%string ->
  named p d name -> named q e name -> False.
Proof.
  intros p q d e name A B N I J X Y. pose proof (named_ending _ _ _ X) as E. rewrite (named_ending _ _ _ Y) in E.
  apply (named_parts p d name A) in X as [X X0]. apply (named_parts q e name B) in Y as [Y Y0]. rewrite X in Y. apply first_dot in Y as [Y Z]; auto. clear X X0 Y0.
  destruct d, e; cbn [before_dot after_dot ending_of] in *; try discriminate E; try discriminate Z; try congruence;
    first [apply tail_eq in Y as [Y _]; [congruence|reflexivity]
          |apply (f_equal last4) in Y; rewrite !last_app in Y by (cbn; lia); discriminate Y
          |idtac].
  all: apply (f_equal (fun s => firstn 3 (rev (list_ascii_of_string s)))) in Y; rewrite !chars_app, !rev_app_distr in Y; cbn in Y; discriminate Y.
Qed.
Lemma runs_apart : forall k k1 k2 folder p q r1 r2, without "." p -> without "." q -> p <> q -> q <> (p ++ "_intensity")%string -> p <> (q ++ "_intensity")%string ->
  plain_run k folder p r1 -> run_command k r1 = (k1, Ok tt) -> plain_run k1 folder q r2 -> run_command k1 r2 = (k2, Ok tt) ->
  all_written k2 folder p r1 /\ all_written k2 folder q r2.
Proof.
  intros k k1 k2 folder p q r1 r2 A B N I J P1 R1 P2 R2. destruct (run_spec k folder p r1 P1) as (x & X1 & X2 & _). assert (x = k1) as -> by congruence.
  destruct (run_spec k1 folder q r2 P2) as (y & Y1 & Y2 & Y3 & _). assert (y = k2) as -> by congruence. split; [|exact Y2].
  intros d text name D M. rewrite Y3; [exact (X2 d text name D M)|]. intros d' t' n' _ M' E. apply app_inj_tail in E as [_ <-]. exact (names_apart p q d d' name A B N I J M M').
Qed.
(** runs in different folders *)
Lemma folders_apart : forall k k1 k2 f g p q r1 r2, f <> g ->
  plain_run k f p r1 -> run_command k r1 = (k1, Ok tt) -> plain_run k1 g q r2 -> run_command k1 r2 = (k2, Ok tt) ->
  all_written k2 f p r1 /\ all_written k2 g q r2.
Proof.
  intros k k1 k2 f g p q r1 r2 N P1 R1 P2 R2. destruct (run_spec k f p r1 P1) as (x & X1 & X2 & _). assert (x = k1) as -> by congruence.
  destruct (run_spec k1 g q r2 P2) as (y & Y1 & Y2 & Y3 & _). assert (y = k2) as -> by congruence. split; [|exact Y2].
  intros d text name D M. rewrite Y3; [exact (X2 d text name D M)|]. intros d' t' n' _ M' E. apply app_inj_tail in E as [E _]. congruence.
Qed.

(** ** what goes wrong *)
Definition out : path := ["data"; "output"]%string.
Definition empty_disk : disk := mkDisk (fun p => path_eqb p ["data"%string] || path_eqb p out) (fun _ => None).
Definition csv_run (prefix text : string) : run_call := mkRun ["data"; "model.yaml"]%string (Some out) (Some prefix) true true false false false false (fun _ => text) [] [].
Definition ltp_run (installation : string) : run_call := mkRun ["data"; "model.yaml"]%string (Some out) (Some "case"%string) true true false true false false (fun _ => "results"%string) [(installation, "table"%string)] [].

Lemma csv_plain : forall k prefix text, proper_part prefix -> directory k = directory empty_disk -> plain_run k out prefix (csv_run prefix text).
Proof.
  intros k prefix text P D. split; [reflexivity|]. split; [left; reflexivity|]. split; [left; reflexivity|]. split.
  - exists ["data"%string], "output"%string. rewrite D. repeat split; left; reflexivity.
  - split; [exact P|]. split; [split; [constructor|intros ? ? []]|]. split; [split; [constructor|intros ? ? []]|]. intros d t n _ _. rewrite D. reflexivity.
Qed.

Lemma overwritten_refuted : exists k k1 k2 folder p q r1 r2, p <> q /\
  plain_run k folder p r1 /\ run_command k r1 = (k1, Ok tt) /\ plain_run k1 folder q r2 /\ run_command k1 r2 = (k2, Ok tt) /\
  ~ all_written k2 folder p r1.
Proof.
  exists empty_disk, (fst (run_command empty_disk (csv_run "case.1" "first"))), (fst (run_command (fst (run_command empty_disk (csv_run "case.1" "first"))) (csv_run "case.2" "second"))), out, "case.1"%string, "case.2"%string, (csv_run "case.1" "first"), (csv_run "case.2" "second").
  split; [discriminate|]. split; [apply csv_plain; [repeat split; try discriminate; apply without_compute; reflexivity|reflexivity]|]. split; [reflexivity|].
  split; [apply csv_plain; [repeat split; try discriminate; apply without_compute; reflexivity|reflexivity]|]. split; [reflexivity|].
  intros H. specialize (H ResultsCsv "first"%string "case.csv"%string). assert (bare "case.1" "case") as B.
  { left. exists "1"%string. repeat split; try discriminate. apply without_compute. reflexivity. }
  specialize (H (asked_csv (csv_run "case.1" "first") eq_refl) (named_csv "case.1" "case" B)). discriminate H.
Qed.
Lemma overwritten_intensity_refuted : exists k k1 k2 folder p q r1 r2, p <> q /\ without "." p /\ without "." q /\
  plain_run k folder p r1 /\ run_command k r1 = (k1, Ok tt) /\ plain_run k1 folder q r2 /\ run_command k1 r2 = (k2, Ok tt) /\
  ~ all_written k2 folder p r1.
Proof.
  exists empty_disk, (fst (run_command empty_disk (csv_run "case" "first"))), (fst (run_command (fst (run_command empty_disk (csv_run "case" "first"))) (csv_run "case_intensity" "second"))), out, "case"%string, "case_intensity"%string, (csv_run "case" "first"), (csv_run "case_intensity" "second").
  split; [discriminate|]. split; [apply without_compute; reflexivity|]. split; [apply without_compute; reflexivity|]. split; [apply csv_plain; [repeat split; try discriminate; apply without_compute; reflexivity|reflexivity]|]. split; [reflexivity|].
  split; [apply csv_plain; [repeat split; try discriminate; apply without_compute; reflexivity|reflexivity]|]. split; [reflexivity|].
  intros H. specialize (H IntensityCsv "first"%string "case_intensity.csv"%string). assert (bare "case" "case") as B.
  { right. split; [reflexivity|]. intros (t & e & X & _). assert (without "." "case") as W by (apply without_compute; reflexivity). rewrite X in W. apply without_app in W as [_ W]. apply without_cons in W as [W _]. congruence. }
  specialize (H (asked_intensity_csv (csv_run "case" "first") eq_refl) (named_intensity_csv "case" "case" B)). discriminate H.
Qed.
Lemma outside_refuted : exists k k' r folder outside text, writes_to r folder /\ prefixed r "" /\ has_place k folder /\ run_command k r = (k', Ok tt) /\
  asked r ResultsCsv text /\ file_at k outside = None /\ file_at k' outside = Some text /\ ~ exists parts, outside = folder ++ parts.
Proof.
  exists empty_disk, (fst (run_command empty_disk (csv_run "" "results"))), (csv_run "" "results"), out, ["data"; "output.csv"]%string, "results"%string.
  split; [left; reflexivity|]. split; [left; reflexivity|]. split; [exists ["data"%string], "output"%string; repeat split; left; reflexivity|].
  split; [reflexivity|]. split; [exact (asked_csv (csv_run "" "results") eq_refl)|]. split; [reflexivity|]. split; [reflexivity|]. intros (parts & E). discriminate E.
Qed.
Lemma slash_refuted : exists k r folder prefix, r_co2 r = true /\ writes_to r folder /\ prefixed r prefix /\ has_place k folder /\ proper_part prefix /\
  NoDup (map fst (r_ltp_tables r)) /\ map fst (r_ltp_tables r) = ["North/South"]%string /\ snd (run_command k r) = Err OtherError.
Proof.
  exists empty_disk, (ltp_run "North/South"), out, "case"%string. split; [reflexivity|]. split; [left; reflexivity|]. split; [left; reflexivity|]. split; [exists ["data"%string], "output"%string; repeat split; left; reflexivity|].
  split; [repeat split; try discriminate; apply without_compute; reflexivity|]. split; [repeat constructor; intros []|]. split; reflexivity.
Qed.
(** without CO2 *)
Lemma no_co2 : forall k r, r_co2 r = false -> exists k' e, run_command k r = (k', Err e) /\
  forall p, (forall q, path_for (output_folder r) (name_prefix r) FlowDiagram = Ok q -> p <> q) -> file_at k' p = file_at k p.
Proof.
  intros k r C. unfold run_command. rewrite C. unfold make_folder. destruct (directory k (path_parent (output_folder r))); cbn [negb]; [|exists k, OtherError; split; [reflexivity|reflexivity]].
  assert (forall k1, file_at k1 = file_at k -> exists k' e, (let (k'', y) := write_all (output_folder r) (name_prefix r) k1 (to_write_first r) in match y with Ok _ => (k'', Err OtherError) | Err e => (k'', Err e) end) = (k', Err e : result unit) /\
    forall p, (forall q, path_for (output_folder r) (name_prefix r) FlowDiagram = Ok q -> p <> q) -> file_at k' p = file_at k p) as H.
  { intros k1 E. unfold to_write_first. destruct (r_flow r); cbn [write_all]; [|exists k1, OtherError; split; [reflexivity|intros p _; rewrite E; reflexivity]].
    destruct (path_for (output_folder r) (name_prefix r) FlowDiagram) as [q|e]; cbn [bind]; [|exists k1, e; split; [reflexivity|intros p _; rewrite E; reflexivity]].
    unfold write_file. destruct (directory k1 (path_parent q) && negb (directory k1 q)); [|exists k1, OtherError; split; [reflexivity|intros p _; rewrite E; reflexivity]].
    eexists _, OtherError. split; [reflexivity|]. intros p N. cbn [file_at]. destruct (path_eqb p q) eqn:X; [|rewrite E; reflexivity]. apply path_eqb_spec in X. destruct (N q eq_refl X). }
  destruct (directory k (output_folder r)).
  - destruct (H k eq_refl) as (k' & e & A & B). exists k', e. split; [exact A|exact B].
  - destruct (file_at k (output_folder r)) eqn:F; [exists k, OtherError; split; reflexivity|]. exact (H (mkDisk (fun q => directory k q || path_eqb q (output_folder r)) (file_at k)) eq_refl).
Qed.
Lemma no_co2_refuted : exists k r folder prefix, writes_to r folder /\ prefixed r prefix /\ has_place k folder /\ proper_part prefix /\
  asked r ResultsCsv "results" /\ snd (run_command k r) = Err OtherError /\ forall p, file_at (fst (run_command k r)) p = None.
Proof.
  exists empty_disk, (mkRun ["data"; "model.yaml"]%string (Some out) (Some "case"%string) false true false false false false (fun _ => "results"%string) [] []), out, "case"%string.
  split; [left; reflexivity|]. split; [left; reflexivity|]. split; [exists ["data"%string], "output"%string; repeat split; left; reflexivity|].
  split; [repeat split; try discriminate; apply without_compute; reflexivity|]. split; [match goal with |- asked ?r _ _ => exact (asked_csv r eq_refl) end|]. split; reflexivity.
Qed.

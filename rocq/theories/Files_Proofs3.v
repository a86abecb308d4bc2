(** Charts from files: the curves of a file with several speeds, of one with one speed, and of the model file. *)
From Coq Require Import PeanoNat String Lia.
From Verif Require Import QcTac Base BaseLemmas Input_Model Chart_Model Files_Model Files_Spec Files_Proofs Files_Proofs2.
Local Open Scope list_scope.
Local Open Scope Qc_scope.

Lemma mapM_all : forall A B (f : A -> result B) l, (exists ys, mapM f l = Ok ys) <-> forall x, In x l -> exists y, f x = Ok y.
Proof.
  intros A B f l. induction l as [|a l IH]; cbn [mapM].
  - split; [intros _ x []|intros _; eexists; reflexivity].
  - split.
    + intros [ys E] x [<-|I].
      * destruct (f a) as [y|]; [exists y; reflexivity|discriminate E].
      * destruct (f a) as [y|]; [|discriminate E]. cbn [Base.bind] in E. destruct (mapM f l) as [z|] eqn:M; [|discriminate E]. apply (proj1 IH); [eexists; reflexivity|exact I].
    + intros H. destruct (H a (or_introl eq_refl)) as [y ->]. cbn [Base.bind]. destruct (proj2 IH) as [z ->]; [intros x I; apply H; right; exact I|]. eexists. reflexivity.
Qed.

(** ** in order of speed *)
Lemma by_speed_perm : forall cs, Permutation cs (by_speed cs).
Proof. intros cs. apply sort_perm. Qed.
Lemma by_speed_order : forall cs, StronglySorted (fun a b => cv_speed a <= cv_speed b) (by_speed cs).
Proof.
  intros cs. unfold by_speed. apply Sorted_StronglySorted.
  - intros a b c. apply Qcle_trans.
  - assert (S := sort_Sorted curve (fun a b => Qcleb (cv_speed a) (cv_speed b))). specialize (S ltac:(intros x y E; apply Qcleb_le; destruct (Qclt_le_dec (cv_speed x) (cv_speed y)) as [W|W]; [apply Qclt_le_weak, Qcleb_le in W; congruence|exact W]) cs).
    induction S as [|a l S IH H]; constructor; [exact IH|]. destruct H as [|b l H]; constructor. apply Qcleb_le. exact H.
Qed.
Lemma strictly_ordered : forall cs, StronglySorted (fun a b => cv_speed a <= cv_speed b) cs -> NoDup (map cv_speed cs) -> StronglySorted (fun a b => cv_speed a < cv_speed b) cs.
Proof.
  induction 1 as [|c cs S IH H]; intros N; constructor.
  - apply IH. inversion N. assumption.
  - cbn [map] in N. inversion N as [|? ? A B]. subst. apply Forall_forall. intros d I. rewrite Forall_forall in H. specialize (H d I).
    apply Qcle_lt_or_eq in H as [H|H]; [exact H|]. exfalso. apply A. rewrite H. apply in_map. exact I.
Qed.

(** ** the data frame *)
Lemma no_repeat_spec : forall l, no_repeat l = true <-> NoDup l.
Proof.
  induction l as [|x l IH]; cbn [no_repeat]; [split; [constructor|reflexivity]|]. rewrite andb_true_iff, negb_true_iff, IH. split.
  - intros [A B]. constructor; [|exact B]. intros I. enough (existsb (String.eqb x) l = true) by congruence. apply existsb_exists. exists x. split; [exact I|apply String.eqb_refl].
  - intros N. inversion N as [|? ? A B]. subst. split; [|exact B]. destruct (existsb (String.eqb x) l) eqn:E; [|reflexivity].
    apply existsb_exists in E as (y & I & E). apply String.eqb_eq in E. subst. contradiction.
Qed.
Lemma columns_numbers : forall f, (exists cols, mapM (get_float_column f) (f_headers f) = Ok cols) <-> only_numbers f.
Proof.
  intros f. rewrite mapM_all. unfold only_numbers. split; intros H h I; destruct (H h I) as [v V]; exists v; apply float_column; exact V.
Qed.
Lemma frame_proper : forall f cols, proper_file f -> mapM (get_float_column f) (f_headers f) = Ok cols -> rectangular cols && no_repeat (f_headers f) = true.
Proof.
  intros f cols P E. apply andb_true_iff. split; [|apply no_repeat_spec; exact (pf_headers f P)].
  destruct (column_length f P) as (n & _ & L). apply mapM_Ok in E.
  assert (forall c, In c cols -> List.length c = n) as A.
  { intros c I. revert I. induction E as [|h v hs vs C _ IH]; [intros []|]. intros [<-|I]; [|apply IH; exact I]. apply float_column in C. exact (L h v C). }
  destruct cols as [|c cols]; [reflexivity|]. cbn [rectangular]. apply forallb_forall. intros d I. apply Nat.eqb_eq. rewrite (A d (or_intror I)), (A c (or_introl eq_refl)). reflexivity.
Qed.
Lemma Forall2_nth : forall A B (P : A -> B -> Prop) l m i a, Forall2 P l m -> nth_error l i = Some a -> exists b, nth_error m i = Some b /\ P a b.
Proof. intros A B P l m i a H. revert i. induction H as [|x y l m p _ IH]; intros [|i] E; try discriminate E; cbn in E; [injection E as <-; exists y; auto|apply IH; exact E]. Qed.
Lemma frame_column_spec : forall f cols name v, mapM (get_float_column f) (f_headers f) = Ok cols ->
  (frame_column (f_headers f) cols name = Ok v <-> In name (f_headers f) /\ column_is f name v).
Proof.
  intros f cols name v E. apply mapM_Ok in E. unfold frame_column. assert (forall a b, String.eqb a b = true <-> a = b) as Q by (intros; apply String.eqb_eq).
  destruct (index_of String.eqb name (f_headers f)) as [i|] eqn:I.
  - pose proof (proj1 (index_of_Some _ _ _ _ _ Q I)) as N. destruct (Forall2_nth _ _ _ _ _ _ _ E N) as (w & W & C). rewrite W. cbn [of_option].
    apply float_column in C. split.
    + intros X. injection X as <-. split; [exact (nth_error_In _ _ N)|exact C].
    + intros [_ X]. f_equal. exact (column_unique f name w v C X).
  - apply (index_of_None _ _ _ _ Q) in I. split; [discriminate|]. intros [X _]. contradiction.
Qed.

(** ** rows *)
Lemma rows_exist : forall f s r h e, proper_file f -> column_is f "SPEED" s -> column_is f "RATE" r -> column_is f "HEAD" h -> column_is f "EFFICIENCY" e ->
  exists rows : list row, rows <> [] /\ s = map fst rows /\ r = map (fun x => fst (fst (snd x))) rows /\ h = map (fun x => snd (fst (snd x))) rows /\ e = map (fun x => snd (snd x)) rows.
Proof.
  intros f s r h e P S R H E. destruct (column_length f P) as (n & Z & L). pose proof (L _ _ S) as H0. pose proof (L _ _ R) as H1. pose proof (L _ _ H) as H2. pose proof (L _ _ E) as H3.
  destruct (triples _ _ _ r h e) as (ps & -> & -> & ->); [lia|lia|]. clear - H0 H1 Z. rewrite map_length in H1. rewrite <- H1 in H0, Z. clear H1. exists (combine s ps).
  split; [destruct s; [cbn in H0; lia|]; destruct ps; [discriminate H0|discriminate]|]. clear Z. revert ps H0. induction s as [|x s IH]; intros [|p ps] L; try discriminate L; [auto|].
  injection L as L. destruct (IH ps L) as (A & B & C & D). cbn. rewrite <- A, <- B, <- C, <- D. auto.
Qed.
Lemma group_rows : forall f u cols rows s, mapM (get_float_column f) (f_headers f) = Ok cols -> points_are f rows ->
  In "RATE"%string (f_headers f) -> In "HEAD"%string (f_headers f) -> In "EFFICIENCY"%string (f_headers f) ->
  group_curve u (f_headers f) cols (map fst rows) s = converted_curve u s (map (fun p => fst (fst p)) (pick s rows)) (map (fun p => snd (fst p)) (pick s rows)) (map snd (pick s rows)).
Proof.
  intros f u cols rows s E (R & H & F) IR IH IE. unfold group_curve. rewrite (proj2 (frame_column_spec f cols _ _ E) (conj IR R)), (proj2 (frame_column_spec f cols _ _ E) (conj IH H)), (proj2 (frame_column_spec f cols _ _ E) (conj IE F)).
  cbn [Base.bind]. rewrite (group_pick (fun p => fst (fst p))), (group_pick (fun p => snd (fst p))), (group_pick snd). reflexivity.
Qed.
Lemma has_speed : forall f, existsb (String.eqb "SPEED") (f_headers f) = true <-> In "SPEED"%string (f_headers f).
Proof. intros f. rewrite existsb_exists. split; [intros (x & I & E); apply String.eqb_eq in E; subst; exact I|intros I; exists "SPEED"%string; auto]. Qed.

Definition full_headers (f : file) : Prop := forall name, In name ["SPEED"; "RATE"; "HEAD"; "EFFICIENCY"]%string -> In name (f_headers f).
Lemma variable_frame : forall f u cs, proper_file f -> variable_speed_curves f u = Ok cs -> only_numbers f /\ full_headers f /\
  exists rows, rows_are f rows /\ Forall2 (fun s c => converted_curve u s (map (fun p => fst (fst p)) (pick s rows)) (map (fun p => snd (fst p)) (pick s rows)) (map snd (pick s rows)) = Ok c) (distinct (map fst rows)) cs.
Proof.
  intros f u cs P E. unfold variable_speed_curves in E. destruct (existsb (String.eqb "SPEED") (f_headers f)) eqn:S; [|discriminate E]. apply has_speed in S. cbn [negb] in E.
  destruct (mapM (get_float_column f) (f_headers f)) as [cols|] eqn:M; [|discriminate E]. cbn [Base.bind] in E.
  rewrite (frame_proper f cols P M) in E. cbn [negb] in E. destruct (frame_column (f_headers f) cols "SPEED") as [speeds|] eqn:C; [|discriminate E]. cbn [Base.bind] in E.
  apply (frame_column_spec f cols _ _ M) in C as [_ C]. destruct (column_length f P) as (n & Z & L). apply mapM_Ok in E.
  assert (exists s0, In s0 (distinct speeds)) as (s0 & I0).
  { pose proof (L _ _ C) as H. destruct speeds as [|s0 r]; [cbn in H; lia|]. exists s0. apply distinct_In. left. reflexivity. }
  assert (exists c, group_curve u (f_headers f) cols speeds s0 = Ok c) as (c0 & G).
  { clear - E I0. induction E as [|s c ss cs G _ IH]; [destruct I0|]. destruct I0 as [<-|I0]; [exists c; exact G|apply IH; exact I0]. }
  unfold group_curve in G. destruct (frame_column (f_headers f) cols "RATE") as [r|] eqn:FR; [|discriminate G]. cbn [Base.bind] in G.
  destruct (frame_column (f_headers f) cols "HEAD") as [h|] eqn:FH; [|discriminate G]. cbn [Base.bind] in G.
  destruct (frame_column (f_headers f) cols "EFFICIENCY") as [e|] eqn:FE; [|discriminate G].
  apply (frame_column_spec f cols _ _ M) in FR as [IR FR]. apply (frame_column_spec f cols _ _ M) in FH as [IH FH]. apply (frame_column_spec f cols _ _ M) in FE as [IE FE].
  split; [apply columns_numbers; eexists; exact M|]. split; [intros name [<-|[<-|[<-|[<-|[]]]]]; assumption|].
  destruct (rows_exist f speeds r h e P C FR FH FE) as (rows & _ & -> & -> & -> & ->). exists rows.
  assert (points_are f rows) as PA by (split; [exact FR|split; [exact FH|exact FE]]). split; [split; [exact C|exact PA]|].
  clear - E M PA IR IH IE. remember (distinct (map fst rows)) as ss. clear Heqss. induction E as [|s c ss cs G _ IHE]; constructor; [|exact IHE]. rewrite <- G. symmetry. apply group_rows; assumption.
Qed.
Lemma rows_unique : forall f (a b : list row), rows_are f a -> rows_are f b -> a = b.
Proof.
  intros f a b (SA & RA & HA & EA) (SB & RB & HB & EB). pose proof (column_unique _ _ _ _ SA SB) as S. pose proof (column_unique _ _ _ _ RA RB) as R.
  pose proof (column_unique _ _ _ _ HA HB) as H. pose proof (column_unique _ _ _ _ EA EB) as E. clear - S R H E.
  revert b S R H E. induction a as [|[s [[r h] e]] a IH]; intros [|[s' [[r' h'] e']] b] S R H E; try discriminate S; [reflexivity|].
  injection S as -> S. injection R as -> R. injection H as -> H. injection E as -> E. f_equal. apply IH; assumption.
Qed.

Lemma variable_accepted_proof : forall f u, proper_file f ->
  ((exists cs, from_resource f u false = Ok cs) <->
   only_numbers f /\ (forall name, In name ["SPEED"; "RATE"; "HEAD"; "EFFICIENCY"]%string -> In name (f_headers f)) /\
   exists rows, rows_are f rows /\ rows_ok u rows).
Proof.
  intros f u P. unfold from_resource. split.
  - intros [cs E]. destruct (variable_speed_curves f u) as [made|] eqn:V; [|discriminate E]. destruct (variable_frame f u made P V) as (N & H & rows & R & F).
    split; [exact N|]. split; [exact H|]. exists rows. split; [exact R|]. intros s I. exists (pick s rows). split; [apply pick_spec; reflexivity|].
    apply distinct_In in I. clear - F I. induction F as [|t c ts cs G _ IH]; [destruct I|]. destruct I as [<-|I]; [|apply IH; exact I]. apply (make_ok u t). eexists. exact G.
  - intros (N & H & rows & (S & R) & K). apply columns_numbers in N as [cols M]. unfold variable_speed_curves.
    rewrite (proj2 (has_speed f) (H "SPEED"%string (or_introl eq_refl))). cbn [negb]. rewrite M. cbn [Base.bind]. rewrite (frame_proper f cols P M). cbn [negb].
    rewrite (proj2 (frame_column_spec f cols "SPEED" _ M) (conj (H "SPEED"%string (or_introl eq_refl)) S)). cbn [Base.bind].
    destruct (proj2 (mapM_all _ _ (group_curve u (f_headers f) cols (map fst rows)) (distinct (map fst rows)))) as [made ->]; [|eexists; reflexivity].
    intros s I. apply (proj1 (distinct_In s _)) in I. rewrite (group_rows f u cols rows s M R) by (apply H; cbn; auto). apply make_ok. destruct (K s I) as (ps & A & B). apply pick_spec in A. subst ps. exact B.
Qed.
Lemma made_speeds : forall u rows ss cs, Forall2 (fun s c => converted_curve u s (map (fun p => fst (fst p)) (pick s rows)) (map (fun p => snd (fst p)) (pick s rows)) (map snd (pick s rows)) = Ok c) ss cs ->
  map cv_speed cs = ss /\ forall c, In c cs -> exists ps, at_speed (cv_speed c) rows ps /\ curve_through u ps c.
Proof.
  intros u rows ss cs F. induction F as [|s c ss cs G _ [IH1 IH2]]; [split; [reflexivity|intros c []]|]. destruct (make_is _ _ _ _ G) as [A B]. split; [cbn; congruence|].
  intros d [<-|I]; [|apply IH2; exact I]. exists (pick s rows). rewrite A. split; [apply pick_spec; reflexivity|exact B].
Qed.
Lemma variable_curves_proof : forall f u rows cs, proper_file f -> rows_are f rows -> from_resource f u false = Ok cs -> curves_of u rows cs.
Proof.
  intros f u rows cs P R E. unfold from_resource in E. destruct (variable_speed_curves f u) as [made|] eqn:V; [|discriminate E]. cbn [Base.bind] in E. injection E as <-.
  destruct (variable_frame f u made P V) as (_ & _ & rows' & R' & F). rewrite (rows_unique f _ _ R' R) in F. clear rows' R'.
  destruct (made_speeds u rows _ _ F) as [S T]. pose proof (by_speed_perm made) as Q. split; [|split].
  - apply strictly_ordered; [apply by_speed_order|]. apply (Permutation_NoDup (Permutation_map cv_speed Q)). rewrite S. apply distinct_NoDup.
  - intros s. rewrite <- distinct_In, <- S. split; apply Permutation_in; [exact (Permutation_map cv_speed Q)|exact (Permutation_map cv_speed (Permutation_sym Q))].
  - intros c I. apply T. exact (Permutation_in _ (Permutation_sym Q) I).
Qed.

(** ** one speed *)
Lemma pick_all : forall s rows, (forall r : row, In r rows -> fst r = s) -> pick s rows = map snd rows.
Proof.
  intros s rows H. unfold pick. f_equal. induction rows as [|r rows IH]; [reflexivity|]. cbn [filter]. rewrite (H r (or_introl eq_refl)), (proj2 (Qceqb_eq s s) eq_refl).
  exact (f_equal (cons r) (IH (fun x I => H x (or_intror I)))).
Qed.
Lemma single_speed_frame : forall f u cs, proper_file f -> single_speed_curves f u = Ok cs -> exists s rows c, cs = [c] /\ rows <> [] /\ single_rows_are f rows /\ (forall r, In r rows -> fst r = s) /\
  converted_curve u s (map (fun p => fst (fst p)) (map snd rows)) (map (fun p => snd (fst p)) (map snd rows)) (map snd (map snd rows)) = Ok c.
Proof.
  intros f u cs P E. unfold single_speed_curves in E. destruct (single_speed_of f) as [s|] eqn:S; [|discriminate E]. cbn [Base.bind] in E.
  destruct (get_float_column f "EFFICIENCY") as [e|] eqn:FE; [|discriminate E]. cbn [Base.bind] in E. destruct (get_float_column f "RATE") as [r|] eqn:FR; [|discriminate E]. cbn [Base.bind] in E.
  destruct (get_float_column f "HEAD") as [h|] eqn:FH; [|discriminate E]. cbn [Base.bind] in E. destruct (converted_curve u s r h e) as [c|] eqn:C; [|discriminate E]. injection E as <-.
  apply float_column in FE, FR, FH. unfold single_speed_of in S. destruct (get_float_column f "SPEED") as [speeds|er] eqn:FS.
  - apply float_column in FS. destruct (all_numbers_equal speeds) eqn:A; [|discriminate S]. apply all_equal_spec in A as (t & N & A). destruct speeds as [|x speeds]; [congruence|]. injection S as ->.
    pose proof (A s (or_introl eq_refl)) as ->. destruct (rows_exist f _ r h e P FS FR FH FE) as (rows & NE & X & -> & -> & ->). exists t, rows, c.
    split; [reflexivity|]. split; [exact NE|]. split; [left; split; [rewrite X in FS; exact FS|split; [exact FR|split; [exact FH|exact FE]]]|].
    split; [intros y I; apply A; rewrite X; apply in_map; exact I|]. rewrite !map_map. exact C.
  - assert (er = KeyError) as -> by (destruct er; try discriminate S; reflexivity). injection S as <-. apply float_column_missing in FS.
    destruct (column_length f P) as (n & Z & L). pose proof (L _ _ FR) as H. pose proof (L _ _ FH) as H'. pose proof (L _ _ FE) as H''. destruct (triples _ _ _ r h e) as (ps & -> & -> & ->); [lia|lia|].
    exists 1, (map (fun p => (1, p)) ps), c. split; [reflexivity|]. split; [rewrite map_length in H; destruct ps; [cbn in H; lia|discriminate]|].
    assert (map snd (map (fun p => (1, p)) ps) = ps) as I by (rewrite map_map; apply map_id).
    split; [right; split; [exact FS|]; split|].
    + unfold points_are. rewrite !map_map. cbn [snd]. auto.
    + intros y J. apply in_map_iff in J as (p & <- & _). reflexivity.
    + split; [intros y J; apply in_map_iff in J as (p & <- & _); reflexivity|]. rewrite I. exact C.
Qed.
Lemma single_unique : forall f (a b : list row), single_rows_are f a -> single_rows_are f b -> a = b.
Proof.
  intros f a b [A|(NA & PA & OA)] [B|(NB & PB & OB)].
  - exact (rows_unique f a b A B).
  - exfalso. apply NB. destruct A as [(i & h & N & K & _) _]. exists h. split; [exact (nth_error_In _ _ N)|exact K].
  - exfalso. apply NA. destruct B as [(i & h & N & K & _) _]. exists h. split; [exact (nth_error_In _ _ N)|exact K].
  - destruct PA as (RA & HA & EA). destruct PB as (RB & HB & EB). pose proof (column_unique _ _ _ _ RA RB) as R.
    pose proof (column_unique _ _ _ _ HA HB) as H. pose proof (column_unique _ _ _ _ EA EB) as E. clear - OA OB R H E.
    revert b OB R H E. induction a as [|[s [[r h] e]] a IH]; intros [|[s' [[r' h'] e']] b] OB R H E; try discriminate R; [reflexivity|].
    injection R as -> R. injection H as -> H. injection E as -> E. pose proof (OA _ (or_introl eq_refl)) as H0. pose proof (OB _ (or_introl eq_refl)) as H1. cbn in H0, H1. subst s s'. f_equal.
    apply IH; auto; intros x I; [apply OA|apply OB]; right; exact I.
Qed.
Lemma single_accepted_proof : forall f u, proper_file f ->
  ((exists cs, from_resource f u true = Ok cs) <->
   exists rows s, single_rows_are f rows /\ (forall r, In r rows -> fst r = s) /\ points_ok u (map snd rows)).
Proof.
  intros f u P. unfold from_resource. split.
  - intros [cs E]. destruct (single_speed_curves f u) as [made|] eqn:V; [|discriminate E]. destruct (single_speed_frame f u made P V) as (s & rows & c & -> & _ & R & A & C).
    exists rows, s. split; [exact R|]. split; [exact A|]. apply (make_ok u s). eexists. exact C.
  - intros (rows & s & R & A & K). assert (rows <> []) as NE by (intros ->; destruct K as [K _]; cbn in K; lia).
    destruct (proj2 (make_ok u s (map snd rows)) K) as [c C]. rewrite !map_map in C.
    assert (single_speed_of f = Ok s /\ points_are f rows) as [S (FR & FH & FE)].
    { unfold single_speed_of. destruct R as [[S PA]|(N & PA & O)]; (split; [|exact PA]).
      - apply float_column in S. rewrite S. rewrite (proj2 (all_equal_spec (map fst rows))).
        + destruct rows as [|x rows]; [congruence|]. cbn. f_equal. apply A. left. reflexivity.
        + exists s. split; [destruct rows; [congruence|discriminate]|]. intros x I. apply in_map_iff in I as (y & <- & I). apply A. exact I.
      - apply float_column_missing in N. rewrite N. destruct rows as [|x rows]; [congruence|]. rewrite <- (A x (or_introl eq_refl)). f_equal. symmetry. apply O. left. reflexivity. }
    unfold single_speed_curves. rewrite S. cbn [Base.bind]. apply float_column in FR, FH, FE. rewrite FE. cbn [Base.bind]. rewrite FR. cbn [Base.bind]. rewrite FH. cbn [Base.bind].
    rewrite C. cbn [Base.bind]. eexists. reflexivity.
Qed.
Lemma single_curves_proof : forall f u rows cs, proper_file f -> single_rows_are f rows -> from_resource f u true = Ok cs ->
  exists c, cs = [c] /\ (forall r, In r rows -> fst r = cv_speed c) /\ curve_through u (map snd rows) c.
Proof.
  intros f u rows cs P R E. unfold from_resource in E. destruct (single_speed_curves f u) as [made|] eqn:V; [|discriminate E]. destruct (single_speed_frame f u made P V) as (s & rows' & c & -> & _ & R' & A & C).
  rewrite (single_unique f _ _ R' R) in *. injection E as <-. destruct (make_is _ _ _ _ C) as [S T]. exists c. split; [reflexivity|]. rewrite S. split; [exact A|exact T].
Qed.

(** ** the model file *)
Lemma yaml_accepted_proof : forall ys u, (exists cs, from_yaml_curves ys u = Ok cs) <-> forall y, In y ys -> exists ps, written_points y ps /\ points_ok u ps.
Proof.
  intros ys u. unfold from_yaml_curves. split.
  - intros [cs E] y I. destruct (mapM _ ys) as [made|] eqn:M; [|discriminate E]. destruct (proj1 (mapM_all _ _ _ ys) (ex_intro _ _ M) y I) as [c C]. cbn in C.
    destruct (make_lengths _ _ _ _ _ _ C) as [A B]. destruct (triples _ _ _ _ _ _ A B) as (ps & R & H & F). exists ps. split; [split; auto|].
    rewrite R, H, F in C. apply (make_ok u (yc_speed y)). eexists. exact C.
  - intros H. destruct (proj2 (mapM_all _ _ (fun c => converted_curve u (yc_speed c) (yc_rate c) (yc_head c) (yc_efficiency c)) ys)) as [made ->]; [|eexists; reflexivity].
    intros y I. destruct (H y I) as (ps & (R & G & F) & K). cbn. rewrite R, G, F. apply make_ok. exact K.
Qed.
Lemma yaml_curves_proof : forall ys u cs, from_yaml_curves ys u = Ok cs ->
  StronglySorted (fun a b => cv_speed a <= cv_speed b) cs /\
  exists made, Permutation made cs /\ Forall2 (fun y c => cv_speed c = yc_speed y /\ exists ps, written_points y ps /\ curve_through u ps c) ys made.
Proof.
  intros ys u cs E. unfold from_yaml_curves in E. destruct (mapM _ ys) as [made|] eqn:M; [|discriminate E]. injection E as <-. split; [apply by_speed_order|].
  exists made. split; [apply by_speed_perm|]. apply mapM_Ok in M. induction M as [|y c ys made C _ IH]; constructor; [|exact IH]. cbn in C.
  destruct (make_lengths _ _ _ _ _ _ C) as [A B]. destruct (triples _ _ _ _ _ _ A B) as (ps & R & H & F). rewrite R, H, F in C. destruct (make_is _ _ _ _ C) as [S T].
  split; [exact S|]. exists ps. split; [split; auto|exact T].
Qed.

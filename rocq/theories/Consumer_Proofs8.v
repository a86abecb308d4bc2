(** Proofs about consumers: tables. *)
From Coq Require Import PeanoNat String.
From Verif Require Import Attributes_Proofs Attributes_Proofs2 QcTac Num Time_Model Time_Spec Time_Proofs Time_Proofs2 Units_Model Rates_Model Rates_Spec Rates_Proofs Rates_Proofs3 Rates_Proofs4
  Base BaseLemmas Expr_Model Expr_Spec Expr_Proofs Vars_Model Vars_Proofs Input_Model Interp_Model Interp_Spec Interp_Proofs Energy_Model Energy_Proofs Energy_Proofs2 Energy_Proofs3 Export_Proofs2 Emitters_Proofs5 Emitters_Spec
  Consumer_Model Consumer_Spec Consumer_Proofs Consumer_Proofs2 Consumer_Proofs3 Consumer_Proofs4 Consumer_Proofs5 Consumer_Proofs6 Consumer_Proofs7.
Local Open Scope list_scope.
Local Open Scope nat_scope.

Lemma mapM_total : forall (A B : Type) (f : A -> result B) l, (forall a, In a l -> exists b, f a = Ok b) -> exists bs, mapM f l = Ok bs.
Proof.
  intros A B f l. induction l as [|a l IH]; intros H; [eexists; reflexivity|]. destruct (H a (or_introl eq_refl)) as (b & Eb). destruct IH as (bs & E). { intros x I. apply H. now right. }
  exists (b :: bs). cbn [mapM]. rewrite Eb. cbn [bind]. now rewrite E.
Qed.
Lemma has_header_In : forall h t, has_header h t = true <-> In h (tb_headers t).
Proof.
  intros h t. unfold has_header. rewrite existsb_exists. split; [intros (x & I & E); apply String.eqb_eq in E; now subst|]. intros I. exists h. split; [exact I|apply String.eqb_refl].
Qed.
Lemma usage_header_name : forall t, usage_header (tabular_usage_type t) = usage_name t.
Proof.
  intros t. unfold usage_name, tabular_usage_type. destruct (has_header "POWER" t) eqn:E; destruct (in_dec string_dec "POWER"%string (tb_headers t)) as [I|I]; cbn [usage_header]; try reflexivity.
  - apply has_header_In in E. contradiction.
  - apply has_header_In in I. congruence.
Qed.
Lemma variables_table : forall t, NoDup (tb_headers t) -> tabular_variables t = table_variables t.
Proof.
  intros t ND. unfold tabular_variables, table_variables. rewrite usage_header_name. rewrite nodup_fixed_point by (now apply NoDup_filter).
  apply filter_ext. intros h. destruct (string_dec h (usage_name t)) as [->|N]; [now rewrite String.eqb_refl|]. destruct (String.eqb h (usage_name t)) eqn:E; [apply String.eqb_eq in E; contradiction|reflexivity].
Qed.
Lemma column_in : forall t h, NoDup (tb_headers t) -> List.length (tb_data t) = List.length (tb_headers t) -> In h (tb_headers t) ->
  exists vs, tabular_column t h = Ok vs /\ In (h, vs) (combine (tb_headers t) (tb_data t)) /\ forall vs', In (h, vs') (combine (tb_headers t) (tb_data t)) -> vs' = vs.
Proof.
  intros t h ND L I. apply In_nth_error in I as (i & K). unfold tabular_column. rewrite (index_of_nth _ String.eqb h (tb_headers t) i String.eqb_eq ND K).
  assert (i < List.length (tb_headers t)) as Li by (apply nth_error_Some; congruence).
  destruct (nth_error (tb_data t) i) as [vs|] eqn:Kd; [|apply nth_error_None in Kd; lia]. exists vs. split; [reflexivity|].
  assert (forall k a b, nth_error (combine (tb_headers t) (tb_data t)) k = Some (a, b) <-> nth_error (tb_headers t) k = Some a /\ nth_error (tb_data t) k = Some b) as NC.
  { clear. generalize (tb_headers t) (tb_data t). intros l. induction l as [|x l IH]; intros m k a b; [destruct k; cbn; split; [discriminate|intros [E _]; discriminate|discriminate|intros [E _]; discriminate]|].
    destruct m as [|y m]; [destruct k; cbn; split; [discriminate|intros [_ E]; discriminate|discriminate|intros [_ E]; destruct k; discriminate]|]. destruct k as [|k]; cbn [combine nth_error]; [|apply IH].
    split; [intros E; injection E as -> ->; auto|intros [E1 E2]; congruence]. }
  split; [apply (nth_error_In _ i); now apply NC|]. intros vs' I'. apply In_nth_error in I' as (k & Kk). apply NC in Kk as [K1 K2].
  assert (k = i) as -> by (eapply (proj1 (NoDup_nth_error _) ND); [apply nth_error_Some; congruence|congruence]). congruence.
Qed.
Lemma interpolate_outside : forall xs es f q, NoDup xs -> make_interpolator xs es None None = Ok f -> ~ in_range (combine xs es) q -> interpolate_1d f (Some q) = None.
Proof.
  intros xs es f x Hnd Ef Rx. destruct (interpolation_proof xs es None None f Hnd Ef) as (_ & HR & HB & HA & HN).
  destruct (Forall_Exists_dec (fun p : Qc * Qc => (x < fst p)%Qc)
    (fun p => match Qclt_le_dec x (fst p) with left H => left H | right H => right (Qcle_not_lt _ _ H) end) (combine xs es)) as [Hall|Hex].
  { rewrite Forall_forall in Hall. apply HB. intros a ya Ha. now apply (Hall (a, ya)). }
  destruct (Forall_Exists_dec (fun p : Qc * Qc => (fst p < x)%Qc)
    (fun p => match Qclt_le_dec (fst p) x with left H => left H | right H => right (Qcle_not_lt _ _ H) end) (combine xs es)) as [Hall|Hex'].
  { rewrite Forall_forall in Hall. apply HA. intros a ya Ha. now apply (Hall (a, ya)). }
  exfalso. apply Rx. apply Exists_exists in Hex as ([a ya] & Ia & Na). apply Exists_exists in Hex' as ([b yb] & Ib & Nb). cbn [fst] in Na, Nb.
  split; [exists a, ya|exists b, yb]; split; auto; now apply Qcnot_lt_le.
Qed.
Lemma in_range_dec : forall data q, in_range data q \/ ~ in_range data q.
Proof.
  intros data q. destruct (Exists_dec (fun p : Qc * Qc => (fst p <= q)%Qc) data (fun p => match Qclt_le_dec q (fst p) with left H => right (Qclt_not_le _ _ H) | right H => left H end)) as [E1|E1].
  - destruct (Exists_dec (fun p : Qc * Qc => (q <= fst p)%Qc) data (fun p => match Qclt_le_dec (fst p) q with left H => right (Qclt_not_le _ _ H) | right H => left H end)) as [E2|E2].
    + left. apply Exists_exists in E1 as ([a ya] & I1 & L1). apply Exists_exists in E2 as ([b yb] & I2 & L2). split; [exists a, ya|exists b, yb]; auto.
    + right. intros [_ (b & yb & I & L)]. apply E2. apply Exists_exists. exists (b, yb). auto.
  - right. intros [(a & ya & I & L) _]. apply E1. apply Exists_exists. exists (a, ya). auto.
Qed.
Lemma table_function : forall nd t, table_ok t -> exists f, tabular_function nd t = Ok f /\ forall point, List.length point = List.length (table_variables t) -> table_usage nd t point (f (map Some point)).
Proof.
  intros nd t (ND & Iu & Ne & Ld & (rows & R & Lc) & Dx). unfold tabular_function, table_usage. rewrite (variables_table t ND).
  assert (tabular_validate t = Ok tt) as Ev.
  { unfold tabular_validate. assert (has_header "FUEL" t || has_header "POWER" t = true)%bool as ->.
    { apply Bool.orb_true_iff. rewrite !has_header_In. unfold usage_name in Iu. destruct (in_dec string_dec "POWER"%string (tb_headers t)); auto. }
    cbn [negb]. destruct (tb_data t) as [|c cs] eqn:Ed; [reflexivity|]. replace (forallb _ cs) with true; [reflexivity|]. symmetry. apply forallb_forall. intros d I. apply Nat.eqb_eq.
    rewrite (Lc d (or_intror I)), (Lc c (or_introl eq_refl)). reflexivity. }
  destruct (column_in t (usage_name t) ND Ld Iu) as (es & Ee & Ie & _).
  assert (forall h, In h (table_variables t) -> In h (tb_headers t)) as Sub by (intros h I; apply filter_In in I; tauto).
  destruct (table_variables t) as [|x [|y vs]] eqn:Et; [congruence| |].
  - destruct (column_in t x ND Ld (Sub x (or_introl eq_refl))) as (xs & Ex & Ix & _). unfold tabular_function_1d. rewrite Ev. cbn [bind]. rewrite usage_header_name, Ee. cbn [bind]. rewrite (variables_table t ND), Et, Ex. cbn [bind].
    assert (List.length xs = rows) as Lx by (apply in_combine_r in Ix; auto). assert (List.length es = rows) as Le by (apply in_combine_r in Ie; auto).
    assert (exists f, make_interpolator xs es None None = Ok f) as (f & Ef).
    { unfold make_interpolator. rewrite Lx, Le, Nat.eqb_refl. cbn [negb]. destruct xs; [cbn in Lx; lia|]. eauto. }
    rewrite Ef. cbn [bind]. eexists. split; [reflexivity|]. intros point Lp. destruct point as [|q [|? ?]]; try discriminate Lp. cbn [map]. exists q, xs, es. split; [reflexivity|]. split; [exact Ix|]. split; [exact Ie|].
    pose proof (Dx x xs eq_refl Ix) as Nx. destruct (in_range_dec (combine xs es) q) as [Rq|Rq].
    + left. destruct (interpolation_proof xs es None None f Nx Ef) as (_ & HR & _). destruct (HR q Rq) as (y & Y1 & Y2). exists y. auto.
    + right. split; [exact Rq|]. now apply (interpolate_outside xs es).
  - rewrite Ev. cbn [bind]. rewrite usage_header_name, Ee. cbn [bind].
    destruct (mapM_total _ _ (tabular_column t) (x :: y :: vs)) as (cols & ->). { intros h I. destruct (column_in t h ND Ld (Sub h I)) as (c & Ec & _). eauto. }
    cbn [bind]. eexists. split; [reflexivity|]. intros point _. reflexivity.
Qed.

(** ** A dictionary built from a list: the last entry counts *)
Lemma dict_last : forall V (l : list (string * V)) name v, dict_get String.eqb name (fold_left (fun d kv => dict_set String.eqb (fst kv) (snd kv) d) l []) = Some v <-> last_named l name v.
Proof.
  intros V l. induction l as [|[k0 v0] l IH] using rev_ind; intros name v.
  - cbn. split; [discriminate|]. intros (b & a & E & _). destruct b; discriminate.
  - rewrite fold_left_app. cbn [fold_left fst snd]. rewrite dict_get_set by apply String.eqb_eq. destruct (String.eqb name k0) eqn:E.
    + apply String.eqb_eq in E. subst k0. split.
      * intros Q. injection Q as ->. exists l, []. split; [reflexivity|intros []].
      * intros (b & a & Q & N). destruct a as [|x a] using rev_ind; [apply app_inj_tail in Q as [_ Q]; congruence|].
        rewrite app_comm_cons, app_assoc in Q. apply app_inj_tail in Q as [_ <-]. exfalso. apply N. rewrite map_app. apply in_or_app. right. now left.
    + rewrite IH. assert (name <> k0) as N0 by (intros ->; rewrite String.eqb_refl in E; discriminate). split.
      * intros (b & a & -> & N). exists b, (a ++ [(k0, v0)]). split; [now rewrite <- app_assoc|]. rewrite map_app, in_app_iff. cbn. intros [X|[X|[]]]; [contradiction|congruence].
      * intros (b & a & Q & N). destruct a as [|x a _] using rev_ind; [apply app_inj_tail in Q as [_ Q]; congruence|].
        rewrite app_comm_cons, app_assoc in Q. apply app_inj_tail in Q as [-> <-]. exists b, a. split; [reflexivity|]. intros I. apply N. rewrite map_app. apply in_or_app. now left.
Qed.
Lemma last_named_exists : forall V (l : list (string * V)) name, In name (map fst l) -> exists v, last_named l name v.
Proof.
  intros V l name. induction l as [|[k v] l IH] using rev_ind; intros I; [destruct I|]. rewrite map_app in I. apply in_app_iff in I.
  destruct (string_dec name k) as [->|N]; [exists v, l, []; split; [reflexivity|intros []]|].
  destruct I as [I|[I|[]]]; [|cbn in I; congruence]. destruct (IH I) as (w & b & a & -> & Na). exists w, b, (a ++ [(k, v)]). split; [now rewrite <- app_assoc|]. rewrite map_app, in_app_iff. cbn. intros [X|[X|[]]]; [contradiction|congruence].
Qed.
Lemma last_named_map : forall V W (f : string -> V -> W) (l : list (string * V)) name w, last_named (map (fun kv => (fst kv, f (fst kv) (snd kv))) l) name w <-> exists v, last_named l name v /\ w = f name v.
Proof.
  intros V W f l name w. split.
  - intros (b & a & E & N). apply map_eq_app in E as (b' & a' & -> & <- & E). apply map_eq_cons in E as ([k v] & a'' & -> & E & <-). cbn [fst snd] in E. injection E as <- <-.
    exists v. split; [|reflexivity]. exists b', a''. split; [reflexivity|]. rewrite map_map in N. exact N.
  - intros (v & (b & a & -> & N) & ->). exists (map (fun kv => (fst kv, f (fst kv) (snd kv))) b), (map (fun kv => (fst kv, f (fst kv) (snd kv))) a). split; [now rewrite map_app|]. rewrite map_map. exact N.
Qed.
Lemma same_names_iff : forall a b, same_names a b = true <-> forall x, In x a <-> In x b.
Proof.
  intros a b. unfold same_names. rewrite Bool.andb_true_iff, !forallb_forall.
  assert (forall x l, existsb (String.eqb x) l = true <-> In x l) as H.
  { intros x l. rewrite existsb_exists. split; [intros (y & I & E); apply String.eqb_eq in E; now subst|]. intros I. exists x. split; [exact I|apply String.eqb_refl]. }
  split; [intros [A B] x; split; intros I; [now apply H, A|now apply H, B]|]. intros E. split; intros x I; apply H; now apply E.
Qed.

(** ** Losses, where there may be no number *)
Lemma usage_result_num : forall ps t allow us ls, List.length us = List.length ls -> exists energy, usage_result ps t allow ls us = Ok (mkFR ps energy (usage_unit t) (match t with POWER => Some energy | FUEL => None end) (map (generic_is_valid allow) us)) /\
  List.length energy = List.length us /\ forall k u f e, nth_error us k = Some u -> nth_error ls k = Some f -> nth_error energy k = Some e -> match u with Some q => supplied q f e | None => e = None end.
Proof.
  intros ps t allow us ls L. unfold usage_result, apply_power_loss. destruct (existsb (fun f => negb (Qceqb f 0)) ls) eqn:Ex.
  - rewrite np_broadcast_same by exact L. cbn [bind]. eexists. split; [reflexivity|]. split; [rewrite map2_length, L; lia|]. intros k u f e Ku Kf Ke. rewrite nth_error_map2, Ku, Kf in Ke. injection Ke as <-.
    destruct u as [q|]; [|reflexivity]. unfold supplied. cbn [ndiv]. destruct (Qc_eq_dec f 1) as [->|F].
    + replace (Qceqb (1 - 1) 0) with true; [reflexivity|]. symmetry. apply Qceqb_eq. ring.
    + destruct (Qceqb (1 - f) 0) eqn:Q; [apply Qceqb_eq in Q; exfalso; apply F; qc_lra|]. apply Qceqb_neq in Q. eexists. split; [reflexivity|]. field. exact Q.
  - cbn [bind]. eexists. split; [reflexivity|]. split; [reflexivity|]. intros k u f e Ku Kf Ke. assert (e = u) as -> by congruence. destruct u as [q|]; [|reflexivity].
    assert (f = 0%Qc) as ->. { destruct (Qceqb f 0) eqn:Q; [now apply Qceqb_eq|]. exfalso. rewrite <- Bool.not_true_iff_false in Ex. apply Ex. apply existsb_exists. exists f. split; [now apply nth_error_In in Kf|now rewrite Q]. }
    unfold supplied. destruct (Qc_eq_dec 0 1) as [F|F]; [discriminate F|]. exists q. split; [reflexivity|ring].
Qed.

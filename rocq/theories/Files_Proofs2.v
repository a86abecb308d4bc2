(** Charts from files: one curve, and the rows of a speed. *)
From Coq Require Import PeanoNat String Lia.
From Verif Require Import QcTac Base BaseLemmas Input_Model Chart_Model Files_Model Files_Spec Files_Proofs.
Local Open Scope list_scope.
Local Open Scope Qc_scope.

(** ** conversions *)
Definition joule (u : yaml_units) (x : Qc) : Qc := match u_head u with HEAD_M => x * qc 981 100 | HEAD_KJ_PER_KG => x * qz 1000 | HEAD_JOULE_PER_KG => x end.
Definition fraction (u : yaml_units) (x : Qc) : Qc := match u_efficiency u with EFFICIENCY_FRACTION => x | EFFICIENCY_PERCENTAGE => x / qz 100 end.
Lemma head_converted : forall u l, convert_head_to_joule_per_kg l (mapped_head_unit (u_head u)) = Ok (map (joule u) l).
Proof. intros u l. unfold joule. destruct (u_head u); cbn; try reflexivity. rewrite map_id. reflexivity. Qed.
Lemma efficiency_converted : forall u l, convert_efficiency_to_fraction l (mapped_efficiency_unit (u_efficiency u)) = Ok (map (fraction u) l).
Proof. intros u l. unfold fraction. destruct (u_efficiency u); cbn; try reflexivity. rewrite map_id. reflexivity. Qed.
Lemma hundred : qz 100 <> 0.
Proof. discriminate. Qed.
Lemma joule_spec : forall u x y, in_joule_per_kg u x y <-> y = joule u x.
Proof. intros u x y. unfold in_joule_per_kg, joule. destruct (u_head u); [rewrite (Qcmult_comm x)|rewrite (Qcmult_comm x)|]; tauto. Qed.
Lemma fraction_spec : forall u x y, as_fraction u x y <-> y = fraction u x.
Proof.
  intros u x y. unfold as_fraction, fraction. destruct (u_efficiency u); [tauto|]. split.
  - intros <-. field. exact hundred.
  - intros ->. field. exact hundred.
Qed.
Definition made (u : yaml_units) (p : Qc * Qc * Qc) : Qc * Qc * Qc := (fst (fst p), joule u (snd (fst p)), fraction u (snd p)).
Lemma made_spec : forall u p q, point_made u p q <-> q = made u p.
Proof.
  intros u p [[a b] c]. unfold point_made, made. cbn [fst snd]. rewrite joule_spec, fraction_spec. split.
  - intros (-> & -> & ->). reflexivity.
  - intros E. injection E as -> -> ->. auto.
Qed.
Lemma made_list : forall u ps qs, Forall2 (point_made u) ps qs <-> qs = map (made u) ps.
Proof.
  intros u ps qs. split.
  - induction 1 as [|p q ps qs P _ IH]; [reflexivity|]. cbn. apply made_spec in P. congruence.
  - intros ->. induction ps; cbn; constructor; auto. apply made_spec. reflexivity.
Qed.
Lemma efficiency_spec : forall u x, efficiency_ok u x <-> 0 <= fraction u x /\ fraction u x <= 1.
Proof. intros u x. unfold efficiency_ok. split; [intros (e & F & A & B); apply fraction_spec in F; subst; auto|]. intros [A B]. exists (fraction u x). rewrite fraction_spec. auto. Qed.

(** ** one curve *)
Lemma triples : forall (A B C : Type) (a : list A) (b : list B) (c : list C), List.length a = List.length b -> List.length b = List.length c ->
  exists ps : list (A * B * C), a = map (fun p => fst (fst p)) ps /\ b = map (fun p => snd (fst p)) ps /\ c = map snd ps.
Proof.
  induction a as [|x a IH]; intros [|y b] [|z c] E F; try discriminate.
  - exists []. auto.
  - injection E as E. injection F as F. destruct (IH b c E F) as (ps & -> & -> & ->). exists ((x, y, z) :: ps). auto.
Qed.
Lemma combine_made : forall u ps, combine (combine (map (fun p => fst (fst p)) ps) (map (joule u) (map (fun p => snd (fst p)) ps))) (map (fraction u) (map snd ps)) = map (made u) ps.
Proof. intros u. induction ps as [|p ps IH]; [reflexivity|]. cbn. f_equal. exact IH. Qed.
Lemma rate_order : forall ps, StronglySorted (fun a b => fst (fst a) <= fst (fst b)) (sort (fun p q => Qcleb (p_rate p) (p_rate q)) ps).
Proof.
  intros ps. apply Sorted_StronglySorted.
  - intros a b c. apply Qcle_trans.
  - assert (S := sort_Sorted (Qc * Qc * Qc) (fun p q => Qcleb (p_rate p) (p_rate q))). specialize (S ltac:(intros x y E; destruct (Qcleb (p_rate y) (p_rate x)) eqn:D; [reflexivity|]; exfalso; assert (~ p_rate x <= p_rate y) by (intros W; apply Qcleb_le in W; congruence); assert (~ p_rate y <= p_rate x) by (intros W; apply Qcleb_le in W; congruence); destruct (Qclt_le_dec (p_rate x) (p_rate y)) as [W|W]; [apply Qclt_le_weak in W|]; tauto) ps).
    induction S as [|a l S IH H]; constructor; [exact IH|]. destruct H as [|b l H]; constructor. apply Qcleb_le. exact H.
Qed.
Lemma make_ok : forall u s ps, (exists c, converted_curve u s (map (fun p => fst (fst p)) ps) (map (fun p => snd (fst p)) ps) (map snd ps) = Ok c) <-> points_ok u ps.
Proof.
  intros u s ps. unfold converted_curve. rewrite head_converted, efficiency_converted. cbn [Base.bind]. unfold make_curve, points_ok.
  rewrite !map_length, !Nat.eqb_refl. cbn [andb negb].
  destruct (forallb (fun e => Qcleb 0 e && Qcleb e 1) (map (fraction u) (map snd ps))) eqn:F; cbn [negb].
  - rewrite forallb_forall in F. destruct (Nat.ltb_spec (List.length ps) 2).
    + split; [intros [c E]; discriminate E|]. intros [L _]. lia.
    + split; [|intros _; eexists; reflexivity]. intros _. split; [exact H|]. intros p P. apply efficiency_spec.
      specialize (F (fraction u (snd p)) (in_map (fraction u) _ _ (in_map snd _ _ P))). apply andb_true_iff in F as [A B]. apply Qcleb_le in A, B. auto.
  - split; [intros [c E]; discriminate E|]. intros [_ H]. exfalso. enough (forallb (fun e => Qcleb 0 e && Qcleb e 1) (map (fraction u) (map snd ps)) = true) by congruence.
    apply forallb_forall. intros e I. apply in_map_iff in I as (x & <- & I). apply in_map_iff in I as (p & <- & I). apply H, efficiency_spec in I as [A B].
    apply andb_true_iff. split; apply Qcleb_le; auto.
Qed.
Lemma make_is : forall u s ps c, converted_curve u s (map (fun p => fst (fst p)) ps) (map (fun p => snd (fst p)) ps) (map snd ps) = Ok c ->
  cv_speed c = s /\ curve_through u ps c.
Proof.
  intros u s ps c. unfold converted_curve. rewrite head_converted, efficiency_converted. cbn [Base.bind]. unfold make_curve.
  destruct (negb (forallb _ _)); [discriminate|]. destruct (negb (_ && _)); [discriminate|]. destruct (Nat.ltb _ 2); [discriminate|].
  rewrite combine_made. intros E. injection E as <-. cbn [cv_speed]. split; [reflexivity|]. exists (map (made u) ps). cbn [cv_points].
  split; [apply made_list; reflexivity|]. split; [apply sort_perm|apply rate_order].
Qed.
Lemma make_lengths : forall u s a b c r, converted_curve u s a b c = Ok r -> List.length a = List.length b /\ List.length b = List.length c.
Proof.
  intros u s a b c r. unfold converted_curve. rewrite head_converted, efficiency_converted. cbn [Base.bind]. unfold make_curve.
  destruct (negb (forallb _ _)); [discriminate|]. rewrite !map_length.
  destruct (Nat.eqb_spec (List.length a) (List.length b)); destruct (Nat.eqb_spec (List.length b) (List.length c)); cbn [andb negb]; try discriminate. auto.
Qed.

(** ** the rows of a speed *)
Definition pick (s : Qc) (rows : list row) : list (Qc * Qc * Qc) := map snd (filter (fun r => Qceqb (fst r) s) rows).
Lemma pick_spec : forall s rows ps, at_speed s rows ps <-> ps = pick s rows.
Proof.
  intros s rows ps. unfold pick. split.
  - induction 1 as [|p rows ps _ IH|t p rows ps N _ IH]; [reflexivity| |]; cbn [filter fst].
    + rewrite (proj2 (Qceqb_eq s s) eq_refl). cbn. congruence.
    + destruct (Qceqb t s) eqn:E; [apply Qceqb_eq in E; congruence|exact IH].
  - intros ->. induction rows as [|[t p] rows IH]; cbn [filter fst]; [constructor|]. destruct (Qceqb t s) eqn:E.
    + apply Qceqb_eq in E. subst t. cbn. constructor. exact IH.
    + constructor; [|exact IH]. intros W. apply Qceqb_eq in W. congruence.
Qed.
Lemma group_pick : forall (g : Qc * Qc * Qc -> Qc) s rows, group_column (map fst rows) s (map (fun r : row => g (snd r)) rows) = map g (pick s rows).
Proof.
  intros g s. unfold group_column, pick. induction rows as [|[t p] rows IH]; [reflexivity|]. cbn [map combine filter fst snd].
  destruct (Qceqb t s); cbn [map snd]; [f_equal|]; exact IH.
Qed.
Lemma pick_In : forall s rows, In s (map fst rows) <-> pick s rows <> [].
Proof.
  intros s rows. unfold pick. induction rows as [|[t p] rows IH]; cbn [map filter fst]; [tauto|]. destruct (Qceqb t s) eqn:E.
  - apply Qceqb_eq in E. split; [intros _; discriminate|intros _; left; exact E].
  - rewrite <- IH. split; [intros [->|W]; [|exact W]|intros W; right; exact W]. exfalso. rewrite (proj2 (Qceqb_eq s s) eq_refl) in E. discriminate E.
Qed.

(** ** distinct numbers *)
Lemma distinct_In : forall x l, In x (distinct l) <-> In x l.
Proof.
  intros x. induction l as [|y l IH]; cbn [distinct]; [tauto|]. cbn [In]. rewrite filter_In, IH. destruct (Qceqb x y) eqn:E.
  - apply Qceqb_eq in E. subst. tauto.
  - split; [tauto|]. intros [->|W]; [left; reflexivity|right; split; auto].
Qed.
Lemma distinct_NoDup : forall l, NoDup (distinct l).
Proof.
  induction l as [|y l IH]; cbn [distinct]; constructor.
  - rewrite filter_In. intros [_ W]. rewrite (proj2 (Qceqb_eq y y) eq_refl) in W. discriminate W.
  - apply NoDup_filter. exact IH.
Qed.
Lemma all_equal_spec : forall l, all_numbers_equal l = true <-> exists s, l <> [] /\ forall x, In x l -> x = s.
Proof.
  intros l. unfold all_numbers_equal. rewrite Nat.eqb_eq. split.
  - intros E. destruct (distinct l) as [|s [|t r]] eqn:D; try discriminate E. exists s. split; [intros ->; discriminate D|].
    intros x I. apply distinct_In in I. rewrite D in I. destruct I as [<-|[]]. reflexivity.
  - intros (s & N & H). destruct l as [|x l]; [congruence|]. cbn [distinct List.length]. f_equal. pose proof (H x (or_introl eq_refl)) as ->.
    assert (forall y, In y (filter (fun y => negb (Qceqb y s)) (distinct l)) -> False) as F.
    { intros y I. apply filter_In in I as [I W]. apply (distinct_In y l) in I. specialize (H y (or_intror I)). subst y. rewrite (proj2 (Qceqb_eq s s) eq_refl) in W. discriminate W. }
    destruct (filter (fun y => negb (Qceqb y s)) (distinct l)) as [|y r]; [reflexivity|]. destruct (F y (or_introl eq_refl)).
Qed.

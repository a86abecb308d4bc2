(** The pipeline and its targets: C96. *)
From Coq Require Import PeanoNat String ListDec.
From Verif Require Import QcTac Base BaseLemmas Num Stream_Model Process_Model Process_Spec Process_Proofs2 Sections_Model Sections_Spec Sections_Proofs
  Sections_Proofs2 Sections_Proofs3 Sections_Proofs4 Sections_Proofs5.
Local Open Scope list_scope.

Lemma append_outlet_concat : forall o l, l <> [] -> concat (append_outlet o l) = concat l ++ [o].
Proof.
  intros o. induction l as [|us l IH]; [contradiction|]. intros _. cbn [append_outlet]. destruct l as [|v l]; [cbn; now rewrite !app_nil_r|].
  cbn [concat] in *. rewrite IH by discriminate. now rewrite <- !app_assoc.
Qed.
Lemma with_ends_concat : forall i o l, l <> [] -> concat (with_ends i o l) = i :: concat l ++ [o].
Proof.
  intros i o [|us l] H; [contradiction|]. unfold with_ends. rewrite append_outlet_concat by discriminate. reflexivity.
Qed.
Lemma append_outlet_length : forall o l, List.length (append_outlet o l) = List.length l.
Proof. intros o. induction l as [|us [|v l] IH]; [reflexivity|reflexivity|]. cbn [append_outlet List.length] in *. now rewrite IH. Qed.
Lemma with_ends_length : forall i o l, List.length (with_ends i o l) = List.length l.
Proof. intros i o [|us l]; [reflexivity|]. unfold with_ends. rewrite append_outlet_length. reflexivity. Qed.
(** every piece contains the assembled one *)
Definition piece (i o : unit_) (us vs : list unit_) : Prop := exists a b, vs = a ++ us ++ b /\ (a = [] \/ a = [i]) /\ (b = [] \/ b = [o]).
Lemma append_outlet_pieces : forall i o l, Forall2 (piece i o) l (append_outlet o l).
Proof.
  intros i o. induction l as [|us [|v l] IH]; [constructor| |].
  - constructor; [|constructor]. exists [], [o]. auto.
  - cbn [append_outlet] in *. constructor; [|exact IH]. exists [], []. rewrite app_nil_r. auto.
Qed.
Lemma with_ends_pieces : forall i o l, Forall2 (piece i o) l (with_ends i o l).
Proof.
  intros i o [|us l]; [constructor|]. unfold with_ends. destruct l as [|v l].
  - cbn. constructor; [|constructor]. exists [i], [o]. auto.
  - pose proof (append_outlet_pieces i o (v :: l)) as H. cbn [append_outlet] in *. constructor; [|exact H]. exists [i], []. rewrite app_nil_r. auto.
Qed.
Lemma append_outlet_last : forall o l, l <> [] -> exists front us, l = front ++ [us] /\ append_outlet o l = front ++ [us ++ [o]].
Proof.
  intros o. induction l as [|us [|v l] IH]; intros H; [contradiction| |].
  - exists [], us. auto.
  - destruct IH as (front & w & E1 & E2); [discriminate|]. exists (us :: front), w. cbn [append_outlet] in *. rewrite E2, E1. auto.
Qed.

Lemma second_last_ok : forall A (l : list A) u w, second_last (l ++ [u; w]) = Ok u.
Proof.
  intros A l u w. unfold second_last. rewrite app_length. cbn [List.length]. destruct (Nat.ltb_spec (List.length l + 2) 2); [lia|].
  replace (List.length l + 2 - 2)%nat with (List.length l) by lia. rewrite nth_error_app2 by lia. rewrite Nat.sub_diag. reflexivity.
Qed.
Lemma find_connection : forall a u w b, NoDup (ids (a ++ u :: w :: b)) ->
  find (fun p => Nat.eqb (fst p) (fst u)) (combine (ids (a ++ u :: w :: b)) (tl (ids (a ++ u :: w :: b)))) = Some (fst u, fst w).
Proof.
  induction a as [|x a IH]; intros u w b H.
  - cbn. now rewrite Nat.eqb_refl.
  - cbn [app ids map] in *. apply NoDup_cons_iff in H. destruct H as (Hx & H). specialize (IH u w b H).
    unfold ids in *. cbn [tl] in *. destruct (map fst (a ++ u :: w :: b)) as [|y l] eqn:E; [destruct a; discriminate|]. cbn [combine find fst tl] in *.
    destruct (Nat.eqb_spec (fst x) (fst u)) as [Q|Q]; [|exact IH]. exfalso. apply Hx. rewrite Q, <- E. apply in_map. apply in_or_app. right. now left.
Qed.
Lemma long_ends : forall A (l : list A), (2 <= List.length l)%nat -> exists front u w, l = front ++ [u; w].
Proof.
  intros A l H. destruct l as [|w l] using rev_ind; [cbn in H; lia|]. destruct l as [|u l] using rev_ind; [cbn in H; lia|].
  exists l, u, w. now rewrite <- app_assoc.
Qed.

Lemma build_units : forall items cs ss, distinct_units items -> build_sections items cs = Ok ss ->
  concat (map s_units ss) = listed items /\ Forall acceptable_section ss /\ ss <> [] /\ partition_items items cs = Ok ss.
Proof.
  intros items cs ss Hu H. apply build_proof in H. destruct H as (P & F). pose proof P as P'. apply (division_ok items cs ss Hu) in P'.
  destruct P' as (Fit & D1 & D2 & _). split; [exact D1|]. split; [exact F|]. split; [|exact P]. intros ->. cbn in D2. apply Permutation_nil in D2.
  destruct Fit as [_ N _ _ _ _]. contradiction.
Qed.
Definition inlet_id (items : list item) : nat := next_id (ids (listed items)).
Definition sections_of (items : list item) (ss : list section) : list (list unit_) :=
  with_ends (inlet_id items, Inlet) (S (inlet_id items), Outlet) (map snd (assemble_sections ss (S (S (inlet_id items))))).
Lemma sections_facts : forall items cs ss, distinct_units items -> build_sections items cs = Ok ss ->
  let l := assemble_sections ss (S (S (inlet_id items))) in
  Forall2 assembled_well ss l /\ NoDup (map fst (flat_map fst l)) /\ NoDup (ids (concat (sections_of items ss))) /\
  concat (sections_of items ss) = (inlet_id items, Inlet) :: concat (map snd l) ++ [(S (inlet_id items), Outlet)] /\
  List.length (sections_of items ss) = List.length ss /\ l <> [].
Proof.
  intros items cs ss Hu H. destruct (build_units items cs ss Hu H) as (Hc & Ha & Hne & _). cbv zeta.
  assert (forall i, In i (ids (concat (map s_units ss))) -> (i < inlet_id items)%nat) as Hlt by (rewrite Hc; intros i Hi; now apply next_id_above).
  destruct (assemble_all ss (S (S (inlet_id items))) Ha) as (F & N1 & N2 & J1 & J2); [rewrite Hc; exact Hu|intros i Hi; specialize (Hlt i Hi); lia|].
  assert (assemble_sections ss (S (S (inlet_id items))) <> []) as Hl by (intros Q; rewrite Q in F; inversion F; subst; contradiction).
  split; [exact F|]. split; [exact N2|].
  assert (map snd (assemble_sections ss (S (S (inlet_id items)))) <> []) as Hm by (destruct (assemble_sections ss (S (S (inlet_id items)))); [contradiction|discriminate]).
  split; [|split; [|split; [|exact Hl]]].
  - unfold sections_of. rewrite with_ends_concat by exact Hm. cbn [ids map fst]. constructor.
    + intros Q. fold (ids (concat (map snd (assemble_sections ss (S (S (inlet_id items))))) ++ [(S (inlet_id items), Outlet)])) in Q. rewrite ids_app, in_app_iff in Q.
      destruct Q as [Q|[Q|[]]]; [|cbn in Q; lia]. destruct (J1 _ Q) as [R|R]; [specialize (Hlt _ R); lia|lia].
    + fold (ids (concat (map snd (assemble_sections ss (S (S (inlet_id items))))) ++ [(S (inlet_id items), Outlet)])). rewrite ids_app. apply nodup_app.
      split; [exact N1|]. split; [repeat constructor; auto|]. intros i Hi [<-|[]]. cbn in Hi. destruct (J1 _ Hi) as [R|R]; [specialize (Hlt _ R); lia|lia].
  - unfold sections_of. now apply with_ends_concat.
  - unfold sections_of. rewrite with_ends_length, map_length. clear - F. induction F; cbn; auto.
Qed.

Lemma long_pieces : forall items cs ss, distinct_units items -> build_sections items cs = Ok ss ->
  Forall (fun us => (3 <= List.length us)%nat) (sections_of items ss) /\
  map (filter from_user) (sections_of items ss) = map (fun s => filter from_user (s_units s)) ss.
Proof.
  intros items cs ss Hu H. destruct (sections_facts items cs ss Hu H) as (F & _ & _ & _ & _ & _). unfold sections_of.
  set (l := assemble_sections ss (S (S (inlet_id items)))) in *. clearbody l. clear H Hu.
  pose proof (with_ends_pieces (inlet_id items, Inlet) (S (inlet_id items), Outlet) (map snd l)) as P.
  set (v := with_ends (inlet_id items, Inlet) (S (inlet_id items), Outlet) (map snd l)) in *. clearbody v.
  revert v P. induction F as [|s x ss l W F IH]; intros v P; cbn [map] in *.
  - inversion P. split; [constructor|reflexivity].
  - inversion P as [|? us ? v' Hp P']; subst. destruct (IH _ P') as (A & B). destruct W as (W1 & W2 & _). destruct Hp as (a & b & -> & Ea & Eb). split.
    + constructor; [|exact A]. rewrite !app_length. lia.
    + cbn [map]. rewrite B, !filter_app, W1. f_equal. destruct Ea as [-> | ->], Eb as [-> | ->]; cbn [app filter from_user snd]; now rewrite ?app_nil_r.
Qed.

Lemma locate_ok : forall whole a front u w b c, whole = a ++ (front ++ [u; w]) ++ b -> NoDup (ids whole) ->
  locate (combine (ids whole) (tl (ids whole))) (front ++ [u; w]) c = Ok (mk_target (co_pressure c) (fst u) (fst u, fst w)).
Proof.
  intros whole a front u w b c -> H. unfold locate. rewrite second_last_ok. cbn [bind].
  assert (a ++ (front ++ [u; w]) ++ b = (a ++ front) ++ u :: w :: b) as E by (rewrite <- !app_assoc; reflexivity). rewrite E in *.
  rewrite find_connection by exact H. reflexivity.
Qed.
Lemma mapM_exists : forall A B (f : A -> result B) l, (forall x, In x l -> exists y, f x = Ok y) -> exists ys, mapM f l = Ok ys.
Proof.
  intros A B f. induction l as [|x l IH]; intros H; [exists []; reflexivity|]. destruct (H x (or_introl eq_refl)) as (y & Hy).
  destruct IH as (ys & Hys); [intros z Hz; apply H; now right|]. exists (y :: ys). cbn [mapM]. rewrite Hy. cbn [bind]. rewrite Hys. reflexivity.
Qed.
Lemma piece_located : forall items cs ss us s, distinct_units items -> build_sections items cs = Ok ss ->
  In us (sections_of items ss) -> exists front u w, us = front ++ [u; w] /\
  locate (connections (sections_of items ss)) us (s_constraint s) = Ok (mk_target (co_pressure (s_constraint s)) (fst u) (fst u, fst w)).
Proof.
  intros items cs ss us s Hu H Hin. destruct (sections_facts items cs ss Hu H) as (_ & _ & N & _). destruct (long_pieces items cs ss Hu H) as (L & _).
  rewrite Forall_forall in L. destruct (long_ends _ us) as (front & u & w & E); [specialize (L us Hin); lia|]. exists front, u, w. split; [exact E|].
  rewrite (proj1 (connections_proof _)). apply in_split in Hin. destruct Hin as (l1 & l2 & El). rewrite E.
  apply (locate_ok _ (concat l1) front u w (concat l2)); [|exact N]. rewrite El, concat_app. cbn [concat]. now rewrite E.
Qed.

Lemma pipeline_ok : forall items cs ss, distinct_units items -> build_sections items cs = Ok ss ->
  exists ts, map_pipeline items cs = Ok (mk_pipeline (sections_of items ss) (connections (sections_of items ss)) ts
    (flat_map fst (assemble_sections ss (S (S (inlet_id items)))))) /\
  Forall2 (fun x t => exists front u w, fst x = front ++ [u; w] /\ t = mk_target (co_pressure (s_constraint (snd x))) (fst u) (fst u, fst w))
    (combine (sections_of items ss) ss) ts.
Proof.
  intros items cs ss Hu H. unfold map_pipeline. rewrite H. cbn [bind]. cbv zeta. fold (listed items). fold (ids (listed items)). fold (inlet_id items). fold (sections_of items ss).
  destruct (mapM_exists _ _ (fun p : list unit_ * section => locate (connections (sections_of items ss)) (fst p) (s_constraint (snd p))) (combine (sections_of items ss) ss)) as (ts & E).
  - intros (us & s) Hin. apply in_combine_l in Hin. destruct (piece_located items cs ss us s Hu H Hin) as (f & u & w & _ & Q). cbn [fst snd]. eauto.
  - exists ts. rewrite E. split; [reflexivity|]. apply mapM_Ok in E.
    assert (forall x, In x (combine (sections_of items ss) ss) -> In (fst x) (sections_of items ss)) as Hin by (intros (a & b) Q; apply in_combine_l in Q; exact Q).
    set (l := combine (sections_of items ss) ss) in *. clearbody l. induction E as [|x t l ts Ex E IH]; constructor.
    + destruct (piece_located items cs ss (fst x) (snd x) Hu H (Hin x (or_introl eq_refl))) as (f & u & w & E1 & E2). exists f, u, w. split; [exact E1|]. cbv beta in Ex. rewrite E2 in Ex. injection Ex as <-. reflexivity.
    + apply IH. intros y Hy. apply Hin. now right.
Qed.

(** ** The properties *)
Lemma filter_listable : forall us, Forall listable us -> filter from_user us = us.
Proof.
  induction us as [|[i k] us IH]; intros H; [reflexivity|]. inversion H as [|? ? H1 H2]; subst. cbn [filter]. specialize (IH H2).
  unfold listable, from_user in *. cbn [snd] in *. destruct k; try contradiction; now rewrite IH.
Qed.
Lemma pipeline_accepted_proof : forall items cs, distinct_units items ->
  ((exists p, map_pipeline items cs = Ok p) <-> exists ss, build_sections items cs = Ok ss).
Proof.
  intros items cs Hu. split; intros (x & H).
  - unfold map_pipeline in H. destruct (build_sections items cs) as [ss|e]; [eauto|discriminate].
  - destruct (pipeline_ok items cs x Hu H) as (ts & Q & _). eauto.
Qed.
Lemma pipeline_sections : forall items cs p, distinct_units items -> map_pipeline items cs = Ok p -> exists ss, build_sections items cs = Ok ss /\
  p_sections p = sections_of items ss /\ p_connections p = connections (p_sections p) /\
  p_handlers p = flat_map fst (assemble_sections ss (S (S (inlet_id items)))) /\
  Forall2 (fun x t => exists front u w, fst x = front ++ [u; w] /\ t = mk_target (co_pressure (s_constraint (snd x))) (fst u) (fst u, fst w))
    (combine (sections_of items ss) ss) (p_targets p).
Proof.
  intros items cs p Hu H. destruct (proj1 (pipeline_accepted_proof items cs Hu) (ex_intro _ p H)) as (ss & B). exists ss. split; [exact B|].
  destruct (pipeline_ok items cs ss Hu B) as (ts & Q & F). rewrite H in Q. injection Q as ->. auto.
Qed.
Lemma pipeline_proof : forall items cs p, distinct_units items -> Forall listable (listed items) -> map_pipeline items cs = Ok p ->
  exists ss inlet body outlet, build_sections items cs = Ok ss /\
  concat (p_sections p) = (inlet, Inlet) :: body ++ [(outlet, Outlet)] /\ filter from_user body = listed items /\
  map (filter from_user) (p_sections p) = map s_units ss /\
  NoDup (ids (concat (p_sections p))) /\ NoDup (map fst (p_handlers p)) /\
  forall a b, In (a, b) (p_connections p) <-> follows (concat (p_sections p)) a b.
Proof.
  intros items cs p Hu Hl H. destruct (pipeline_sections items cs p Hu H) as (ss & B & Es & Ec & Eh & _). exists ss.
  destruct (sections_facts items cs ss Hu B) as (F & N1 & N2 & C & L & _). destruct (build_units items cs ss Hu B) as (Hc & _).
  destruct (long_pieces items cs ss Hu B) as (_ & M). cbv zeta in *. rewrite Ec, Eh, Es.
  assert (map (fun s => filter from_user (s_units s)) ss = map s_units ss) as Hf.
  { apply map_ext_in. intros s Hs. apply filter_listable. rewrite Forall_forall in *. intros u Iu. apply Hl. rewrite <- Hc. apply in_concat.
    exists (s_units s). split; [now apply in_map|exact Iu]. }
  rewrite Hf in M.
  exists (inlet_id items), (concat (map snd (assemble_sections ss (S (S (inlet_id items)))))), (S (inlet_id items)).
  split; [exact B|]. split; [exact C|]. split; [|split; [exact M|]].
  - assert (forall l : list (list unit_), filter from_user (concat l) = concat (map (filter from_user) l)) as Q
      by (induction l as [|x l IH]; [reflexivity|]; cbn [concat map]; rewrite filter_app, IH; reflexivity).
    assert (filter from_user (concat (sections_of items ss)) = listed items) as R by (rewrite Q, M; exact Hc).
    rewrite C in R. cbn [filter from_user snd] in R. rewrite filter_app in R. cbn [filter from_user snd] in R. rewrite app_nil_r in R. exact R.
  - split; [exact N2|]. split; [exact N1|]. apply connections_proof.
Qed.
Lemma protected_app : forall a b c hs hs1 hs2 u, protected_in b hs u -> protected_in (a ++ b ++ c) (hs1 ++ hs ++ hs2) u.
Proof.
  intros a b c hs hs1 hs2 u (x & m & inner & s & y & -> & Hin & Hh). exists (a ++ x), m, inner, s, (y ++ c). split; [|split; [exact Hin|]].
  - rewrite <- !app_assoc. cbn [app]. rewrite <- !app_assoc. reflexivity.
  - rewrite !map_app, !in_app_iff. auto.
Qed.
Lemma protected_all : forall ss l, Forall2 assembled_well ss l ->
  (forall u, In u (concat (map s_units ss)) -> compresses u -> protected_in (concat (map snd l)) (flat_map fst l) u) /\
  Forall (part_of (concat (map snd l))) (map snd (flat_map fst l)).
Proof.
  intros ss l F. induction F as [|s x ss l W F IH]; [split; [intros u []|constructor]|]. destruct IH as (I1 & I2). destruct W as (_ & _ & W1 & W2 & _).
  cbn [map concat flat_map]. split.
  - intros u Hin Hc. apply in_app_or in Hin. destruct Hin as [Hin|Hin].
    + apply (protected_app [] _ _ _ []). now apply W1.
    + pose proof (protected_app (snd x) _ [] _ (fst x) [] u (I1 u Hin Hc)) as Q. rewrite !app_nil_r in Q. exact Q.
  - rewrite map_app. apply Forall_app. split.
    + eapply Forall_impl; [|exact W2]. intros hd Q. apply (part_app []). exact Q.
    + eapply Forall_impl; [|exact I2]. intros hd Q. apply (part_app (snd x) _ []) in Q. rewrite app_nil_r in Q. exact Q.
Qed.
Lemma protected_proof : forall items cs p, distinct_units items -> map_pipeline items cs = Ok p ->
  (forall u, In u (listed items) -> compresses u -> protected_in (concat (p_sections p)) (p_handlers p) u) /\
  Forall (part_of (concat (p_sections p))) (map snd (p_handlers p)).
Proof.
  intros items cs p Hu H. destruct (pipeline_sections items cs p Hu H) as (ss & B & Es & Ec & Eh & _).
  destruct (sections_facts items cs ss Hu B) as (F & _ & _ & C & _ & _). destruct (build_units items cs ss Hu B) as (Hc & _). cbv zeta in *.
  destruct (protected_all _ _ F) as (P1 & P2). rewrite Es, Eh, C, <- Hc. split.
  - intros u Hin Hcomp. pose proof (protected_app [(inlet_id items, Inlet)] _ [(S (inlet_id items), Outlet)] _ [] [] u (P1 u Hin Hcomp)) as Q. rewrite app_nil_r in Q. exact Q.
  - eapply Forall_impl; [|exact P2]. intros hd Q. apply (part_app [(inlet_id items, Inlet)] _ [(S (inlet_id items), Outlet)]) in Q. exact Q.
Qed.
Lemma nth_combine : forall A B (l : list A) (m : list B) k a b, nth_error l k = Some a -> nth_error m k = Some b -> nth_error (combine l m) k = Some (a, b).
Proof.
  intros A B. induction l as [|x l IH]; intros [|y m] [|k] a b; cbn; try discriminate; [|apply IH]. intros H1 H2. congruence.
Qed.
Lemma forall2_nth : forall A B (R : A -> B -> Prop) l m k a, Forall2 R l m -> nth_error l k = Some a -> exists b, nth_error m k = Some b /\ R a b.
Proof. intros A B R l m k a F. revert k. induction F; intros [|k] H'; cbn in *; try discriminate; [injection H' as <-; eauto|auto]. Qed.
(** The target of every section is its last unit but one *)
Lemma targets_proof : forall items cs ss p k us s, distinct_units items -> map_pipeline items cs = Ok p -> build_sections items cs = Ok ss ->
  nth_error (p_sections p) k = Some us -> nth_error ss k = Some s ->
  exists front u w, us = front ++ [u; w] /\
    nth_error (p_targets p) k = Some (mk_target (co_pressure (s_constraint s)) (fst u) (fst u, fst w)) /\
    In (fst u, fst w) (p_connections p).
Proof.
  intros items cs ss p k us s Hu H B Hk Hs. destruct (pipeline_sections items cs p Hu H) as (ss' & B' & Es & Ec & Eh & F).
  rewrite B in B'. injection B' as <-. rewrite Es in Hk. pose proof (nth_combine _ _ _ _ _ _ _ Hk Hs) as N.
  destruct (forall2_nth _ _ _ _ _ _ _ F N) as (t & Ht & front & u & w & E & ->). cbn [fst snd] in *. exists front, u, w. split; [exact E|]. split; [exact Ht|].
  rewrite Ec, Es. apply connections_proof. apply nth_error_In in Hk. apply in_split in Hk. destruct Hk as (l1 & l2 & El). rewrite El, concat_app. cbn [concat].
  destruct u as [iu ku], w as [iw kw]. exists (concat l1 ++ front), (concat l2), ku, kw. rewrite E, <- !app_assoc. reflexivity.
Qed.
(** and in the last section that is the unit before the outlet *)
Lemma last_target_proof : forall items cs p, distinct_units items -> map_pipeline items cs = Ok p ->
  exists sections front u outlet t ts, p_sections p = sections ++ [front ++ [u; (outlet, Outlet)]] /\ p_targets p = ts ++ [t] /\
    t_unit t = fst u /\ t_connection t = (fst u, outlet) /\ List.length ts = List.length sections.
Proof.
  intros items cs p Hu H. destruct (pipeline_sections items cs p Hu H) as (ss & B & Es & Ec & Eh & F).
  destruct (sections_facts items cs ss Hu B) as (_ & _ & _ & _ & L & Hne). destruct (build_units items cs ss Hu B) as (_ & _ & Hss & _). cbv zeta in *.
  destruct (long_pieces items cs ss Hu B) as (Ll & _).
  assert (exists fr us (o : unit_), sections_of items ss = fr ++ [us ++ [o]] /\ o = (S (inlet_id items), Outlet)) as (fr & us & o & E & Eo).
  { unfold sections_of, with_ends. destruct (map snd (assemble_sections ss (S (S (inlet_id items))))) as [|x l] eqn:M; [apply map_eq_nil in M; contradiction|].
    destruct (append_outlet_last (S (inlet_id items), Outlet) (((inlet_id items, Inlet) :: x) :: l)) as (fr & us & _ & Q); [discriminate|]. eauto. }
  rewrite E in L, Ll, F. destruct (exists_last Hss) as (sf & s & ->). rewrite !app_length in L. cbn [List.length] in L.
  assert (List.length fr = List.length sf) as L' by lia.
  assert (combine (fr ++ [us ++ [o]]) (sf ++ [s]) = combine fr sf ++ [(us ++ [o], s)]) as Cb.
  { clear - L'. revert sf L'. induction fr as [|a fr IH]; intros [|b sf] Q; cbn in *; try discriminate; [reflexivity|]. rewrite IH by congruence. reflexivity. }
  rewrite Cb in F. apply Forall2_app_inv_l in F. destruct F as (ts & tl & F1 & F2 & Et). inversion F2 as [|? t ? ? (front & u & w & E1 & Et') F3 Q1 Q2]. subst t tl. inversion F3. subst l'.
  cbn [fst snd] in E1. assert (us = front ++ [u] /\ o = w) as (-> & <-).
  { apply app_inj_tail. rewrite E1, <- app_assoc. reflexivity. }
  exists fr, front, u, (S (inlet_id items)), (mk_target (co_pressure (s_constraint s)) (fst u) (fst u, S (inlet_id items))), ts.
  rewrite Es, E, Et, Eo, <- app_assoc. cbn [app fst snd]. split; [reflexivity|]. split; [reflexivity|]. split; [reflexivity|]. split; [reflexivity|].
  assert (List.length (combine fr sf) = List.length ts) as Q by (clear - F1; induction F1; cbn; auto). rewrite combine_length, L', Nat.min_id in Q. rewrite <- Q. symmetry. exact L'.
Qed.

Lemma shaped_proof : forall items cs ss p k s, distinct_units items -> map_pipeline items cs = Ok p -> build_sections items cs = Ok ss ->
  nth_error ss k = Some s ->
  exists a us b, nth_error (p_sections p) k = Some (a ++ us ++ b) /\ shaped s us /\
    Forall (fun u => snd u = Inlet) a /\ Forall (fun u => snd u = Outlet) b.
Proof.
  intros items cs ss p k s Hu H B Hs. destruct (pipeline_sections items cs p Hu H) as (ss' & B' & Es & _). rewrite B in B'. injection B' as <-.
  destruct (sections_facts items cs ss Hu B) as (F & _). destruct (forall2_nth _ _ _ _ _ _ _ F Hs) as (x & Hx & W). destruct W as (_ & _ & _ & _ & W).
  pose proof (with_ends_pieces (inlet_id items, Inlet) (S (inlet_id items), Outlet) (map snd (assemble_sections ss (S (S (inlet_id items)))))) as P.
  apply (map_nth_error snd) in Hx. destruct (forall2_nth _ _ _ _ _ _ _ P Hx) as (vs & Hvs & a & b & -> & Ea & Eb). exists a, (snd x), b.
  rewrite Es. split; [exact Hvs|]. split; [exact W|]. destruct Ea as [-> | ->], Eb as [-> | ->]; split; repeat constructor.
Qed.

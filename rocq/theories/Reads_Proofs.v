(** Proofs about several reads. *)
From Coq Require Import String PeanoNat.
From Verif Require Import Base BaseLemmas Document_Model Document_Spec Flow_Proofs Document_Proofs Document_Proofs3 Reads_Model Reads_Spec.
Local Open Scope list_scope.

Lemma reads_state : forall fuel calls s, fst (reads fuel s calls) = fold_left register calls s.
Proof.
  intros fuel calls. induction calls as [|c r IH]; intros s; cbn [reads fold_left]; [reflexivity|].
  specialize (IH (register s c)). unfold read. destruct (reads fuel (register s c) r) as [s2 xs]. exact IH.
Qed.
(** A read with a directory returns what a process that does nothing else returns. *)
Theorem own_directory : forall fuel earlier c d, includes_from c d -> after fuel earlier c = read_yaml d fuel (rc_main c).
Proof.
  intros fuel earlier c d [E B]. unfold after, read, register. rewrite E, B. reflexivity.
Qed.
(** So every result of a process in which each read has a directory is that of the read alone. *)
Theorem own_directories : forall fuel s calls, (forall c, In c calls -> exists d, includes_from c d) ->
  Forall2 (fun c x => forall d, includes_from c d -> x = read_yaml d fuel (rc_main c)) calls (snd (reads fuel s calls)).
Proof.
  intros fuel s calls. revert s. induction calls as [|c r IH]; intros s H; cbn [reads]; [constructor|].
  specialize (IH (register s c) (fun c' J => H c' (or_intror J))). unfold read. destruct (reads fuel (register s c) r) as [s2 xs]. cbn [snd] in *. constructor; [|exact IH]. intros d [X B]. unfold register. rewrite X, B. reflexivity.
Qed.
(** A file without includes is read in the same way whatever happened before. *)
Lemma construct_same : forall i j r, ~ has_include r -> construct i r = construct j r.
Proof.
  intros i j r. induction r as [s| | |m l IH|l IH|s] using raw_induct; intros N; try reflexivity.
  - rewrite !construct_map. destruct (duplicate [] (map fst l)); [reflexivity|].
    assert (construct_entries i l = construct_entries j l) as ->; [|reflexivity].
    assert (H : forall k v, In (k, v) l -> ~ has_include v) by (intros k v J X; apply N; exact (include_value _ _ _ _ J X)). clear N.
    induction l as [|[k v] r IHl]; [reflexivity|]. destruct IH as [IHv IHr]. cbn [construct_entries].
    rewrite (IHv (H k v (or_introl eq_refl))). rewrite (IHl IHr (fun k' v' J => H k' v' (or_intror J))). reflexivity.
  - rewrite !construct_seq. assert (construct_items i l = construct_items j l) as ->; [|reflexivity].
    assert (H : forall v, In v l -> ~ has_include v) by (intros v J X; apply N; exact (include_item _ _ J X)). clear N.
    induction l as [|v r IHl]; [reflexivity|]. destruct IH as [IHv IHr]. cbn [construct_items].
    rewrite (IHv (H v (or_introl eq_refl))). rewrite (IHl IHr (fun v' J => H v' (or_intror J))). reflexivity.
  - destruct N. constructor.
Qed.
Theorem no_includes : forall fuel earlier c d, ~ has_include (rc_main c) -> after fuel earlier c = read_yaml d fuel (rc_main c).
Proof.
  intros fuel earlier c d N. unfold after, read, read_yaml. cbn [snd]. rewrite (construct_same _ (include_file d fuel) _ N). reflexivity.
Qed.
(** Before any read with a directory, includes are refused. *)
Theorem no_directory_yet : forall fuel earlier c, (forall c' d, In c' (earlier ++ [c]) -> ~ includes_from c' d) -> has_include (rc_main c) ->
  exists e, after fuel earlier c = Err e.
Proof.
  intros fuel earlier c H I0. unfold after. rewrite reads_state.
  assert (R : forall l s, (forall c' d, In c' l -> ~ includes_from c' d) -> fold_left register l s = s).
  { induction l as [|c' l IH]; intros s N; [reflexivity|]. cbn [fold_left]. rewrite IH by (intros c2 d J; apply N; right; exact J).
    unfold register. destruct (rc_enable c') eqn:E; [|reflexivity]. destruct (rc_base c') as [d|] eqn:B; [|reflexivity].
    destruct (N c' d (or_introl eq_refl)). split; assumption. }
  rewrite R by (intros c' d J; apply H; apply in_or_app; left; exact J). unfold read.
  assert (register None c = None) as -> by (apply (R [c] None); intros c' d J; apply H; apply in_or_app; right; exact J). cbn [snd].
  destruct (construct (include_with None fuel) (rc_main c)) as [n|e] eqn:E; [|exists e; reflexivity]. exfalso.
  revert n E. induction I0 as [name|m es k v J I0 IH|items v J I0 IH]; intros n E.
  - discriminate E.
  - rewrite construct_map in E. destruct (duplicate [] (map fst es)); [discriminate E|]. apply bind_Ok in E. destruct E as (l & El & _).
    revert l El. induction es as [|[k' v'] r IHr]; intros l El; [destruct J|]. cbn [construct_entries] in El.
    apply bind_Ok in El. destruct El as (w & Ew & El). apply bind_Ok in El. destruct El as (r' & Er & _).
    destruct J as [J|J]; [injection J as -> ->; exact (IH w Ew)|exact (IHr J r' Er)].
  - rewrite construct_seq in E. apply bind_Ok in E. destruct E as (l & El & _).
    revert l El. induction items as [|v' r IHr]; intros l El; [destruct J|]. cbn [construct_items] in El.
    apply bind_Ok in El. destruct El as (w & Ew & El). apply bind_Ok in El. destruct El as (r' & Er & _).
    destruct J as [->|J]; [exact (IH w Ew)|exact (IHr J r' Er)].
Qed.
(** After a read with a directory, a read that may not include files includes those of that directory. *)
Theorem not_allowed_refuted : exists fuel earlier c n, rc_enable c = false /\ rc_base c = None /\ has_include (rc_main c) /\
  after fuel [] c = Err ValidationError /\ after fuel [earlier] c = Ok n.
Proof.
  set (m := mkMarks "model.yaml" (0, 0)%Z (1, 0)%Z).
  exists 1%nat, (mkRead true (Some (fun _ => Some (RText "secret"))) (RMap m [])), (mkRead false None (RMap m [(KText "A", RInclude "part.yaml")])).
  eexists. split; [reflexivity|]. split; [reflexivity|]. split; [|split; reflexivity].
  apply (include_value _ _ (KText "A") (RInclude "part.yaml")); [left; reflexivity|constructor].
Qed.

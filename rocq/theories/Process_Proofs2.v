From Coq Require Import List Bool ZArith Lia PeanoNat Permutation.
From Verif Require Import QcTac Base BaseLemmas Num Search_Model Stream_Model Stream_Spec Stream_Proofs Flash_Model Process_Model Process_Spec Process_Proofs.
Import ListNotations.
Local Open Scope Qc_scope.

(** ** Assembly *)

Lemma last_opt_snoc : forall {A} (l : list A) x, last_opt (l ++ [x]) = Some x.
Proof.
  intros A [|y l] x; cbn [app last_opt]; [reflexivity|]. f_equal. apply last_last.
Qed.

Lemma last_indep : forall {A} (l : list A) d e, l <> [] -> last l d = last l e.
Proof.
  intros A. induction l as [|x l IH]; intros d e N; [congruence|]. cbn [last]. destruct l; [reflexivity|]. apply IH. discriminate.
Qed.

Lemma last_opt_cons2 : forall {A} (x y : A) l, last_opt (x :: y :: l) = last_opt (y :: l).
Proof. intros A x y [|z l]; [reflexivity|]. cbn [last_opt]. f_equal. cbn [last]. apply (last_indep (z :: l)). discriminate. Qed.

Lemma NoDup_join : forall {A} (l m : list A), NoDup l -> NoDup m -> (forall x, In x l -> In x m -> False) -> NoDup (l ++ m).
Proof.
  intros A. induction l as [|x l IH]; intros m N M D; cbn [app]; auto. inversion N; subst. constructor.
  - intros I. apply in_app_or in I. destruct I as [I|I]; [auto|]. apply (D x); cbn; auto.
  - apply IH; auto. intros y I J. apply (D y); cbn; auto.
Qed.

Lemma reach_back_app : forall a b,
  (b <> [] -> forall us, last_opt a = Some (Bare us) -> exists us' u, us = us' ++ [u] /\ is_outside u = true) ->
  reach_back a -> reach_back b -> reach_back (a ++ b).
Proof.
  induction a as [|st a IH]; intros b L A B; cbn [app]; auto.
  assert (L' : b <> [] -> forall us, last_opt a = Some (Bare us) -> exists us' u, us = us' ++ [u] /\ is_outside u = true).
  { intros N us E. apply L; auto. destruct a; [discriminate|]. now rewrite last_opt_cons2. }
  destruct st as [us|]; cbn [reach_back] in *.
  - destruct A as [A1 A2]. split; [|apply IH; auto]. destruct A1 as [A1|A1]; [|auto]. subst a. cbn [app].
    destruct b; [auto|]. right. apply L; [discriminate|reflexivity].
  - apply IH; auto.
Qed.

Lemma inside_pending : forall p u, forallb is_inside p = true -> is_outside u = false -> is_compressor u = false ->
  forallb is_inside (p ++ [u]) = true.
Proof. intros. rewrite forallb_app. cbn. unfold is_inside at 2. rewrite H, H0, H1. reflexivity. Qed.

Lemma inside_no_compressor : forall p, forallb is_inside p = true -> forallb (fun u => negb (is_compressor u)) p = true.
Proof.
  intros p H. rewrite forallb_forall in *. intros u I. apply H in I. unfold is_inside in I. apply andb_prop in I. tauto.
Qed.

Lemma outside_not_compressor : forall u, is_outside u = true -> is_compressor u = false.
Proof. intros [i []]; cbn; intros; congruence. Qed.

Definition fresh_ids (next next' : nat) (sts : list stretch) (hs : list (handler_id * handler)) : Prop :=
  exists k, next' = (next + 3 * k)%nat /\ map fst hs = map (fun j => next + 3 * j + 2)%nat (seq 0 k) /\
  flat_map loops_of sts = map (fun j => RecirculationLoop (next + 3 * j)%nat (next + 3 * j + 1)%nat) (seq 0 k).

Lemma assemble_loop_stretches : forall us next hs solver pending sts start,
  forallb is_inside pending = true ->
  solver = concat (map units_of sts) -> map snd hs = flat_map loops_of sts -> Forall well_looped sts -> reach_back sts ->
  (forall us, last_opt sts = Some (Bare us) -> exists us' u, us = us' ++ [u] /\ is_outside u = true) ->
  fresh_ids start next sts hs ->
  let '(hs', units, next') := assemble_loop us next hs solver pending in
  exists sts', units = concat (map units_of sts') /\ map snd hs' = flat_map loops_of sts' /\ Forall well_looped sts' /\ reach_back sts' /\
    concat (map given_of sts') = concat (map given_of sts) ++ pending ++ us /\ fresh_ids start next' sts' hs'.
Proof.
  induction us as [|u us IH]; intros next hs solver pending sts start P Sv H W R L F; cbn [assemble_loop].
  - exists (sts ++ [Bare pending]). rewrite !map_app, !concat_app, flat_map_app. cbn. rewrite !app_nil_r. subst solver.
    repeat split; auto.
    + apply Forall_app. split; auto. constructor; auto. cbn. now apply inside_no_compressor.
    + apply reach_back_app; auto. cbn. auto.
    + destruct F as (k & F1 & F2 & F3). exists k. rewrite flat_map_app. cbn. rewrite app_nil_r. auto.
  - destruct (is_outside u) eqn:O.
    + specialize (IH next hs (solver ++ pending ++ [u]) [] (sts ++ [Bare (pending ++ [u])]) start).
      destruct (assemble_loop us next hs _ []) as [[hs' units] next'] eqn:E.
      destruct IH as (sts' & I1 & I2 & I3 & I4 & I5 & I6).
      * reflexivity.
      * rewrite map_app, concat_app. cbn. rewrite app_nil_r. now subst.
      * rewrite flat_map_app. cbn. now rewrite app_nil_r.
      * apply Forall_app. split; auto. constructor; auto. cbn. rewrite forallb_app, inside_no_compressor by auto. cbn.
        now rewrite outside_not_compressor.
      * apply reach_back_app; auto. cbn. auto.
      * intros us0. rewrite last_opt_snoc. intros X. assert (us0 = pending ++ [u]) by congruence. subst. eauto.
      * destruct F as (k & F1 & F2 & F3). exists k. rewrite flat_map_app. cbn. rewrite app_nil_r. auto.
      * exists sts'. repeat split; auto. rewrite I5, map_app, concat_app. cbn. rewrite app_nil_r, <- !app_assoc. reflexivity.
    + destruct (is_compressor u) eqn:Cu.
      * cbn [recirculation_loop].
        specialize (IH (S (S (S next))) (hs ++ [(S (S next), RecirculationLoop next (S next))])
          (solver ++ (next, DirectMixer) :: (pending ++ [u]) ++ [(S next, DirectSplitter)]) []
          (sts ++ [Looped next (S next) pending u]) start).
        destruct (assemble_loop us (S (S (S next))) _ _ []) as [[hs' units] next'] eqn:E.
        destruct IH as (sts' & I1 & I2 & I3 & I4 & I5 & I6).
        -- reflexivity.
        -- rewrite map_app, concat_app. cbn [map concat units_of]. rewrite app_nil_r. now subst.
        -- rewrite map_app, flat_map_app, H. reflexivity.
        -- apply Forall_app. split; auto. constructor; auto. cbn. auto.
        -- apply reach_back_app; auto. cbn. auto.
        -- intros us0. rewrite last_opt_snoc. discriminate.
        -- destruct F as (k & F1 & F2 & F3). exists (S k). rewrite seq_S, !map_app, flat_map_app, F2, F3. cbn [map flat_map loops_of app].
           replace (start + 3 * (0 + k) + 2)%nat with (S (S next)) by lia.
           replace (start + 3 * (0 + k))%nat with next by lia. replace (next + 1)%nat with (S next) by lia.
           repeat split; lia.
        -- exists sts'. repeat split; auto. rewrite I5, map_app, concat_app. cbn. rewrite app_nil_r, <- !app_assoc. reflexivity.
      * specialize (IH next hs solver (pending ++ [u]) sts start).
        destruct (assemble_loop us next hs solver (pending ++ [u])) as [[hs' units] next'] eqn:E.
        destruct IH as (sts' & I1 & I2 & I3 & I4 & I5 & I6); auto.
        -- now apply inside_pending.
        -- exists sts'. repeat split; auto. rewrite I5, <- !app_assoc. reflexivity.
Qed.


Definition ids_added_by (hd : handler) : list unit_id :=
  match hd with RecirculationLoop m s => [m; s] | ChokeHandler c => [c] | _ => [] end.

Lemma shuffle : forall (A : list nat) c m s B C,
  Permutation ((m :: (A ++ [c]) ++ [s]) ++ B ++ C) (((A ++ [c]) ++ B) ++ m :: s :: C).
Proof.
  intros. transitivity ((A ++ [c]) ++ [m; s] ++ B ++ C).
  - cbn [app]. rewrite <- !app_assoc. cbn [app]. transitivity (A ++ m :: c :: s :: B ++ C).
    + apply Permutation_middle.
    + apply Permutation_app_head. constructor.
  - rewrite <- (app_assoc (A ++ [c])). apply Permutation_app_head. change (m :: s :: C) with ([m; s] ++ C). rewrite !app_assoc.
    apply Permutation_app_tail. apply Permutation_app_comm.
Qed.

Lemma ids_perm : forall sts,
  Permutation (ids (concat (map units_of sts))) (ids (concat (map given_of sts)) ++ flat_map ids_added_by (flat_map loops_of sts)).
Proof.
  unfold ids. induction sts as [|st sts IH]; cbn [map concat flat_map]; [constructor|].
  rewrite !map_app, flat_map_app. rewrite IH. destruct st as [us|m s us c]; cbn [units_of given_of loops_of flat_map ids_added_by app].
  - rewrite <- app_assoc. reflexivity.
  - cbn [map fst]. rewrite !map_app. cbn [map fst]. apply shuffle.
Qed.

Lemma fresh_NoDup : forall next k,
  NoDup (flat_map ids_added_by (map (fun j => RecirculationLoop (next + 3 * j)%nat (next + 3 * j + 1)%nat) (seq 0 k))) /\
  forall i, In i (flat_map ids_added_by (map (fun j => RecirculationLoop (next + 3 * j)%nat (next + 3 * j + 1)%nat) (seq 0 k))) ->
    (next <= i < next + 3 * k)%nat.
Proof.
  intros next. induction k as [|k [IH1 IH2]]; [split; [constructor|intros i []]|].
  rewrite seq_S, map_app, flat_map_app. cbn [map flat_map ids_added_by app plus]. split.
  - apply NoDup_join; auto.
    + repeat constructor; cbn; intros X; repeat destruct X as [X|X]; try contradiction; lia.
    + intros i I J. apply IH2 in I. cbn in J. lia.
  - intros i I. apply in_app_or in I. destruct I as [I|I]; [apply IH2 in I; lia|]. cbn in I. lia.
Qed.

Lemma fresh_handlers : forall next k, NoDup (map (fun j => next + 3 * j + 2)%nat (seq 0 k)) /\
  forall i, In i (map (fun j => next + 3 * j + 2)%nat (seq 0 k)) -> (next <= i < next + 3 * k)%nat.
Proof.
  intros. split.
  - apply FinFun.Injective_map_NoDup; [intros a b; lia | apply seq_NoDup].
  - intros i I. apply in_map_iff in I. destruct I as (j & E & I). apply in_seq in I. lia.
Qed.

(** The units a choke strategy adds, at the front or at the end. *)
Definition choke_of (choke : option unit_id) : list unit_ := match choke with Some i => [(i, Choke)] | None => [] end.
Definition choke_handler_of (choke : option unit_id) : list handler := match choke with Some i => [ChokeHandler i] | None => [] end.

Definition distinct_ids (us : list unit_) : Prop := NoDup (ids us).

Lemma finish : forall control next hs core (us : list unit_) loops next0 hs' units,
  map snd hs = loops -> (next0 <= next)%nat ->
  Permutation (ids core) (ids us ++ flat_map ids_added_by loops) ->
  NoDup (flat_map ids_added_by loops) -> (forall i, In i (flat_map ids_added_by loops) -> (next0 <= i < next)%nat) ->
  NoDup (map fst hs) -> (forall i, In i (map fst hs) -> (next0 <= i < next)%nat) ->
  NoDup (ids us) -> (forall i, In i (ids us) -> (i < next0)%nat) ->
  match control with
  | UpstreamChoke => (hs ++ [(S next, ChokeHandler next)], (next, Choke) :: core)
  | DownstreamChoke => (hs ++ [(S next, ChokeHandler next)], core ++ [(next, Choke)])
  | _ => (hs, core)
  end = (hs', units) ->
  exists first last, units = choke_of first ++ core ++ choke_of last /\
    map snd hs' = loops ++ choke_handler_of first ++ choke_handler_of last /\
    (first <> None <-> control = UpstreamChoke) /\ (last <> None <-> control = DownstreamChoke) /\
    NoDup (ids units) /\ NoDup (map fst hs').
Proof.
  intros control next hs core us loops next0 hs' units H L P ND1 B1 ND2 B2 ND3 B3 E.
  assert (C : NoDup (ids core) /\ forall i, In i (ids core) -> (i < next)%nat).
  { split.
    - eapply Permutation_NoDup; [symmetry; exact P|]. apply NoDup_join; auto. intros i I J. apply B3 in I. apply B1 in J. lia.
    - intros i I. eapply Permutation_in in I; [|exact P]. apply in_app_or in I. destruct I as [I|I]; [apply B3 in I|apply B1 in I]; lia. }
  destruct C as [C1 C2].
  assert (N1 : NoDup (map fst (hs ++ [(S next, ChokeHandler next)]))).
  { rewrite map_app. apply NoDup_join; auto; [repeat constructor; auto|]. intros i I J. apply B2 in I. cbn in J. lia. }
  destruct control; pose proof (f_equal fst E) as E1; pose proof (f_equal snd E) as E2; cbn [fst snd] in E1, E2; clear E; subst hs' units.
  - exists (Some next), None. cbn [choke_of choke_handler_of app]. rewrite !app_nil_r.
    repeat split; try congruence; auto; [rewrite map_app, H; reflexivity|]. cbn. constructor; auto. intros X. apply C2 in X. lia.
  - exists None, (Some next). cbn [choke_of choke_handler_of app].
    repeat split; try congruence; auto; [rewrite map_app, H; reflexivity|]. unfold ids. rewrite map_app. apply NoDup_join; auto.
    + repeat constructor; auto.
    + intros i I J. apply C2 in I. cbn in J. lia.
  - exists None, None. cbn. rewrite !app_nil_r. repeat split; congruence || auto.
  - exists None, None. cbn. rewrite !app_nil_r. repeat split; congruence || auto.
  - exists None, None. cbn. rewrite !app_nil_r. repeat split; congruence || auto.
Qed.

Lemma assemble_individual_proof : forall us next anti control hs units,
  anti <> CommonASV -> NoDup (ids us) -> (forall i, In i (ids us) -> (i < next)%nat) ->
  assemble_section us next anti control = (hs, units) ->
  exists sts first last, units = choke_of first ++ concat (map units_of sts) ++ choke_of last /\
    map snd hs = flat_map loops_of sts ++ choke_handler_of first ++ choke_handler_of last /\
    concat (map given_of sts) = us /\ Forall well_looped sts /\ reach_back sts /\
    (first <> None <-> control = UpstreamChoke) /\ (last <> None <-> control = DownstreamChoke) /\
    NoDup (ids units) /\ NoDup (map fst hs).
Proof.
  intros us next anti control hs units A N B E.
  pose proof (assemble_loop_stretches us next [] [] [] [] next) as X.
  unfold assemble_section in E.
  replace (match anti with CommonASV => _ | _ => assemble_loop us next [] [] [] end) with (assemble_loop us next [] [] []) in E
    by (destruct anti; congruence).
  destruct (assemble_loop us next [] [] []) as [[hs0 core] next'] eqn:EL.
  destruct X as (sts & X1 & X2 & X3 & X4 & X5 & (k & X6 & X7 & X8)); auto.
  { cbn. auto. }
  { discriminate. }
  { exists 0%nat. cbn. repeat split; lia. }
  cbn [map concat app] in X5. exists sts.
  pose proof (finish control next' hs0 core us (flat_map loops_of sts) next hs units) as Y.
  destruct Y as (first & last & Y1 & Y2 & Y3 & Y4 & Y5 & Y6); auto.
  - lia.
  - rewrite X1, <- X5. apply ids_perm.
  - rewrite X8. apply fresh_NoDup.
  - rewrite X8, X6. apply fresh_NoDup.
  - refine (eq_ind_r (fun l => NoDup l) _ X7). apply fresh_handlers.
  - refine (eq_ind_r (fun l => forall i, In i l -> (next <= i < next')%nat) _ X7). rewrite X6. apply fresh_handlers.
  - exists first, last. rewrite <- X1. repeat split; auto; apply Y3 || apply Y4.
Qed.

Lemma assemble_common_proof : forall us next control hs units,
  NoDup (ids us) -> (forall i, In i (ids us) -> (i < next)%nat) ->
  assemble_section us next CommonASV control = (hs, units) ->
  exists m s first last, units = choke_of first ++ ((m, DirectMixer) :: us ++ [(s, DirectSplitter)]) ++ choke_of last /\
    map snd hs = RecirculationLoop m s :: choke_handler_of first ++ choke_handler_of last /\
    (first <> None <-> control = UpstreamChoke) /\ (last <> None <-> control = DownstreamChoke) /\
    NoDup (ids units) /\ NoDup (map fst hs).
Proof.
  intros us next control hs units N B E. unfold assemble_section in E. cbn [recirculation_loop] in E.
  pose proof (finish control (S (S (S next))) [(S (S next), RecirculationLoop next (S next))]
    ((next, DirectMixer) :: us ++ [(S next, DirectSplitter)]) us [RecirculationLoop next (S next)] next hs units) as Y.
  exists next, (S next). destruct Y as (first & last & Y1 & Y2 & Y3 & Y4 & Y5 & Y6); auto.
  - unfold ids. cbn. rewrite map_app. cbn. transitivity (map fst us ++ [next; S next]).
    + change (map fst us ++ [next; S next]) with (map fst us ++ next :: [S next]). apply Permutation_middle.
    + reflexivity.
  - cbn. repeat constructor; cbn; intros X; repeat destruct X as [X|X]; try contradiction; lia.
  - cbn. lia.
  - cbn. repeat constructor; auto.
  - cbn. lia.
  - exists first, last. repeat split; auto; apply Y3 || apply Y4.
Qed.

(** ** Connections *)

Lemma connections_from_app : forall a b p,
  connections_from p (a ++ b) = connections_from p a ++ connections_from (match last_opt a with Some u => Some (fst u) | None => p end) b.
Proof.
  induction a as [|u a IH]; intros b p; cbn [app connections_from]; [reflexivity|].
  assert (E : match last_opt (u :: a) with Some u => Some (fst u) | None => p end
            = match last_opt a with Some u => Some (fst u) | None => Some (fst u) end).
  { destruct a as [|v a]; [reflexivity|]. rewrite last_opt_cons2. reflexivity. }
  rewrite E. destruct p; rewrite IH; reflexivity.
Qed.

Lemma connections_flat : forall sections p, connections_of_sections p sections = connections_from p (concat sections).
Proof.
  induction sections as [|us rest IH]; intros p; cbn [connections_of_sections concat]; [reflexivity|].
  rewrite connections_from_app, IH. reflexivity.
Qed.

Lemma connections_from_zip : forall us p, connections_from (Some p) us = combine (p :: ids us) (ids us).
Proof.
  induction us as [|u us IH]; intros p; cbn [connections_from]; [reflexivity|]. rewrite IH. reflexivity.
Qed.

Lemma connections_proof : forall sections,
  connections sections = combine (ids (concat sections)) (tl (ids (concat sections))) /\
  (length (connections sections) = pred (length (concat sections)))%nat /\
  forall a b, In (a, b) (connections sections) <-> follows (concat sections) a b.
Proof.
  intros sections. unfold connections. rewrite connections_flat. generalize (concat sections) as us. clear sections. intros us.
  split; [|split].
  - destruct us as [|u us]; [reflexivity|]. cbn [connections_from]. rewrite connections_from_zip. reflexivity.
  - destruct us as [|u us]; [reflexivity|]. cbn [connections_from]. rewrite connections_from_zip. unfold ids. cbn [length].
    rewrite combine_length. cbn [length pred]. rewrite map_length. apply Nat.min_r. auto.
  - intros a b. destruct us as [|u us].
    { cbn. split; [intros []|]. intros (x & y & ka & kb & E). destruct x; discriminate. }
    cbn [connections_from]. revert u. induction us as [|v us IH]; intros u; cbn [connections_from In].
    + split; [intros []|]. intros (x & y & ka & kb & E). destruct x as [|? [|]]; discriminate.
    + rewrite IH. split.
      * intros [E|(x & y & ka & kb & E)].
        -- exists [], us, (snd u), (snd v). cbn. destruct u, v; cbn in *. inversion E; subst. reflexivity.
        -- exists (u :: x), y, ka, kb. cbn. now rewrite E.
      * intros (x & y & ka & kb & E). destruct x as [|w x]; cbn in E.
        -- left. assert (u = (a, ka)) by congruence. assert (v = (b, kb)) by congruence. subst. reflexivity.
        -- right. exists x, y, ka, kb. congruence.
Qed.

(** ** Damping *)

Lemma damp_factor : forall p raw s p' s', adaptive_pressure_update p raw s = (p', s') -> factor_in_range s ->
  factor_in_range s' /\ p' = p + d_beta s' * (raw - p).
Proof.
  intros p raw s p' s' E [L U]. unfold adaptive_pressure_update in E. cbv zeta in E.
  set (flips := if _ && _ then S (d_flips s) else 0%nat) in E.
  unfold factor_in_range.
  assert (T : qc 1 10 <= 1) by (apply Qcleb_le; vm_compute; reflexivity).
  destruct (Nat.leb 2 flips).
  - assert (E1 : d_beta s' = Qcmax (qc 1 10) (d_beta s * qc 1 2)) by (apply (f_equal snd) in E; cbn in E; now subst).
    assert (E2 : p' = p + Qcmax (qc 1 10) (d_beta s * qc 1 2) * (raw - p)) by (apply (f_equal fst) in E; cbn in E; now subst).
    rewrite E1. split; auto. unfold qc in *. clear - L U T. unfold Qcmax. destruct (Qcleb _ _) eqn:X; (apply Qcleb_le in X || apply Qcleb_gt in X); split; qc_lra.
  - destruct (Nat.leb 3 (S (d_stable s))).
    + assert (E1 : d_beta s' = Qcmin 1 (d_beta s * qc 3 2)) by (apply (f_equal snd) in E; cbn in E; now subst).
      assert (E2 : p' = p + Qcmin 1 (d_beta s * qc 3 2) * (raw - p)) by (apply (f_equal fst) in E; cbn in E; now subst).
      rewrite E1. split; auto. unfold qc in *. clear - L U T. unfold Qcmin. destruct (Qcleb _ _) eqn:X; (apply Qcleb_le in X || apply Qcleb_gt in X); split; qc_lra.
    + assert (E1 : d_beta s' = d_beta s) by (apply (f_equal snd) in E; cbn in E; now subst).
      assert (E2 : p' = p + d_beta s * (raw - p)) by (apply (f_equal fst) in E; cbn in E; now subst).
      rewrite E1. auto.
Qed.

Lemma convex : forall p raw b lo hi, 0 <= b -> b <= 1 -> lo <= p -> p <= hi -> lo <= raw -> raw <= hi ->
  lo <= p + b * (raw - p) /\ p + b * (raw - p) <= hi.
Proof. intros. split; qc_nra. Qed.

Lemma damped_proof : forall raws p s lo hi, factor_in_range s ->
  lo <= p -> p <= hi -> Forall (fun raw => lo <= raw /\ raw <= hi) raws ->
  factor_in_range (snd (damped p s raws)) /\ lo <= fst (damped p s raws) /\ fst (damped p s raws) <= hi.
Proof.
  induction raws as [|raw raws IH]; intros p s lo hi F L H A; cbn [damped]; [auto|].
  destruct (adaptive_pressure_update p raw s) as [p' s'] eqn:E. apply damp_factor in E; auto. destruct E as [F' E].
  inversion A as [|? ? [A1 A2] A']; subst.
  assert (0 <= d_beta s') by (destruct F' as [F' _]; unfold qc in F'; qc_lra).
  destruct (convex p raw (d_beta s') lo hi) as [C1 C2]; auto; try apply F'.
Qed.

Lemma mul_nonneg : forall a b, 0 <= a -> 0 <= b -> 0 <= a * b.
Proof. intros. qc_nra. Qed.
Lemma square_nonneg : forall a, 0 <= a * a.
Proof. intros. qc_nra. Qed.
Lemma mul_pos : forall a b, 0 < a -> 0 < b -> 0 < a * b.
Proof. intros. qc_nra. Qed.
Lemma inv_pos : forall a, 0 < a -> 0 < / a.
Proof.
  intros a H. apply Qcnot_le_lt. intros X. assert (E : a * / a = 1) by (apply Qcmult_inv_r; now apply pos_neq). qc_nra.
Qed.

Lemma Qcabs_scale : forall a b, 0 <= a -> Qcabs (a * b) = a * Qcabs b.
Proof. intros a b H. unfold Qcabs. repeat match goal with |- context [Qcleb ?x ?y] => destruct (Qcleb x y) eqn:?E end;
  repeat match goal with E : Qcleb _ _ = true |- _ => apply Qcleb_le in E | E : Qcleb _ _ = false |- _ => apply Qcleb_gt in E end;
  apply Qcle_antisym; qc_nra. Qed.

(** Every damped step closes at least a tenth of the gap to the raw value and never overshoots it; a first step is not damped. *)
Lemma damped_step_proof : forall p raw s p' s', factor_in_range s -> adaptive_pressure_update p raw s = (p', s') ->
  Qcabs (raw - p') <= qc 9 10 * Qcabs (raw - p) /\ 0 <= (raw - p') * (raw - p) /\ factor_in_range s' /\
  ((d_flips s <= 0)%nat -> d_beta s = 1 -> p' = raw /\ d_beta s' = 1).
Proof.
  intros p raw s p' s' F E. pose proof E as E0. apply damp_factor in E; auto. destruct E as [F' E].
  assert (G : raw - p' = (1 - d_beta s') * (raw - p)) by (rewrite E; ring).
  destruct F' as [F1 F2]. rewrite G. split; [|split; [|split; [split; auto|]]].
  - rewrite Qcabs_scale by qc_lra. assert (0 <= Qcabs (raw - p)) by (unfold Qcabs; qc_cases; qc_lra).
    unfold qc in *. qc_nra.
  - unfold qc in *. assert (0 <= 1 - d_beta s') by qc_lra. rewrite <- Qcmult_assoc. apply mul_nonneg; [auto|apply square_nonneg].
  - intros Z B. assert (B' : d_beta s' = 1).
    { unfold adaptive_pressure_update in E0. cbv zeta in E0.
      set (flips := if _ && _ then S (d_flips s) else 0%nat) in E0.
      assert (L : (Nat.leb 2 flips = false)) by (unfold flips; destruct (_ && _); apply Nat.leb_gt; lia).
      rewrite L in E0. destruct (Nat.leb 3 _); apply (f_equal snd) in E0; cbn in E0; subst s'; cbn [d_beta]; rewrite B; [|reflexivity].
      apply Qc_is_canon; vm_compute; reflexivity. }
    split; auto. rewrite E, B'. ring.
Qed.

(** ** Compressor *)

Lemma compressor_proof : forall ph h i c s s', consistent_service (ph_service ph) -> served (ph_service ph) s ->
  propagate ph h (i, Compressor c) s = Return s' ->
  pure_vapor_threshold <= s_vapor_fraction s /\
  exists speed head efficiency, h_speed h i = Some speed /\ ch_min_rate c speed <= volumetric_rate s /\
    volumetric_rate s <= ch_max_rate c speed /\ ch_point c speed (volumetric_rate s) = Return (head, efficiency) /\
    same_flow s s' /\ 0 < s_pressure s' /\ 0 < s_temperature s' /\ 0 < s_density s' /\
    Qcabs (s_enthalpy s' - (s_enthalpy s + head / efficiency)) <= Qcmax (qz 10) (Qcabs (s_enthalpy s + head / efficiency) * qc 1 10000).
Proof.
  intros ph h i c s s' C V H. cbn [propagate] in H. apply compressor_propagate_ok in H.
  destruct H as (H0 & speed & hd & e & H1 & H2 & H3 & H4 & H5). split; auto. exists speed, hd, e.
  apply compressor_outlet_flashed in H5. destruct H5 as [_ H5].
  pose proof (flashed_same ph s _ s' C V H5) as [_ F].
  destruct H5 as (p & props & P & Fl & W & E & M). unfold validate_ph in W.
  destruct (Qcleb (p_pressure props) 0) eqn:W1; [discriminate|]. destruct (Qcleb (p_temperature props) 0) eqn:W2; [discriminate|].
  destruct (Qcleb (p_density props) 0) eqn:W3; [discriminate|]. destruct (Qcleb (p_z props) 0); [discriminate|].
  destruct (Qcleb (p_kappa props) 0); [discriminate|]. destruct (Qcleb (p_standard_density props) 0); [discriminate|].
  destruct (negb _); [discriminate|]. destruct (Qcltb _ (Qcabs _)) eqn:W4; [discriminate|].
  apply Qcleb_gt in W1. apply Qcleb_gt in W2. apply Qcleb_gt in W3. apply Qcltb_ge in W4. subst s'. auto 15.
Qed.

Lemma outlet_errors : forall ph e hd inlet x, compressor_outlet ph e hd inlet = Raise x ->
  x = ThermodynamicError \/ x = ZeroDivisionErr \/ x = NegativeMassRate \/
  exists p t g, flash_ph (ph_service ph) (s_model inlet) p t g = Raise x.
Proof.
  intros ph e hd inlet x H.
  assert (CF : forall p t x, compressor_flash ph inlet p t = Raise x ->
    x = ThermodynamicError \/ exists p t g, flash_ph (ph_service ph) (s_model inlet) p t g = Raise x).
  { intros p t y. unfold compressor_flash. destruct (flash_ph _ _ _ _ _) as [q|z] eqn:E.
    - destruct (validate_ph q t); [discriminate|]. intros X. left. congruence.
    - destruct z; intros X; try (right; exists p, t, (Some (s_temperature inlet)); rewrite E; exact X). left. congruence. }
  assert (RP : forall v x, require_positive v = Raise x -> x = ThermodynamicError).
  { intros [v|] y; cbn; [destruct (Qcleb v 0)|]; congruence. }
  assert (WN : forall f x, with_new_fluid inlet f = Raise x -> x = NegativeMassRate).
  { intros f y. unfold with_new_fluid. rewrite new_stream_spec. destruct (Qcltb _ _); congruence. }
  assert (L : forall t n current p s x, outlet_loop ph e hd inlet t n current p s = Raise x ->
    x = ThermodynamicError \/ x = NegativeMassRate \/ exists p t g, flash_ph (ph_service ph) (s_model inlet) p t g = Raise x).
  { intros t. induction n as [|n IH]; intros current p s y Y; cbn [outlet_loop] in Y; [discriminate|].
    destruct (require_positive (ph_campbell _ _ _ _ _ _ _ _)) as [raw|] eqn:E1; cbn [obind] in Y; [|assert (e0 = y) by congruence; subst; eauto].
    destruct (adaptive_pressure_update p raw s) as [d s'].
    destruct (require_positive (Some d)) as [d'|] eqn:E2; cbn [obind] in Y; [|assert (e0 = y) by congruence; subst; eauto].
    destruct (compressor_flash ph inlet d' t) as [q|] eqn:E3; cbn [obind] in Y;
      [|assert (e0 = y) by congruence; subst; apply CF in E3; tauto].
    destruct (with_new_fluid inlet (mk_fluid (s_model inlet) q)) as [nx|] eqn:E4; cbn [obind] in Y; [|assert (e0 = y) by congruence; subst; eauto].
    destruct (Qcltb _ _); [discriminate|]. eauto. }
  unfold compressor_outlet in H.
  destruct (require_positive (ph_campbell _ _ _ _ _ _ _ _)) as [g|] eqn:E1; cbn [obind] in H; [|assert (e0 = x) by congruence; subst; eauto].
  destruct (Qceqb e 0); [assert (x = ZeroDivisionErr) by congruence; auto|]. cbv zeta in H.
  match type of H with obind ?m _ = _ => destruct m as [q|] eqn:E3 end; cbn [obind] in H;
    [|assert (e0 = x) by congruence; subst; apply CF in E3; tauto].
  match type of H with obind ?m _ = _ => destruct m as [nx|] eqn:E4 end; cbn [obind] in H;
    [|assert (e0 = x) by congruence; subst; apply WN in E4; tauto].
  apply L in H. tauto.
Qed.

(** Limits are reported exactly when they are exceeded, provided that the chart and the fluid service do not report them. *)
Lemma compressor_limits_proof : forall ph h i c s speed,
  h_speed h i = Some speed -> pure_vapor_threshold <= s_vapor_fraction s ->
  (forall r e, ch_point c speed r = Raise e -> e <> SurgeError /\ e <> StonewallError) ->
  (forall m p t g e, flash_ph (ph_service ph) m p t g = Raise e -> e <> SurgeError /\ e <> StonewallError) ->
  (propagate ph h (i, Compressor c) s = Raise SurgeError <-> volumetric_rate s < ch_min_rate c speed) /\
  (propagate ph h (i, Compressor c) s = Raise StonewallError <->
     ch_min_rate c speed <= volumetric_rate s /\ ch_max_rate c speed < volumetric_rate s).
Proof.
  intros ph h i c s speed S V A B. cbn [propagate]. unfold compressor_propagate, compressor_speed. rewrite S.
  rewrite (proj2 (Qcltb_ge _ _) V). cbn [obind]. cbv zeta.
  destruct (Qcltb (volumetric_rate s) (ch_min_rate c speed)) eqn:E1.
  - apply Qcltb_lt in E1. split; [tauto|]. split; [discriminate|]. intros [X _]. exfalso. qc_lra.
  - apply Qcltb_ge in E1. destruct (Qcltb (ch_max_rate c speed) (volumetric_rate s)) eqn:E2.
    + apply Qcltb_lt in E2. split; [split; [discriminate|intros; exfalso; qc_lra]|tauto].
    + apply Qcltb_ge in E2.
      assert (Q : forall e, (let! (head, efficiency) := ch_point c speed (volumetric_rate s) in compressor_outlet ph efficiency head s) = Raise e ->
                e <> SurgeError /\ e <> StonewallError).
      { intros e. destruct (ch_point c speed (volumetric_rate s)) as [[hd ef]|x] eqn:P; cbn [obind].
        - intros X. apply outlet_errors in X. destruct X as [->|[->|[->|(p & t & g & X)]]]; try (split; discriminate). eauto.
        - intros X. assert (x = e) by congruence. subst. eauto. }
      split; split; try (intros X; apply Q in X; destruct X; congruence); intros; exfalso; qc_lra.
Qed.

Lemma compressor_liquid_proof : forall ph h i c s, s_vapor_fraction s < pure_vapor_threshold ->
  propagate ph h (i, Compressor c) s = Raise LiquidError.
Proof. intros ph h i c s L. cbn [propagate]. unfold compressor_propagate. now rewrite (proj2 (Qcltb_lt _ _) L). Qed.

(** ** Recirculation range *)

Lemma recirculation_range_proof : forall ph h i c s speed, consistent_service (ph_service ph) -> served (ph_service ph) s ->
  0 < s_density s -> 0 <= s_mass_rate s -> h_speed h i = Some speed ->
  exists b, recirculation_range ph h i c s = Return b /\ 0 <= b_min b /\ 0 <= b_max b /\
    (forall r s', b_min b <= r -> add_rate r s = Return s' -> ch_min_rate c speed < volumetric_rate s') /\
    (forall r s', r <= b_max b -> 0 < b_max b -> add_rate r s = Return s' -> volumetric_rate s' < ch_max_rate c speed) /\
    (0 < b_min b -> volumetric_rate s < ch_min_rate c speed + recirculation_tolerance * s_standard_density s / hours_per_day / s_density s) /\
    (volumetric_rate s < ch_min_rate c speed -> 0 < b_min b).
Proof.
  intros ph h i c s speed C V D M S. unfold recirculation_range, minimum_standard_rate, maximum_standard_rate, compressor_speed.
  rewrite S. cbn [obind]. eexists. split; [reflexivity|].
  destruct C as (C0 & _ & _). specialize (C0 (s_model s)). unfold served in V.
  set (sd := standard_density_of (ph_service ph) (s_model s)) in *.
  unfold mass_rate_to_standard_rate, standard_rate, volumetric_rate. cbn [b_min b_max]. rewrite V. fold sd.
  set (dn := s_density s) in *. set (mass := s_mass_rate s) in *.
  set (lo := ch_min_rate c speed). set (hi := ch_max_rate c speed).
  assert (T : 0 < recirculation_tolerance) by (vm_compute; reflexivity).
  set (tol := recirculation_tolerance) in *.
  assert (X : forall r s', add_rate r s = Return s' -> s_mass_rate s' / s_density s' = (mass + r * sd / hours_per_day) / dn).
  { intros r s' E. apply add_rate_ok in E. subst s'. unfold s_density. cbn [s_mass_rate s_fluid]. fold (s_density s). rewrite V. reflexivity. }
  assert (H24 : 0 < qz 24) by (vm_compute; reflexivity). unfold hours_per_day in *. set (k := qz 24) in *.
  assert (K : 0 < sd / k) by (unfold Qcdiv; apply mul_pos; [auto | now apply inv_pos]).
  set (q := sd / k) in *.
  assert (Q1 : forall m, m * k / sd = m * / q) by (intros; unfold q; field; split; now apply pos_neq).
  assert (Q2 : forall r, r * sd / k = r * q) by (intros; unfold q; field; now apply pos_neq).
  assert (IQ : q * / q = 1) by (apply Qcmult_inv_r; now apply pos_neq).
  assert (PQ : 0 < / q) by now apply inv_pos.
  assert (ID : dn * / dn = 1) by (apply Qcmult_inv_r; now apply pos_neq).
  assert (PD : 0 < / dn) by now apply inv_pos.
  assert (Q0 : forall m, m / sd * k = m * / q) by (intros; unfold q; field; split; now apply pos_neq).
  rewrite !Q1, !Q0, Q2. unfold Qcdiv.
  assert (TQ : 0 < tol * q) by (apply mul_pos; auto).
  set (iq := / q) in *. set (idn := / dn) in *.
  split; [|split; [|split; [|split; [|split]]]].
  - qc_cases; qc_lra.
  - qc_cases; qc_lra.
  - intros r s' L E. apply X in E. rewrite Q2 in E. unfold Qcdiv in E. fold idn in E. rewrite E.
    assert (L' : lo * dn * iq + tol - mass * iq <= r) by (unfold Qcmax in L; destruct (Qcleb _ _) eqn:Y; [auto|apply Qcleb_gt in Y; qc_lra]).
    apply Qcmult_le_compat_r with (z := q) in L'; [|now apply Qclt_le_weak].
    assert (L2 : lo * dn + tol * q - mass <= r * q).
    { replace ((lo * dn * iq + tol - mass * iq) * q) with (lo * dn * (q * iq) + tol * q - mass * (q * iq)) in L' by ring.
      rewrite IQ in L'. qc_lra. }
    assert (L3 : lo * dn < mass + r * q) by qc_lra.
    apply Qcmult_lt_compat_r with (z := idn) in L3; auto. replace (lo * dn * idn) with (lo * (dn * idn)) in L3 by ring. rewrite ID in L3. qc_lra.
  - intros r s' L P E. apply X in E. rewrite Q2 in E. unfold Qcdiv in E. fold idn in E. rewrite E.
    assert (L' : r <= hi * dn * iq - tol - mass * iq) by (unfold Qcmax in L, P; destruct (Qcleb _ _) eqn:Y; [auto|exfalso; qc_lra]).
    apply Qcmult_le_compat_r with (z := q) in L'; [|now apply Qclt_le_weak].
    assert (L2 : r * q <= hi * dn - tol * q - mass).
    { replace ((hi * dn * iq - tol - mass * iq) * q) with (hi * dn * (q * iq) - tol * q - mass * (q * iq)) in L' by ring.
      rewrite IQ in L'. qc_lra. }
    assert (L3 : mass + r * q < hi * dn) by qc_lra.
    apply Qcmult_lt_compat_r with (z := idn) in L3; auto. replace (hi * dn * idn) with (hi * (dn * idn)) in L3 by ring. rewrite ID in L3. qc_lra.
  - intros P. assert (L : 0 < lo * dn * iq + tol - mass * iq) by (unfold Qcmax in P; destruct (Qcleb _ _) eqn:Y; [auto|exfalso; qc_lra]).
    apply Qcmult_lt_compat_r with (z := q) in L; auto.
    assert (L2 : mass < lo * dn + tol * q).
    { replace ((lo * dn * iq + tol - mass * iq) * q) with (lo * dn * (q * iq) + tol * q - mass * (q * iq)) in L by ring. rewrite IQ in L. qc_lra. }
    apply Qcmult_lt_compat_r with (z := idn) in L2; auto.
    replace ((lo * dn + tol * q) * idn) with (lo * (dn * idn) + tol * q * idn) in L2 by ring. rewrite ID in L2. qc_lra.
  - intros L. apply Qcmult_lt_compat_r with (z := dn) in L; auto. replace (mass * idn * dn) with (mass * (dn * idn)) in L by ring. rewrite ID in L.
    assert (L2 : mass < lo * dn) by qc_lra. apply Qcmult_lt_compat_r with (z := iq) in L2; auto. qc_cases; qc_lra.
Qed.

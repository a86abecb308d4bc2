(** Assembling the pipeline: C96. *)
From Coq Require Import PeanoNat String ListDec.
From Verif Require Import QcTac Base BaseLemmas Num Stream_Model Process_Model Process_Spec Process_Proofs2 Sections_Model Sections_Spec Sections_Proofs
  Sections_Proofs2 Sections_Proofs3 Sections_Proofs4.
Local Open Scope list_scope.

Lemma ids_app : forall a b, ids (a ++ b) = ids a ++ ids b.
Proof. intros a b. apply map_app. Qed.
Lemma assemble_loop_ids : forall us next hs solver pending hs' units next', assemble_loop us next hs solver pending = (hs', units, next') ->
  (next <= next')%nat /\ (forall i, In i (ids units) -> In i (ids (solver ++ pending ++ us)) \/ (next <= i)%nat) /\
  (forall i, In i (map fst hs') -> In i (map fst hs) \/ (next <= i)%nat).
Proof.
  induction us as [|u us IH]; intros next hs solver pending hs' units next' H; cbn [assemble_loop] in H.
  - injection H as <- <- <-. rewrite app_nil_r. auto.
  - destruct (is_outside u).
    + apply IH in H. rewrite <- !app_assoc in H. exact H.
    + destruct (is_compressor u).
      * cbn [recirculation_loop] in H. apply IH in H. destruct H as (H1 & H2 & H3). split; [lia|]. split.
        -- intros i Hi. destruct (H2 i Hi) as [Q|Q]; [|right; lia]. rewrite !ids_app, !in_app_iff in *. cbn [ids map In fst] in *. rewrite map_app, !in_app_iff in Q.
           fold (ids (pending ++ [u])) in Q. rewrite ids_app, in_app_iff in Q. cbn [ids map In fst] in Q.
           intuition (subst; auto; try (right; lia)).
        -- intros i Hi. destruct (H3 i Hi) as [Q|Q]; [|right; lia]. rewrite map_app, in_app_iff in Q. cbn [map In fst] in Q. intuition (subst; auto; try (right; lia)).
      * apply IH in H. rewrite <- !app_assoc in H. exact H.
Qed.
Lemma assemble_ids : forall us next anti control hs units, assemble_section us next anti control = (hs, units) ->
  (forall i, In i (ids units) -> In i (ids us) \/ (next <= i)%nat) /\ (forall i, In i (map fst hs) -> (next <= i)%nat).
Proof.
  intros us next anti control hs units H. unfold assemble_section in H.
  destruct (match anti with CommonASV => let '(l, assembled, next0) := recirculation_loop next us in ([l], assembled, next0)
            | _ => assemble_loop us next [] [] [] end) as [[hs0 core] next'] eqn:E.
  assert ((next <= next')%nat /\ (forall i, In i (ids core) -> In i (ids us) \/ (next <= i)%nat) /\ (forall i, In i (map fst hs0) -> (next <= i)%nat)) as (N & C & D).
  { destruct anti.
    1, 2: apply assemble_loop_ids in E; cbn [app map In] in E; destruct E as (E1 & E2 & E3); split; [exact E1|]; split; [exact E2|]; intros i Hi; destruct (E3 i Hi) as [[]|Q]; exact Q.
    cbn [recirculation_loop] in E. injection E as <- <- <-. split; [lia|]. split.
    - intros i Hi. cbn [ids map fst In] in Hi. fold (ids (us ++ [(S next, DirectSplitter)])) in Hi. rewrite ids_app, in_app_iff in Hi. cbn [ids map In fst] in Hi.
      intuition (subst; auto; try (right; lia)).
    - intros i [<-|[]]. cbn. lia. }
  assert (forall i, In i (map fst (hs0 ++ [(S next', ChokeHandler next')])) -> (next <= i)%nat) as D'.
  { intros i Hi. rewrite map_app, in_app_iff in Hi. cbn [map In fst] in Hi. destruct Hi as [Hi|[<-|[]]]; [auto|lia]. }
  destruct control; pose proof (f_equal fst H) as H1; pose proof (f_equal snd H) as H2; cbn [fst snd] in H1, H2; clear H; subst hs units; split; auto.
  - intros i [<-|Hi]; [cbn; right; lia|auto].
  - intros i Hi. rewrite ids_app, in_app_iff in Hi. cbn [ids map In fst] in Hi. destruct Hi as [Hi|[<-|[]]]; [auto|right; lia].
Qed.

(** ** One section *)
Definition assembled_well (s : section) (x : list (handler_id * handler) * list unit_) : Prop :=
  filter from_user (snd x) = filter from_user (s_units s) /\ (3 <= List.length (snd x))%nat /\
  (forall u, In u (s_units s) -> compresses u -> protected_in (snd x) (fst x) u) /\ Forall (part_of (snd x)) (map snd (fst x)) /\
  shaped s (snd x).
Lemma choke_filter : forall o, filter from_user (choke_of o) = [].
Proof. intros [i|]; reflexivity. Qed.
Lemma stretch_filter : forall sts, filter from_user (concat (map units_of sts)) = filter from_user (concat (map given_of sts)).
Proof.
  induction sts as [|st sts IH]; [reflexivity|]. cbn [map concat]. rewrite !filter_app, IH. f_equal. destruct st as [us|m s before c]; [reflexivity|].
  cbn [units_of given_of filter from_user snd]. rewrite filter_app. cbn [filter from_user snd]. now rewrite app_nil_r.
Qed.
Lemma part_app : forall a b c hd, part_of b hd -> part_of (a ++ b ++ c) hd.
Proof. intros a b c [] H; cbn in *; try contradiction; rewrite !in_app_iff; tauto. Qed.
Lemma choke_parts : forall o a b, Forall (part_of (a ++ choke_of o ++ b)) (choke_handler_of o).
Proof. intros [i|] a b; cbn; constructor; auto. cbn. apply in_or_app. right. now left. Qed.
Lemma loops_parts : forall sts, Forall (part_of (concat (map units_of sts))) (flat_map loops_of sts).
Proof.
  induction sts as [|st sts IH]; [constructor|]. cbn [map concat flat_map]. apply Forall_app. split.
  - destruct st as [us|m s before c]; [constructor|]. cbn [loops_of units_of]. constructor; [|constructor]. cbn. split; [now left|]. right.
    apply in_or_app. left. apply in_or_app. right. now left.
  - eapply Forall_impl; [|exact IH]. intros hd H. apply (part_app (units_of st) _ []) in H. rewrite app_nil_r in H. exact H.
Qed.
Lemma assemble_well : forall s next x, acceptable_section s -> NoDup (ids (s_units s)) -> (forall i, In i (ids (s_units s)) -> (i < next)%nat) ->
  assemble_section (s_units s) next (co_anti_surge (s_constraint s)) (co_control (s_constraint s)) = x ->
  assembled_well s x /\ NoDup (ids (snd x)) /\ NoDup (map fst (fst x)).
Proof.
  intros s next [hs units] (Hc & _) Hn Hlt H. cbn [fst snd].
  assert (co_anti_surge (s_constraint s) = CommonASV \/ co_anti_surge (s_constraint s) <> CommonASV) as [E|E]
    by (destruct (co_anti_surge (s_constraint s)); auto; right; discriminate).
  - rewrite E in H. apply assemble_common_proof in H; auto. destruct H as (m & sp & first & last & -> & Hh & Hf1 & Hf2 & Hu & Hi). split; [|auto].
    split; [|split; [|split; [|split]]]; cbn [fst snd].
    + rewrite !filter_app, !choke_filter. cbn [app filter from_user snd]. rewrite filter_app. cbn [filter from_user snd]. now rewrite !app_nil_r.
    + destruct Hc as (u & Hu' & _). destruct (s_units s); [destruct Hu'|]. rewrite !app_length. cbn [List.length]. rewrite app_length. cbn. lia.
    + intros u Hin _. exists (choke_of first), m, (s_units s), sp, (choke_of last). rewrite Hh. cbn [app In]. rewrite <- app_assoc. auto.
    + rewrite Hh. constructor; [|apply Forall_app; split].
      * apply part_app. cbn. split; [now left|]. right. apply in_or_app. right. now left.
      * apply (choke_parts first []).
      * rewrite app_assoc. pose proof (choke_parts last (choke_of first ++ (m, DirectMixer) :: s_units s ++ [(sp, DirectSplitter)]) []) as Q. rewrite app_nil_r in Q. exact Q.
    + exists ((m, DirectMixer) :: s_units s ++ [(sp, DirectSplitter)]), first, last. split; [reflexivity|]. split; [exact Hf1|]. split; [exact Hf2|].
      split; [eauto|intros N; contradiction].
  - apply assemble_individual_proof in H; auto. destruct H as (sts & first & last & -> & Hh & Hg & Hw & Hr & Hf1 & Hf2 & Hu & Hi). split; [|auto].
    assert (forall u, In u (s_units s) -> compresses u -> exists a m sp before b, sts = a ++ Looped m sp before u :: b) as Hloop.
    { intros u Hin Hcu. rewrite <- Hg in Hin. apply in_concat in Hin. destruct Hin as (l & Hl & Hin). apply in_map_iff in Hl. destruct Hl as (st & <- & Hst).
      rewrite Forall_forall in Hw. specialize (Hw st Hst). apply compressor_iff in Hcu. destruct st as [us|m sp before c].
      - cbn in Hw, Hin. rewrite forallb_forall in Hw. apply Hw in Hin. rewrite Hcu in Hin. discriminate.
      - cbn in Hw, Hin. destruct Hw as (Hw & _). apply in_app_or in Hin. destruct Hin as [Hin|[->|[]]].
        + rewrite forallb_forall in Hw. apply Hw in Hin. unfold is_inside in Hin. rewrite Hcu, andb_false_r in Hin. discriminate.
        + apply in_split in Hst. destruct Hst as (a & b & ->). exists a, m, sp, before, b. reflexivity. }
    split; [|split; [|split; [|split]]]; cbn [fst snd].
    + rewrite !filter_app, !choke_filter, stretch_filter, Hg. cbn [app]. now rewrite app_nil_r.
    + destruct Hc as (u & Hin & Hcu). destruct (Hloop u Hin Hcu) as (a & m & sp & before & b & ->). rewrite map_app, concat_app, !app_length. cbn [map concat units_of].
      rewrite !app_length. cbn [List.length]. rewrite !app_length. cbn [List.length]. lia.
    + intros u Hin Hcu. destruct (Hloop u Hin Hcu) as (a & m & sp & before & b & ->).
      exists (choke_of first ++ concat (map units_of a)), m, (before ++ [u]), sp, (concat (map units_of b) ++ choke_of last).
      split; [|split; [apply in_or_app; right; now left|]].
      * rewrite map_app, concat_app. cbn [map concat units_of]. rewrite <- !app_assoc. cbn [app]. rewrite <- !app_assoc. reflexivity.
      * rewrite Hh, flat_map_app. cbn [flat_map loops_of]. rewrite !in_app_iff. left. right. left. now left.
    + rewrite Hh. apply Forall_app. split; [|apply Forall_app; split].
      * eapply Forall_impl; [|apply loops_parts]. intros hd Q. apply part_app. exact Q.
      * apply (choke_parts first []).
      * rewrite app_assoc. pose proof (choke_parts last (choke_of first ++ concat (map units_of sts)) []) as Q. rewrite app_nil_r in Q. exact Q.
    + exists (concat (map units_of sts)), first, last. split; [reflexivity|]. split; [exact Hf1|]. split; [exact Hf2|].
      split; [intros N; contradiction|]. intros _. exists sts. auto.
Qed.

(** ** All sections *)
Lemma next_id_above : forall l i, In i l -> (i < next_id l)%nat.
Proof.
  intros l i H. unfold next_id. induction l as [|a l IH]; [destruct H|]. cbn [fold_right]. destruct H as [->|H]; [lia|]. specialize (IH H). lia.
Qed.
Lemma assemble_all : forall ss next, Forall acceptable_section ss -> NoDup (ids (concat (map s_units ss))) ->
  (forall i, In i (ids (concat (map s_units ss))) -> (i < next)%nat) ->
  let l := assemble_sections ss next in
  Forall2 assembled_well ss l /\ NoDup (ids (concat (map snd l))) /\ NoDup (map fst (flat_map fst l)) /\
  (forall i, In i (ids (concat (map snd l))) -> In i (ids (concat (map s_units ss))) \/ (next <= i)%nat) /\
  (forall i, In i (map fst (flat_map fst l)) -> (next <= i)%nat).
Proof.
  induction ss as [|s ss IH]; intros next Ha Hn Hlt; cbv zeta; cbn [assemble_sections].
  - cbn. split; [constructor|]. split; [constructor|]. split; [constructor|]. split; intros i [].
  - inversion Ha as [|? ? Has Hass]; subst. cbn [map concat] in Hn, Hlt. rewrite ids_app in Hn, Hlt. apply nodup_app in Hn. destruct Hn as (Hn1 & Hn2 & Hn3).
    destruct (assemble_section (s_units s) next (co_anti_surge (s_constraint s)) (co_control (s_constraint s))) as [hs us] eqn:E.
    pose proof (assemble_ids _ _ _ _ _ _ E) as (I1 & I2).
    apply (assemble_well s next (hs, us) Has Hn1) in E; [|intros i Hi; apply Hlt; apply in_or_app; auto]. cbn [fst snd] in E. destruct E as (W & N1 & N2).
    set (next' := next_id (next :: map fst us ++ map fst hs)).
    assert ((next < next')%nat) as L0 by (apply next_id_above; now left).
    assert (forall i, In i (ids us) -> (i < next')%nat) as L1 by (intros i Hi; apply next_id_above; right; apply in_or_app; now left).
    assert (forall i, In i (map fst hs) -> (i < next')%nat) as L2 by (intros i Hi; apply next_id_above; right; apply in_or_app; now right).
    assert (forall i, In i (ids (concat (map s_units ss))) -> (i < next)%nat) as L3 by (intros i Hi; apply Hlt; apply in_or_app; auto).
    destruct (IH next' Hass Hn2) as (F & M1 & M2 & J1 & J2); [intros i Hi; specialize (L3 i Hi); lia|].
    cbn [map concat flat_map fst snd]. rewrite !ids_app, map_app. split; [constructor; assumption|]. split; [|split; [|split]].
    + apply nodup_app. split; [exact N1|]. split; [exact M1|]. intros i Hi Hj. specialize (L1 i Hi). destruct (J1 i Hj) as [Q|Q]; [|lia].
      destruct (I1 i Hi) as [R|R]; [apply (Hn3 i R Q)|specialize (L3 i Q); lia].
    + apply nodup_app. split; [exact N2|]. split; [exact M2|]. intros i Hi Hj. specialize (L2 i Hi). specialize (J2 i Hj). lia.
    + intros i Hi. apply in_app_or in Hi. rewrite in_app_iff. destruct Hi as [Hi|Hi]; [destruct (I1 i Hi); auto|destruct (J1 i Hi); auto; right; lia].
    + intros i Hi. apply in_app_or in Hi. destruct Hi as [Hi|Hi]; [auto|specialize (J2 i Hi); lia].
Qed.

(** Stages of a train of several streams: proofs for C126. *)
From Coq Require Import String PeanoNat.
From Verif Require Import Base BaseLemmas Names_Model Names_Spec Names_Proofs Names_Proofs2.
Local Open Scope string_scope.
Local Open Scope list_scope.

Definition plan (streams : list train_stream) (x : nat * multi_stage) : planned_stage :=
  mk_planned_stage (ms_chart (snd x)) (mixer_ports streams (fst x) (snd x)) (splitter_ports streams (snd x)).

(** ** No stage is left out when no stream is named twice *)

Definition map_right (stages : list multi_stage) (d : list (string * nat)) : Prop :=
  forall r v, dict_get String.eqb r d = Some v -> exists s, nth_error stages v = Some s /\ names_stream s r.
Lemma set_default_right : forall stages d r i s, map_right stages d -> nth_error stages i = Some s -> names_stream s r ->
  map_right stages (snd (set_default r i d)).
Proof.
  intros stages d r i s M E N. unfold set_default. destruct (dict_get String.eqb r d) eqn:F; [exact M|]. cbn [snd].
  intros q v. rewrite dict_get_set by apply eqb_iff. destruct (String.eqb_spec q r) as [->|D]; [|apply M]. intros [= <-]. eauto.
Qed.
Lemma note_right : forall stages known d i s, map_right stages d -> nth_error stages i = Some s -> map_right stages (note_streams known d (i, s)).
Proof.
  intros stages known d i s M E. unfold note_streams. cbn [fst snd].
  assert (G : forall l, incl l (or_empty (ms_streams s)) -> forall d, map_right stages d ->
     map_right stages (fold_left (fun d r => if mem r known then snd (set_default r i d) else d) l d)).
  { induction l as [|r l IH]; intros I d' M'; [exact M'|]. cbn [fold_left]. apply IH; [intros x H; apply I; now right|].
    destruct (mem r known); [|exact M']. eapply set_default_right; [exact M'|exact E|]. apply I. now left. }
  apply G; [intros x H; exact H|exact M].
Qed.
Lemma map_starts_right : forall stages known, map_right stages (stream_to_stage_map known stages).
Proof.
  intros stages known. unfold stream_to_stage_map.
  assert (G : forall l, incl l (enumerate stages) -> forall d, map_right stages d -> map_right stages (fold_left (note_streams known) l d)).
  { induction l as [|[i s] l IH]; intros I d M; [exact M|]. cbn [fold_left]. apply IH; [intros x H; apply I; now right|].
    apply note_right; [exact M|]. apply enumerate_In, I. now left. }
  apply G; [intros x H; exact H|]. intros r v [=].
Qed.
Lemma taken_apart : forall stages known i s, streams_apart stages -> nth_error stages i = Some s ->
  forall l, incl l (or_empty (ms_streams s)) -> forall d, map_right stages d ->
  fst (taken known i l d) = false /\ map_right stages (snd (taken known i l d)).
Proof.
  intros stages known i s A E. induction l as [|r l IH]; intros I d M; [split; [reflexivity|exact M]|]. cbn [taken].
  assert (N : names_stream s r) by (apply I; now left).
  assert (IH' : forall d, map_right stages d -> fst (taken known i l d) = false /\ map_right stages (snd (taken known i l d)))
    by (apply IH; intros x H; apply I; now right).
  destruct (negb (mem r known) || _); [|now apply IH'].
  pose proof (set_default_right stages d r i s M E N) as M'. unfold set_default in *.
  destruct (dict_get String.eqb r d) as [v|] eqn:F.
  - destruct (M r v F) as (t & T & K). assert (i = v) by exact (A i v s t r E T N K). subst v. rewrite Nat.eqb_refl. now apply IH'.
  - rewrite Nat.eqb_refl. now apply IH'.
Qed.
Lemma plan_all : forall stages streams, streams_apart stages -> planned_stages streams stages = map (plan streams) (enumerate stages).
Proof.
  intros stages streams A. unfold planned_stages.
  assert (G : forall l, incl l (enumerate stages) -> forall d, map_right stages d -> plan_stages streams l d = map (plan streams) l).
  { induction l as [|[i s] l IH]; intros I d M; [reflexivity|]. cbn [plan_stages map].
    assert (E : nth_error stages i = Some s) by (apply enumerate_In, I; now left).
    destruct (taken_apart stages (map stream_name streams) i s A E (or_empty (ms_streams s)) (fun x H => H) d M) as (F & M').
    destruct (taken _ i _ d) as [b d']. cbn [fst snd] in F, M'. subst b. unfold plan at 1. cbn [fst snd]. f_equal. apply IH; [|exact M'].
    intros x H. apply I. now right. }
  apply G; [intros x H; exact H|apply map_starts_right].
Qed.

(** ** Which stages are left out *)

Fixpoint first_naming (r : string) (stages : list multi_stage) : option nat :=
  match stages with
  | [] => None
  | s :: rest => if mem r (or_empty (ms_streams s)) then Some 0%nat else option_map S (first_naming r rest)
  end.
Lemma first_app : forall r l s, first_naming r (l ++ [s]) =
  match first_naming r l with Some v => Some v | None => if mem r (or_empty (ms_streams s)) then Some (length l) else None end.
Proof.
  induction l as [|t l IH]; intros s; cbn.
  - destruct (mem r _); reflexivity.
  - destruct (mem r (or_empty (ms_streams t))); [reflexivity|]. rewrite IH. destruct (first_naming r l); [reflexivity|]. cbn. now destruct (mem r _).
Qed.
Lemma first_is : forall r stages v, first_naming r stages = Some v <->
  (exists s, nth_error stages v = Some s /\ names_stream s r) /\ forall j t, (j < v)%nat -> nth_error stages j = Some t -> ~ names_stream t r.
Proof.
  induction stages as [|s stages IH]; intros v.
  - cbn. split; [discriminate|]. intros ((s & E & _) & _). destruct v; discriminate.
  - cbn [first_naming]. destruct (mem r (or_empty (ms_streams s))) eqn:M.
    + apply mem_In in M. split.
      * intros [= <-]. split; [exists s; auto|]. intros j t H. lia.
      * intros ((t & E & N) & F). destruct v as [|v]; [reflexivity|]. exfalso. apply (F 0%nat s); [lia|reflexivity|exact M].
    + apply mem_not in M. split.
      * destruct (first_naming r stages) as [w|] eqn:W; [|discriminate]. cbn. intros [= <-]. destruct (proj1 (IH w) eq_refl) as (H & K). split; [exact H|].
        intros j t L E. destruct j as [|j]; [injection E as <-; exact M|]. apply (K j); [lia|exact E].
      * intros ((t & E & N) & F). destruct v as [|v]; [injection E as <-; contradiction|]. cbn in E.
        assert (W : first_naming r stages = Some v).
        { apply IH. split; [eauto|]. intros j u L E'. apply (F (S j)); [lia|exact E']. }
        now rewrite W.
Qed.
Lemma note_get : forall known d i s r, mem r known = true ->
  dict_get String.eqb r (note_streams known d (i, s)) =
  match dict_get String.eqb r d with Some v => Some v | None => if mem r (or_empty (ms_streams s)) then Some i else None end.
Proof.
  intros known d i s r K. unfold note_streams. cbn [fst snd]. generalize (or_empty (ms_streams s)). intro l. revert d.
  induction l as [|q l IH]; intros d; cbn [fold_left].
  - cbn. destruct (dict_get String.eqb r d); reflexivity.
  - rewrite IH. clear IH. change (mem r (q :: l)) with (String.eqb r q || mem r l).
    destruct (String.eqb_spec r q) as [->|D].
    + cbn [orb]. rewrite K. unfold set_default. destruct (dict_get String.eqb q d) eqn:F; cbn [snd]; [now rewrite F|].
      rewrite dict_get_set by apply eqb_iff. now rewrite String.eqb_refl.
    + cbn [orb]. destruct (mem q known); [|reflexivity]. unfold set_default. destruct (dict_get String.eqb q d) eqn:F; cbn [snd]; [reflexivity|].
      rewrite dict_get_set by apply eqb_iff. destruct (String.eqb_spec r q); [contradiction|reflexivity].
Qed.
Lemma map_is_first : forall known stages r, mem r known = true -> dict_get String.eqb r (stream_to_stage_map known stages) = first_naming r stages.
Proof.
  intros known stages r K. unfold stream_to_stage_map, enumerate.
  assert (G : forall l pre d, dict_get String.eqb r d = first_naming r pre ->
     dict_get String.eqb r (fold_left (note_streams known) (combine (seq (length pre) (length l)) l) d) = first_naming r (pre ++ l)).
  { induction l as [|s l IH]; intros pre d H; cbn [length seq combine fold_left].
    - now rewrite app_nil_r.
    - replace (pre ++ s :: l) with ((pre ++ [s]) ++ l) by now rewrite <- app_assoc.
      replace (S (length pre)) with (length (pre ++ [s])) by (rewrite app_length; cbn; lia). apply IH.
      rewrite (note_get known d (length pre) s r K), H, first_app. reflexivity. }
  apply (G stages [] []). reflexivity.
Qed.
Lemma taken_known : forall known d i l, (forall r, In r l -> mem r known = true /\ dict_get String.eqb r d <> None) ->
  snd (taken known i l d) = d /\ (fst (taken known i l d) = false <-> forall r, In r l -> dict_get String.eqb r d = Some i).
Proof.
  intros known d i. induction l as [|r l IH]; intros H.
  - cbn. split; [reflexivity|]. split; [intros _ ? []|reflexivity].
  - destruct (H r (or_introl eq_refl)) as (K & D). destruct IH as (A & B); [intros q Q; apply H; now right|]. cbn [taken].
    unfold set_default. destruct (dict_get String.eqb r d) as [v|] eqn:F; [|contradiction]. rewrite orb_true_r.
    destruct (Nat.eqb_spec v i) as [->|N].
    + split; [exact A|]. rewrite B. split.
      * intros G q [<-|Q]; [exact F|now apply G].
      * intros G q Q. apply G. now right.
    + cbn [fst snd]. split; [reflexivity|]. split; [discriminate|]. intros G. specialize (G r (or_introl eq_refl)). congruence.
Qed.

Definition is_first (stages : list multi_stage) (x : nat * multi_stage) : bool :=
  forallb (fun r => match first_naming r stages with Some v => Nat.eqb v (fst x) | None => false end) (or_empty (ms_streams (snd x))).
Lemma plan_known : forall streams stages,
  (forall s r, In s stages -> names_stream s r -> In r (map stream_name streams)) ->
  planned_stages streams stages = map (plan streams) (filter (is_first stages) (enumerate stages)).
Proof.
  intros streams stages K. unfold planned_stages. set (known := map stream_name streams) in *. set (d := stream_to_stage_map known stages).
  assert (G : forall l, incl l (enumerate stages) -> plan_stages streams l d = map (plan streams) (filter (is_first stages) l)).
  { induction l as [|[i s] l IH]; intros I; [reflexivity|]. cbn [plan_stages filter].
    assert (E : nth_error stages i = Some s) by (apply enumerate_In, I; now left).
    assert (P : forall r, In r (or_empty (ms_streams s)) -> mem r known = true /\ dict_get String.eqb r d <> None).
    { intros r R. assert (M : mem r known = true) by (apply mem_In, (K s r); [eapply nth_error_In; exact E|exact R]). split; [exact M|].
      unfold d. rewrite (map_is_first known stages r M). intros F.
      assert (Z : forall l k t, first_naming r l = None -> nth_error l k = Some t -> ~ names_stream t r).
      { induction l0 as [|u l0 IHl]; intros k t Y T; [destruct k; discriminate|]. cbn in Y. destruct (mem r (or_empty (ms_streams u))) eqn:Q; [discriminate|].
        destruct k as [|k]; [injection T as <-; apply mem_not in Q; exact Q|]. destruct (first_naming r l0); [discriminate|]. eapply IHl; eauto. }
      exact (Z stages i s F E R). }
    destruct (taken_known known d i _ P) as (A & B). fold known. destruct (taken known i (or_empty (ms_streams s)) d) as [b d'] eqn:T.
    cbn [fst snd] in A, B. subst d'.
    assert (Q : is_first stages (i, s) = negb b).
    { unfold is_first. cbn [fst snd]. destruct b; cbn [negb].
      - destruct (forallb _ _) eqn:Y; [|reflexivity]. assert (X : true = false); [apply B|discriminate X]. rewrite forallb_forall in Y. intros r R. specialize (Y r R).
        destruct (P r R) as (M & _). unfold d. rewrite (map_is_first known stages r M). destruct (first_naming r stages) as [v|]; [|discriminate].
        apply Nat.eqb_eq in Y. now subst.
      - apply forallb_forall. intros r R. destruct (P r R) as (M & _). pose proof (proj1 B eq_refl r R) as X. unfold d in X.
        rewrite (map_is_first known stages r M) in X. rewrite X. apply Nat.eqb_refl. }
    rewrite Q. destruct b; cbn [negb map].
    - apply IH. intros x H. apply I. now right.
    - unfold plan at 1. cbn [fst snd]. f_equal. apply IH. intros x H. apply I. now right. }
  apply G. intros x H. exact H.
Qed.
Lemma is_first_iff : forall stages i s, nth_error stages i = Some s -> (is_first stages (i, s) = true <-> first_to_name stages i s).
Proof.
  intros stages i s E. unfold is_first, first_to_name. cbn [fst snd]. rewrite forallb_forall. split.
  - intros H r j t N L T. specialize (H r N). destruct (first_naming r stages) as [v|] eqn:F; [|discriminate]. apply Nat.eqb_eq in H. subst v.
    apply first_is in F as (_ & F). exact (F j t L T).
  - intros H r R. assert (F : first_naming r stages = Some i).
    { apply first_is. split; [eauto|]. intros j t L T. exact (H r j t R L T). }
    rewrite F. apply Nat.eqb_refl.
Qed.

(** ** Ports *)

Lemma count_right : forall is streams s, NoDup (map stream_name streams) -> NoDup (listed (ms_streams s)) ->
  how_many (fun x => In x streams /\ is x = true /\ names_stream s (stream_name x)) (count_ports is streams s).
Proof.
  intros is streams s N D. unfold count_ports. eexists. split; [|split; [|reflexivity]].
  - apply NoDup_flat_map; [exact D| |].
    + intros r _. apply NoDup_filter. eapply NoDup_map_inv. exact N.
    + intros r q z _ _ A B. apply filter_In in A as (_ & A). apply filter_In in B as (_ & B).
      apply andb_true_iff in A as (A & _). apply andb_true_iff in B as (B & _). apply String.eqb_eq in A, B. congruence.
  - intro x. rewrite in_flat_map. split.
    + intros (r & R & H). apply filter_In in H as (H & K). apply andb_true_iff in K as (K & K'). apply String.eqb_eq in K. subst r. auto.
    + intros (H & K & R). exists (stream_name x). split; [exact R|]. apply filter_In. rewrite String.eqb_refl. auto.
Qed.
Lemma how_many_ext : forall A (P Q : A -> Prop) n, (forall x, P x <-> Q x) -> how_many P n -> how_many Q n.
Proof. intros A P Q n E (l & N & H & L). exists l. split; [exact N|]. split; [|exact L]. intro x. rewrite H. apply E. Qed.
Lemma plan_ports : forall streams stages i s, streams_distinct streams stages -> nth_error stages i = Some s -> ports_right streams i s (plan streams (i, s)).
Proof.
  intros streams stages i s (N & D) E. assert (D' := D s (nth_error_In _ _ E)).
  split; [reflexivity|]. unfold plan. cbn [ps_splitter ps_mixer fst snd]. split.
  - eapply how_many_ext; [|exact (count_right is_outgoing streams s N D')]. intro x. cbn beta. destruct x as [m f|m]; cbn.
    + split; [intros (_ & X & _); discriminate|intros (_ & n & X & _); discriminate].
    + split; [intros (A & _ & B); eauto|intros (A & n & [= <-] & B); auto].
  - exists (count_ports is_ingoing streams s). split; [|reflexivity].
    eapply how_many_ext; [|exact (count_right is_ingoing streams s N D')]. intro x. cbn beta. destruct x as [m f|m]; cbn.
    + split; [intros (A & _ & B); eauto|intros (A & n & g & [= <- <-] & B); auto].
    + split; [intros (_ & X & _); discriminate|intros (_ & n & g & X & _); discriminate].
Qed.

Lemma nth_error_enumerate : forall A (l : list A) i x, nth_error l i = Some x -> nth_error (enumerate l) i = Some (i, x).
Proof.
  intros A l. unfold enumerate.
  assert (G : forall n i x, nth_error l i = Some x -> nth_error (combine (seq n (length l)) l) i = Some ((n + i)%nat, x)).
  { induction l as [|a l IH]; intros n i x E; [destruct i; discriminate|]. destruct i as [|i]; cbn in *.
    - injection E as ->. now rewrite Nat.add_0_r.
    - rewrite (IH (S n) i x E). replace (n + S i)%nat with (S n + i)%nat by lia. reflexivity. }
  intros i x E. apply (G 0%nat i x E).
Qed.
Lemma all_stages_proof : forall streams stages, streams_apart stages -> streams_distinct streams stages ->
  List.length (planned_stages streams stages) = List.length stages /\
  forall i s, nth_error stages i = Some s -> exists p, nth_error (planned_stages streams stages) i = Some p /\ ports_right streams i s p.
Proof.
  intros streams stages A D. rewrite (plan_all stages streams A). split.
  - unfold enumerate. rewrite map_length, combine_length, seq_length. apply Nat.min_id.
  - intros i s E. exists (plan streams (i, s)). split; [|eapply plan_ports; eassumption].
    rewrite nth_error_map, (nth_error_enumerate _ _ _ _ E). reflexivity.
Qed.
Lemma Forall2_map_same : forall A B C (R : B -> C -> Prop) (f : A -> B) (g : A -> C) l, (forall x, In x l -> R (f x) (g x)) -> Forall2 R (map f l) (map g l).
Proof. induction l as [|a l IH]; intros H; cbn; constructor; [apply H; now left|apply IH; intros x X; apply H; now right]. Qed.
Lemma sorted_filter : forall A (f : nat * A -> bool) l n, StronglySorted lt (map fst (filter f (combine (seq n (length l)) l))) /\
  forall i, In i (map fst (filter f (combine (seq n (length l)) l))) -> (n <= i)%nat.
Proof.
  intros A f. induction l as [|a l IH]; intros n; cbn [length seq combine filter map].
  - split; [constructor|intros i []].
  - destruct (IH (S n)) as (P & Q). assert (Q' : forall i, In i (map fst (filter f (combine (seq (S n) (length l)) l))) -> (n < i)%nat) by (intros i H; apply Q in H; lia).
    destruct (f (n, a)); cbn [map fst].
    + split; [constructor; [exact P|]; apply Forall_forall; exact Q'|]. intros i [<-|H]; [lia|]. apply Q' in H. lia.
    + split; [exact P|]. intros i H. apply Q' in H. lia.
Qed.
Lemma kept_stages_proof : forall streams stages, streams_distinct streams stages ->
  (forall s r, In s stages -> names_stream s r -> exists x, In x streams /\ stream_name x = r) ->
  exists kept, StronglySorted lt kept /\
    (forall i, In i kept <-> exists s, nth_error stages i = Some s /\ first_to_name stages i s) /\
    Forall2 (fun i p => exists s, nth_error stages i = Some s /\ ports_right streams i s p) kept (planned_stages streams stages).
Proof.
  intros streams stages D K. exists (map fst (filter (is_first stages) (enumerate stages))). split; [|split].
  - apply (sorted_filter _ (is_first stages) stages 0).
  - intro i. rewrite in_map_iff. split.
    + intros ([j s] & <- & H). apply filter_In in H as (H & F). apply enumerate_In in H. exists s. split; [exact H|]. now apply is_first_iff.
    + intros (s & E & F). exists (i, s). split; [reflexivity|]. apply filter_In. split; [now apply enumerate_In|]. now apply is_first_iff.
  - rewrite plan_known.
    + apply Forall2_map_same. intros [i s] H. apply filter_In in H as (H & _). apply enumerate_In in H. exists s. split; [exact H|]. eapply plan_ports; eassumption.
    + intros s r S N. destruct (K s r S N) as (x & X & <-). now apply in_map.
Qed.

(** The fluid service with caches against the calculations without. *)
From Coq Require Import List Bool ZArith Lia PeanoNat Qround.
From Verif Require Import QcTac Num Base BaseLemmas Search_Model Stream_Model Stream_Proofs Cache_Model Cache_Proofs Flash_Model Flash_Spec.
Import ListNotations.
Local Open Scope list_scope.
Local Open Scope Qc_scope.

(** ** Keys *)
Lemma qlist_eqb_spec : forall a b, qlist_eqb a b = true <-> a = b.
Proof.
  induction a as [|x a IH]; intros [|y b]; cbn; try (split; [discriminate|discriminate]); [tauto|].
  rewrite andb_true_iff, IH, Qceqb_eq. split; [intros [-> ->]; reflexivity|]. intros H. injection H as -> ->. auto.
Qed.
Lemma ref_key_eqb_spec : forall a b, ref_key_eqb a b = true <-> a = b.
Proof.
  intros [c e] [c' e']. unfold ref_key_eqb. cbn [fst snd]. rewrite andb_true_iff, qlist_eqb_spec, eos_eqb_spec.
  split; [intros [-> ->]; reflexivity|]. intros H. injection H as -> ->. auto.
Qed.
Lemma flash_key_eqb_spec : forall a b, flash_key_eqb a b = true <-> a = b.
Proof.
  intros [c e p t|c e p t] [c' e' p' t'|c' e' p' t']; cbn; try (split; discriminate);
    rewrite !andb_true_iff, qlist_eqb_spec, eos_eqb_spec, !Qceqb_eq;
    (split; [intros [[[-> ->] ->] ->]; reflexivity|intros H; injection H as -> -> -> ->; auto]).
Qed.

(** ** What cache calls do to the entries, for any size *)
Section CacheFacts.
Context {K V : Type}.
Variable eqb : K -> K -> bool.
Hypothesis eqb_spec : forall a b, eqb a b = true <-> a = b.

Lemma get_fact : forall k (s : @lru K V), exists s' o, call eqb (Get k) s = (s', Ok (OValue o)) /\
  (forall p, In p (entries s') -> In p (entries s)) /\ (forall v, o = Some v -> In (k, v) (entries s)) /\ max_size s' = max_size s.
Proof.
  intros k s. rewrite (call_get eqb eqb_spec). destruct (dict_get eqb k (entries s)) as [v|] eqn:E.
  - pose proof (get_In eqb eqb_spec _ _ _ E) as Hin. do 2 eexists. split; [reflexivity|]. split; [|split; [|reflexivity]].
    + cbn [entries]. intros p Hp. apply in_app_or in Hp as [Hp|[<-|[]]]; [apply filter_In in Hp; apply Hp|assumption].
    + intros v' [= <-]. assumption.
  - do 2 eexists. split; [reflexivity|]. split; [|split; [|reflexivity]]; [cbn; auto|discriminate].
Qed.

Lemma evict_fact : forall n (s : @lru K V), (0 <= max_size s)%Z -> (length (entries s) < n)%nat ->
  exists s', exec (evict_prog n) s = (s', Ok ONothing) /\ (forall p, In p (entries s') -> In p (entries s)) /\ max_size s' = max_size s.
Proof.
  induction n as [|n IH]; intros s Hm Hn; [lia|]. cbn [evict_prog exec].
  destruct (Z.ltb_spec (max_size s) (Z.of_nat (length (entries s)))) as [H|H].
  - destruct (entries s) as [|e l] eqn:El; [cbn in H; lia|]. cbn [exec].
    destruct (IH (count_eviction (set_entries (tl (entries s)) s))) as [s' [H1 [H2 H3]]].
    + exact Hm.
    + cbn. rewrite El. cbn in *. lia.
    + exists s'. split; [exact H1|]. split; [|exact H3]. intros p Hp. apply H2 in Hp. cbn in Hp. rewrite El in Hp. right. exact Hp.
  - exists s. cbn. auto.
Qed.
Lemma set_entries_in : forall (l : list (K * V)) k v p, In p (dict_set eqb k v l) -> In p l \/ p = (k, v).
Proof.
  induction l as [|[x w] l IH]; intros k v p H; cbn in *.
  - destruct H as [H|[]]. right; congruence.
  - destruct (eqb k x) eqn:E; cbn in H.
    + apply eqb_spec in E. subst. destruct H as [H|H]; auto.
    + destruct H as [H|H]; [auto|]. apply IH in H. tauto.
Qed.
Lemma set_entries_length : forall (l : list (K * V)) k v, (length (dict_set eqb k v l) <= S (length l))%nat.
Proof. induction l as [|[x w] l IH]; intros k v; cbn; [lia|]. destruct (eqb k x); cbn; [lia|]. specialize (IH k v). lia. Qed.
Lemma put_fact : forall k v (s : @lru K V), (0 <= max_size s)%Z -> exists s', call eqb (Put k v) s = (s', Ok ONothing) /\
  (forall p, In p (entries s') -> In p (entries s) \/ p = (k, v)) /\ max_size s' = max_size s.
Proof.
  intros k v s Hm. unfold call, prog_of, put_prog. cbn [exec]. destruct (Z.eqb_spec (max_size s) 0) as [E0|_].
  - exists s. cbn. auto.
  - cbn [exec].
    assert (Hrest : forall s0 : @lru K V, max_size s0 = max_size s -> (forall p, In p (entries s0) -> In p (entries s)) ->
      exists s', exec (Prim (store eqb k v) (fun s => evict_prog (S (S (length (entries s)))))) s0 = (s', Ok ONothing) /\
       (forall p, In p (entries s') -> In p (entries s) \/ p = (k, v)) /\ max_size s' = max_size s).
    { intros s0 Hs0 Hin. cbn [exec]. destruct (evict_fact (S (S (length (entries s0)))) (store eqb k v s0)) as [s' [H1 [H2 H3]]].
      - cbn. lia.
      - cbn. pose proof (set_entries_length (entries s0) k v). lia.
      - exists s'. split; [exact H1|]. split; [|cbn in H3; congruence]. intros p Hp. apply H2 in Hp. cbn in Hp. apply set_entries_in in Hp as [Hp|Hp]; auto. }
    destruct (has eqb k s); [|apply Hrest; auto]. cbn [exec]. apply Hrest.
    + unfold move_to_end. destruct (dict_get eqb k (entries s)); reflexivity.
    + unfold move_to_end. destruct (dict_get eqb k (entries s)) as [w|] eqn:E; auto. cbn. intros p Hp. apply in_app_or in Hp as [Hp|[<-|[]]].
      * apply filter_In in Hp. apply Hp.
      * apply (get_In eqb eqb_spec). assumption.
Qed.
End CacheFacts.

Section Service.
Context {Sys : Type}.
Variable E : @engine Sys.
Variable asked : list request.

Definition ref_ok (k : ref_key) (s : Sys) : Prop :=
  exists m c, used_model E asked m /\ normalized (fm_composition m) = Return c /\ k = (map eight_decimals c, fm_eos m) /\ e_create E c (fm_eos m) = Return s.
Definition request_key (r : request) : option flash_key :=
  match r with
  | FlashPT m p t => match normalized (fm_composition m) with
                     | Return c => Some (KPT (map eight_decimals c) (fm_eos m) (six_decimals p) (six_decimals t)) | Raise _ => None end
  | FlashPH m p h _ => match normalized (fm_composition m) with
                     | Return c => Some (KPH (map eight_decimals c) (fm_eos m) (six_decimals p) (six_decimals h)) | Raise _ => None end
  | _ => None
  end.
Definition flash_ok (k : flash_key) (p : properties) : Prop :=
  exists r, In r asked /\ request_key r = Some k /\ fresh_answer E asked r (Return (AProperties p)).
Definition right (r : request) (x : outcome answer) : Prop :=
  exists r', In r' asked /\ (r' = r \/ same_flash r' r) /\ fresh_answer E asked r' x.

Lemma same_key_flash : forall r r' k, request_key r = Some k -> request_key r' = Some k -> same_flash r r'.
Proof.
  intros r r' k H H'. unfold request_key in *.
  destruct r as [m p t|m p t g|f|m|]; try discriminate; destruct r' as [m' p' t'|m' p' t' g'|f'|m'|]; try discriminate;
    destruct (normalized (fm_composition m)) as [c|] eqn:Ec; try discriminate; destruct (normalized (fm_composition m')) as [c'|] eqn:Ec'; try discriminate;
    injection H as <-; try discriminate H'; cbn [same_flash];
    (split; [split; [congruence|]; exists c, c'; split; [assumption|split; [assumption|congruence]]|split; congruence]).
Qed.

(** What a call may do, whatever the caches answer. *)
Fixpoint ok (r : request) (a : @act Sys) : Prop :=
  match a with
  | Done x => right r x
  | RefGet k cont => forall o, (forall s, o = Some s -> ref_ok k s) -> ok r (cont o)
  | RefPut k s cont => ref_ok k s /\ ok r cont
  | FlashGet k cont => forall o, (forall p, o = Some p -> flash_ok k p) -> ok r (cont o)
  | FlashPut k p cont => flash_ok k p /\ ok r cont
  | RefClear cont | FlashClear cont => ok r cont
  end.

Lemma ok_attempt : forall A r (o : outcome A) k, (forall a, o = Return a -> ok r (k a)) -> (forall e, o = Raise e -> right r (Raise e)) -> ok r (attempt o k).
Proof. intros A r [a|e] k H1 H2; cbn; auto. Qed.

Lemma ok_reference : forall r m k, used_model E asked m ->
  (forall m' s, stands_for E asked m' m -> fresh_reference E m' = Return s -> ok r (k s)) ->
  (forall e, fresh_reference E m = Raise e -> right r (Raise e)) ->
  ok r (get_reference_fluid E m k).
Proof.
  intros r m k Hm Hk He. unfold get_reference_fluid. apply ok_attempt.
  - intros c Hc. cbn [ok]. intros [s|] Ho.
    + destruct (Ho s eq_refl) as [m' [c' [H1 [H2 [H3 H4]]]]]. apply (Hk m').
      * right. split; [assumption|]. injection H3 as E1 E2. split; [congruence|]. exists c', c. auto.
      * unfold fresh_reference. rewrite H2. exact H4.
    + apply ok_attempt.
      * intros s Hs. cbn [ok]. split; [exists m, c; auto|]. apply (Hk m); [left; reflexivity|]. unfold fresh_reference. rewrite Hc. exact Hs.
      * intros e Hs. apply He. unfold fresh_reference. rewrite Hc. exact Hs.
  - intros e Hc. apply He. unfold fresh_reference. rewrite Hc. reflexivity.
Qed.

Lemma ok_density : forall r m k, used_model E asked m ->
  (forall m' d, stands_for E asked m' m -> fresh_density E m' = Return d -> ok r (k d)) ->
  (forall m' e, stands_for E asked m' m -> fresh_density E m' = Raise e -> right r (Raise e)) ->
  ok r (get_standard_density E m k).
Proof.
  intros r m k Hm Hk He. unfold get_standard_density. apply ok_reference; [assumption| |].
  - intros m' ref Hm' Hr. destruct (Qcleb pure_vapor_threshold (e_vapor_fraction E ref)) eqn:Ev.
    + apply (Hk m'); [assumption|]. unfold fresh_density. rewrite Hr. cbn [obind]. rewrite Ev. reflexivity.
    + apply ok_attempt.
      * intros gas Hg. apply (Hk m'); [assumption|]. unfold fresh_density. rewrite Hr. cbn [obind]. rewrite Ev, Hg. reflexivity.
      * intros e Hg. apply (He m'); [assumption|]. unfold fresh_density. rewrite Hr. cbn [obind]. rewrite Ev, Hg. reflexivity.
  - intros e Hr. apply (He m); [left; reflexivity|]. unfold fresh_density. rewrite Hr. reflexivity.
Qed.

Lemma ok_extract : forall r s m k, used_model E asked m ->
  (forall md p, stands_for E asked md m -> fresh_properties E md m s = Return p -> ok r (k p)) ->
  (forall md e, stands_for E asked md m -> fresh_properties E md m s = Raise e -> right r (Raise e)) ->
  ok r (extract_properties E s m k).
Proof.
  intros r s m k Hm Hk He. unfold extract_properties. apply ok_attempt.
  - intros mm Hmm. apply ok_density; [assumption| |].
    + intros md d Hmd Hd. apply (Hk md); [assumption|]. unfold fresh_properties. rewrite Hmm. cbn [obind]. rewrite Hd. reflexivity.
    + intros md e Hmd Hd. apply (He md); [assumption|]. unfold fresh_properties. rewrite Hmm. cbn [obind]. rewrite Hd. reflexivity.
  - intros e Hmm. apply (He m); [left; reflexivity|]. unfold fresh_properties. rewrite Hmm. reflexivity.
Qed.

Lemma right_self : forall r x, In r asked -> fresh_answer E asked r x -> right r x.
Proof. intros r x H1 H2. exists r. auto. Qed.
Lemma used_self : forall r m, In r asked -> request_model r = Some m -> used_model E asked m.
Proof. intros r m H1 H2. left. exists r. auto. Qed.
Lemma cached_right : forall r k p, request_key r = Some k -> flash_ok k p -> right r (Return (AProperties p)).
Proof. intros r k p Hk [r' [H1 [H2 H3]]]. exists r'. split; [assumption|]. split; [right; eapply same_key_flash; eassumption|assumption]. Qed.

(** Fresh answers of the flashes, from their parts. *)
Lemma fresh_pt : forall m p t mr md, In (FlashPT m p t) asked -> stands_for E asked mr m -> stands_for E asked md m ->
  fresh_answer E asked (FlashPT m p t) (fresh_with E mr md (FlashPT m p t)).
Proof. intros m p t mr md Hin H1 H2. exists mr, md. split; [reflexivity|]. cbn [request_model]. split; intros m0 [= <-]; assumption. Qed.
Lemma fresh_ph : forall m p h g mr md, In (FlashPH m p h g) asked -> stands_for E asked mr m -> stands_for E asked md m ->
  fresh_answer E asked (FlashPH m p h g) (fresh_with E mr md (FlashPH m p h g)).
Proof. intros m p h g mr md Hin H1 H2. exists mr, md. split; [reflexivity|]. cbn [request_model]. split; intros m0 [= <-]; assumption. Qed.
Lemma stands_refl : forall m, stands_for E asked m m.
Proof. intros m. left. reflexivity. Qed.

Lemma ok_pt : forall m p t, In (FlashPT m p t) asked -> ok (FlashPT m p t) (flash_pt_act E m p t).
Proof.
  intros m p t Hin. pose proof (used_self _ m Hin eq_refl) as Hu. unfold flash_pt_act.
  assert (Hraise : forall mr md e, stands_for E asked mr m -> stands_for E asked md m -> fresh_with E mr md (FlashPT m p t) = Raise e -> right (FlashPT m p t) (Raise e)).
  { intros mr md e H1 H2 H. apply right_self; [assumption|]. rewrite <- H. apply fresh_pt; assumption. }
  apply ok_attempt.
  - intros c Hc. cbn [ok].
    assert (Hkey : request_key (FlashPT m p t) = Some (KPT (map eight_decimals c) (fm_eos m) (six_decimals p) (six_decimals t))) by (cbn; rewrite Hc; reflexivity).
    intros [v|] Ho.
    + cbn [ok]. eapply cached_right; [exact Hkey|]. apply Ho. reflexivity.
    + apply ok_reference; [assumption| |].
      * intros mr ref Hmr Href. apply ok_attempt.
        -- intros s Hs. apply ok_extract; [assumption| |].
           ++ intros md props Hmd Hp. cbn [ok].
              assert (Hf : fresh_answer E asked (FlashPT m p t) (Return (AProperties props))).
              { replace (Return (AProperties props)) with (fresh_with E mr md (FlashPT m p t)); [apply fresh_pt; assumption|].
                cbn [fresh_with]. rewrite Href. cbn [obind]. rewrite Hs. cbn [obind]. rewrite Hp. reflexivity. }
              split; [exists (FlashPT m p t); auto|]. apply right_self; assumption.
           ++ intros md e Hmd Hp. apply (Hraise mr md); [assumption|assumption|]. cbn [fresh_with]. rewrite Href. cbn [obind]. rewrite Hs. cbn [obind]. rewrite Hp. reflexivity.
        -- intros e Hs. apply (Hraise mr m); [assumption|apply stands_refl|]. cbn [fresh_with]. rewrite Href. cbn [obind]. rewrite Hs. reflexivity.
      * intros e Href. apply (Hraise m m); [apply stands_refl|apply stands_refl|]. cbn [fresh_with]. rewrite Href. reflexivity.
  - intros e Hc. apply (Hraise m m); [apply stands_refl|apply stands_refl|]. cbn [fresh_with]. unfold fresh_reference. rewrite Hc. reflexivity.
Qed.

Lemma ok_ph : forall m p h g, In (FlashPH m p h g) asked -> ok (FlashPH m p h g) (flash_ph_act E m p h g).
Proof.
  intros m p h g Hin. pose proof (used_self _ m Hin eq_refl) as Hu. unfold flash_ph_act.
  assert (Hraise : forall mr md e, stands_for E asked mr m -> stands_for E asked md m -> fresh_with E mr md (FlashPH m p h g) = Raise e -> right (FlashPH m p h g) (Raise e)).
  { intros mr md e H1 H2 H. apply right_self; [assumption|]. rewrite <- H. apply fresh_ph; assumption. }
  apply ok_attempt.
  - intros c Hc. cbn [ok].
    assert (Hkey : request_key (FlashPH m p h g) = Some (KPH (map eight_decimals c) (fm_eos m) (six_decimals p) (six_decimals h))) by (cbn; rewrite Hc; reflexivity).
    intros [v|] Ho.
    + cbn [ok]. eapply cached_right; [exact Hkey|]. apply Ho. reflexivity.
    + apply ok_reference; [assumption| |].
      * intros mr ref Hmr Href.
        set (after := fun seeded : Sys => _).
        assert (Hafter : forall seeded, match g with Some t => e_pt E ref p t | None => Return ref end = Return seeded -> ok (FlashPH m p h g) (after seeded)).
        { intros seeded Hg. unfold after. apply ok_attempt.
          - intros s Hs. apply ok_extract; [assumption| |].
            + intros md props Hmd Hp. apply ok_attempt.
              * intros u Hv. cbn [ok].
                assert (Hf : fresh_answer E asked (FlashPH m p h g) (Return (AProperties props))).
                { replace (Return (AProperties props)) with (fresh_with E mr md (FlashPH m p h g)); [apply fresh_ph; assumption|].
                  cbn [fresh_with]. rewrite Href. cbn [obind]. rewrite Hg. cbn [obind]. rewrite Hs. cbn [obind]. rewrite Hp. cbn [obind]. rewrite Hv. reflexivity. }
                split; [exists (FlashPH m p h g); auto|]. apply right_self; assumption.
              * intros e Hv. apply (Hraise mr md); [assumption|assumption|].
                cbn [fresh_with]. rewrite Href. cbn [obind]. rewrite Hg. cbn [obind]. rewrite Hs. cbn [obind]. rewrite Hp. cbn [obind]. rewrite Hv. reflexivity.
            + intros md e Hmd Hp. apply (Hraise mr md); [assumption|assumption|].
              cbn [fresh_with]. rewrite Href. cbn [obind]. rewrite Hg. cbn [obind]. rewrite Hs. cbn [obind]. rewrite Hp. reflexivity.
          - intros e Hs. apply (Hraise mr m); [assumption|apply stands_refl|]. cbn [fresh_with]. rewrite Href. cbn [obind]. rewrite Hg. cbn [obind]. rewrite Hs. reflexivity. }
        destruct g as [t|].
        -- apply ok_attempt; [assumption|]. intros e He. apply (Hraise mr m); [assumption|apply stands_refl|]. cbn [fresh_with]. rewrite Href. cbn [obind]. rewrite He. reflexivity.
        -- apply Hafter. reflexivity.
      * intros e Href. apply (Hraise m m); [apply stands_refl|apply stands_refl|]. cbn [fresh_with]. rewrite Href. reflexivity.
  - intros e Hc. apply (Hraise m m); [apply stands_refl|apply stands_refl|]. cbn [fresh_with]. unfold fresh_reference. rewrite Hc. reflexivity.
Qed.

Lemma ok_liquid : forall f, In (RemoveLiquid f) asked -> ok (RemoveLiquid f) (remove_liquid_act E f).
Proof.
  intros f Hin. pose proof (used_self _ (f_model f) Hin eq_refl) as Hu. unfold remove_liquid_act.
  assert (Hgen : forall mr md x, stands_for E asked mr (f_model f) ->
    (forall gas c, fresh_gas E mr f = Return (gas, c) -> stands_for E asked md (mk_model (fm_eos (f_model f)) c)) ->
    fresh_with E mr md (RemoveLiquid f) = x -> right (RemoveLiquid f) x).
  { intros mr md x H1 H2 H. apply right_self; [assumption|]. exists mr, md. split; [symmetry; assumption|]. split; [|assumption]. cbn. intros m [= <-]. assumption. }
  destruct (Qcleb pure_vapor_threshold (p_vapor_fraction (f_properties f))) eqn:Ev.
  - cbn [ok]. apply right_self; [assumption|].
    destruct (fresh_gas E (f_model f) f) as [[gas c]|e] eqn:Eg.
    + exists (f_model f), (mk_model (fm_eos (f_model f)) c). cbn [fresh_with]. rewrite Ev. split; [reflexivity|]. split; [intros m [= <-]; apply stands_refl|].
      intros gas' c' H. rewrite Eg in H. injection H as <- <-. apply stands_refl.
    + exists (f_model f), (f_model f). cbn [fresh_with]. rewrite Ev. split; [reflexivity|]. split; [intros m [= <-]; apply stands_refl|].
      intros gas' c' H. congruence.
  - apply ok_reference; [assumption| |].
    + intros mr ref Hmr Href. apply ok_attempt.
      * intros s Hs. apply ok_attempt.
        -- intros gas Hgas. apply ok_attempt.
           ++ intros c Hc.
              assert (Efg : fresh_gas E mr f = Return (gas, c)) by (unfold fresh_gas; rewrite Href; cbn [obind]; rewrite Hs; cbn [obind]; rewrite Hgas; cbn [obind]; rewrite Hc; reflexivity).
              apply ok_extract.
              ** right. exists f, gas. auto.
              ** intros md props Hmd Hp. cbn [ok]. apply (Hgen mr md); [assumption| |].
                 --- intros gas' c' H. rewrite Efg in H. injection H as <- <-. assumption.
                 --- cbn [fresh_with]. rewrite Ev, Efg. cbn [obind snd fst]. rewrite Hp. reflexivity.
              ** intros md e Hmd Hp. apply (Hgen mr md); [assumption| |].
                 --- intros gas' c' H. rewrite Efg in H. injection H as <- <-. assumption.
                 --- cbn [fresh_with]. rewrite Ev, Efg. cbn [obind snd fst]. rewrite Hp. reflexivity.
           ++ intros e Hc.
              assert (Efg : fresh_gas E mr f = Raise e) by (unfold fresh_gas; rewrite Href; cbn [obind]; rewrite Hs; cbn [obind]; rewrite Hgas; cbn [obind]; rewrite Hc; reflexivity).
              apply (Hgen mr mr); [assumption|intros; congruence|]. cbn [fresh_with]. rewrite Ev, Efg. reflexivity.
        -- intros e Hgas.
           assert (Efg : fresh_gas E mr f = Raise e) by (unfold fresh_gas; rewrite Href; cbn [obind]; rewrite Hs; cbn [obind]; rewrite Hgas; reflexivity).
           apply (Hgen mr mr); [assumption|intros; congruence|]. cbn [fresh_with]. rewrite Ev, Efg. reflexivity.
      * intros e Hs.
        assert (Efg : fresh_gas E mr f = Raise e) by (unfold fresh_gas; rewrite Href; cbn [obind]; rewrite Hs; reflexivity).
        apply (Hgen mr mr); [assumption|intros; congruence|]. cbn [fresh_with]. rewrite Ev, Efg. reflexivity.
    + intros e Href.
      assert (Efg : fresh_gas E (f_model f) f = Raise e) by (unfold fresh_gas; rewrite Href; reflexivity).
      apply (Hgen (f_model f) (f_model f)); [apply stands_refl|intros; congruence|]. cbn [fresh_with]. rewrite Ev, Efg. reflexivity.
Qed.

Lemma ok_request : forall r, In r asked -> ok r (act_of E r).
Proof.
  intros r Hin. destruct r as [m p t|m p h g|f|m|]; cbn [act_of].
  - apply ok_pt; assumption.
  - apply ok_ph; assumption.
  - apply ok_liquid; assumption.
  - pose proof (used_self _ m Hin eq_refl) as Hu. apply ok_density; [assumption| |].
    + intros md d Hmd Hd. cbn [ok]. apply right_self; [assumption|]. exists m, md. cbn [fresh_with request_model]. rewrite Hd. split; [reflexivity|].
      split; intros m0 [= <-]; [apply stands_refl|assumption].
    + intros md e Hmd Hd. apply right_self; [assumption|]. exists m, md. cbn [fresh_with request_model]. rewrite Hd. split; [reflexivity|].
      split; intros m0 [= <-]; [apply stands_refl|assumption].
  - cbn [ok]. apply right_self; [assumption|].
    exists (mk_model SRK []), (mk_model SRK []). cbn. split; [reflexivity|]. split; intros; discriminate.
Qed.

(** ** The threads *)
Record sound (ref_size flash_size : Z) (s : @state Sys) : Prop := {
  sound_rsize : max_size (refs s) = ref_size;
  sound_fsize : max_size (flashes s) = flash_size;
  sound_refs : forall k v, In (k, v) (entries (refs s)) -> ref_ok k v;
  sound_flashes : forall k v, In (k, v) (entries (flashes s)) -> flash_ok k v;
  sound_workers : forall i w, nth_error (workers s) i = Some w ->
    (forall r, In r (w_todo w) -> In r asked) /\
    (forall r a, w_current w = Some (r, a) -> In r asked /\ ok r a) /\
    (forall r x, In (r, x) (w_answers w) -> right r x) }.

Lemma set_worker_at : forall i (w : @worker Sys) l, (i < length l)%nat ->
  forall j, nth_error (set_worker i w l) j = if Nat.eqb i j then Some w else nth_error l j.
Proof.
  intros i w l. unfold set_worker. revert i. induction l as [|x l IH]; intros i H; [cbn in H; lia|].
  destruct i as [|i]; [intros [|j]; reflexivity|]. cbn [length] in H. intros [|j]; [reflexivity|]. cbn [firstn skipn app nth_error Nat.eqb]. apply IH. lia.
Qed.

Lemma act_step_ok : forall rs fs a r r' f' a' rsz fsz, (0 <= rsz)%Z -> (0 <= fsz)%Z ->
  max_size rs = rsz -> max_size fs = fsz ->
  (forall k v, In (k, v) (entries rs) -> ref_ok k v) -> (forall k v, In (k, v) (entries fs) -> flash_ok k v) ->
  ok r a -> act_step a rs fs = (r', f', a') ->
  max_size r' = rsz /\ max_size f' = fsz /\ (forall k v, In (k, v) (entries r') -> ref_ok k v) /\ (forall k v, In (k, v) (entries f') -> flash_ok k v) /\ ok r a'.
Proof.
  intros rs fs a r r' f' a' rsz fsz Hrz Hfz Hr1 Hf1 Hr Hf Hok Hs. destruct a as [x|k cont|k v cont|k cont|k v cont|cont|cont]; cbn [act_step] in Hs.
  - injection Hs as <- <- <-. auto.
  - destruct (get_fact ref_key_eqb ref_key_eqb_spec k rs) as [s' [o [H1 [H2 [H3 H4]]]]]. rewrite H1 in Hs. injection Hs as <- <- <-.
    split; [congruence|]. split; [assumption|]. split; [auto|]. split; [assumption|]. cbn [ok] in Hok. apply Hok. intros s ->. apply Hr. apply H3. reflexivity.
  - rewrite <- Hr1 in Hrz. destruct (put_fact ref_key_eqb ref_key_eqb_spec k v rs Hrz) as [s' [H1 [H2 H3]]]. rewrite H1 in Hs. injection Hs as <- <- <-.
    cbn [ok] in Hok. destruct Hok as [Hp Hok]. split; [congruence|]. split; [assumption|]. split; [|split; assumption].
    intros k0 v0 Hin. apply H2 in Hin as [Hin|Hin]; [auto|]. injection Hin as -> ->. assumption.
  - destruct (get_fact flash_key_eqb flash_key_eqb_spec k fs) as [s' [o [H1 [H2 [H3 H4]]]]]. rewrite H1 in Hs. injection Hs as <- <- <-.
    split; [assumption|]. split; [congruence|]. split; [assumption|]. split; [auto|]. cbn [ok] in Hok. apply Hok. intros s ->. apply Hf. apply H3. reflexivity.
  - rewrite <- Hf1 in Hfz. destruct (put_fact flash_key_eqb flash_key_eqb_spec k v fs Hfz) as [s' [H1 [H2 H3]]]. rewrite H1 in Hs. injection Hs as <- <- <-.
    cbn [ok] in Hok. destruct Hok as [Hp Hok]. split; [assumption|]. split; [congruence|]. split; [assumption|]. split; [|assumption].
    intros k0 v0 Hin. apply H2 in Hin as [Hin|Hin]; [auto|]. injection Hin as -> ->. assumption.
  - cbn in Hs. injection Hs as <- <- <-. cbn in *. split; [assumption|]. split; [assumption|]. split; [intros k v []|]. auto.
  - cbn in Hs. injection Hs as <- <- <-. cbn in *. split; [assumption|]. split; [assumption|]. split; [assumption|]. split; [intros k v []|]. auto.
Qed.

Lemma sound_step : forall rsz fsz s s', (0 <= rsz)%Z -> (0 <= fsz)%Z -> sound rsz fsz s -> wstep E s s' -> sound rsz fsz s'.
Proof.
  intros rsz fsz s s' Hrz Hfz [S1 S2 S3 S4 S5] Hs. destruct Hs as [s i w r rest Hw Hc Ht|s i w r a r' f' a' Hw Hc Hnd Hstep|s i w r x Hw Hc];
    (assert (Hi : (i < length (workers s))%nat) by (apply nth_error_Some; congruence)); destruct (S5 i w Hw) as [W1 [W2 W3]].
  - constructor; cbn [refs flashes workers]; auto. intros j u Hu. rewrite set_worker_at in Hu by assumption.
    destruct (Nat.eqb i j); [|eapply S5; eassumption]. injection Hu as <-. cbn [w_todo w_current w_answers].
    assert (Hr : In r asked) by (apply W1; rewrite Ht; left; reflexivity).
    split; [intros r0 H0; apply W1; rewrite Ht; right; assumption|]. split; [|assumption].
    intros r0 a0 [= <- <-]. split; [assumption|]. apply ok_request. assumption.
  - destruct (W2 r a Hc) as [Hr Hok]. destruct (act_step_ok _ _ _ _ _ _ _ rsz fsz Hrz Hfz S1 S2 S3 S4 Hok Hstep) as [R1 [R2 [R3 [R4 R5]]]].
    constructor; cbn [refs flashes workers]; auto. intros j u Hu. rewrite set_worker_at in Hu by assumption.
    destruct (Nat.eqb i j); [|eapply S5; eassumption]. injection Hu as <-. cbn [w_todo w_current w_answers].
    split; [assumption|]. split; [|assumption]. intros r0 a0 [= <- <-]. auto.
  - constructor; cbn [refs flashes workers]; auto. intros j u Hu. rewrite set_worker_at in Hu by assumption.
    destruct (Nat.eqb i j); [|eapply S5; eassumption]. injection Hu as <-. cbn [w_todo w_current w_answers].
    destruct (W2 r _ Hc) as [Hr Hok]. cbn [ok] in Hok. split; [assumption|]. split; [intros; discriminate|].
    intros r0 x0 H0. apply in_app_or in H0 as [H0|[H0|[]]]; [auto|]. injection H0 as <- <-. assumption.
Qed.

Lemma sound_start : forall rsz fsz programs, (forall p r, In p programs -> In r p -> In r asked) -> sound rsz fsz (wstart rsz fsz programs).
Proof.
  intros rsz fsz programs H. constructor; cbn; [reflexivity|reflexivity|intros k v []|intros k v []|].
  intros i w Hw. rewrite nth_error_map in Hw. destruct (nth_error programs i) as [p|] eqn:Ep; [|discriminate]. cbn in Hw. injection Hw as <-. cbn.
  split; [intros r Hr; eapply H; [eapply nth_error_In; eassumption|assumption]|]. split; [discriminate|intros r x []].
Qed.
Lemma sound_steps : forall rsz fsz s s', (0 <= rsz)%Z -> (0 <= fsz)%Z -> wsteps E s s' -> sound rsz fsz s -> sound rsz fsz s'.
Proof. intros rsz fsz s s' Hr Hf Hs. induction Hs as [s|s s1 s2 Hs IH Hstep]; intros H0; [assumption|].
  eapply sound_step; [exact Hr|exact Hf|apply IH; assumption|eassumption].
Qed.
End Service.

(** ** Statements *)
Lemma cached_answers_proof : forall (Sys : Type) (E : @engine Sys) (ref_size flash_size : Z) (programs : list (list request)) (s : @state Sys) i w r x,
  (0 <= ref_size)%Z -> (0 <= flash_size)%Z -> wsteps E (wstart ref_size flash_size programs) s ->
  nth_error (workers s) i = Some w -> In (r, x) (w_answers w) ->
  exists r', In r' (concat programs) /\ (r' = r \/ same_flash r' r) /\ fresh_answer E (concat programs) r' x.
Proof.
  intros Sys E rsz fsz programs s i w r x Hr Hf Hs Hw Hx.
  assert (Hsound : sound E (concat programs) rsz fsz s).
  { eapply sound_steps; try eassumption. apply sound_start. intros p r0 Hp Hr0. apply in_concat. exists p. auto. }
  destruct (sound_workers _ _ _ _ _ Hsound i w Hw) as [_ [_ H3]]. exact (H3 r x Hx).
Qed.

Lemma plain_of_fresh : forall (Sys : Type) (E : @engine Sys) asked r x,
  (forall m m', used_model E asked m -> used_model E asked m' -> same_fluid m m' -> m = m') ->
  In r asked -> fresh_answer E asked r x -> x = plain_answer E r.
Proof.
  intros Sys E asked r x Hm Hin [mr [md [-> [Hmr Hmd]]]].
  assert (Hst : forall m m', used_model E asked m -> stands_for E asked m' m -> m' = m).
  { intros m m' Hu [->|[Hu' Hs]]; [reflexivity|]. apply Hm; assumption. }
  assert (Hu : forall m, request_model r = Some m -> used_model E asked m) by (intros m H; left; exists r; auto).
  destruct r as [m p t|m p h g|f|m|]; cbn [request_model] in *.
  - rewrite (Hst m mr (Hu m eq_refl) (Hmr m eq_refl)), (Hst m md (Hu m eq_refl) (Hmd m eq_refl)). reflexivity.
  - rewrite (Hst m mr (Hu m eq_refl) (Hmr m eq_refl)), (Hst m md (Hu m eq_refl) (Hmd m eq_refl)). reflexivity.
  - pose proof (Hst (f_model f) mr (Hu _ eq_refl) (Hmr _ eq_refl)) as ->. cbn [plain_answer].
    destruct (fresh_gas E (f_model f) f) as [[gas c]|e] eqn:Eg.
    + specialize (Hmd gas c eq_refl). rewrite (Hst _ md) with (2 := Hmd); [reflexivity|]. right. exists f, gas.
      assert (Hc : e_composition E gas = Return c).
      { unfold fresh_gas in Eg. destruct (fresh_reference E (f_model f)) as [ref|]; [|discriminate]. cbn [obind] in Eg.
        destruct (e_pt E ref _ _) as [s|]; [|discriminate]. cbn [obind] in Eg. destruct (e_gas_phase E s) as [gas'|]; [|discriminate]. cbn [obind] in Eg.
        destruct (e_composition E gas') as [c'|] eqn:Ec; [|discriminate]. cbn [obind] in Eg. injection Eg as <- <-. assumption. }
      auto.
    + cbn [fresh_with]. destruct (Qcleb _ _); [reflexivity|]. rewrite Eg. reflexivity.
  - cbn [plain_answer request_model fresh_with]. rewrite (Hst m md (Hu m eq_refl) (Hmd m eq_refl)). reflexivity.
  - reflexivity.
Qed.

Lemma transparent_proof : forall (Sys : Type) (E : @engine Sys) (ref_size flash_size : Z) (programs : list (list request)) (s : @state Sys) i w r x,
  (0 <= ref_size)%Z -> (0 <= flash_size)%Z -> told_apart E (concat programs) -> wsteps E (wstart ref_size flash_size programs) s ->
  nth_error (workers s) i = Some w -> In (r, x) (w_answers w) -> In r (concat programs) -> x = plain_answer E r.
Proof.
  intros Sys E rsz fsz programs s i w r x Hr Hf [T1 T2] Hs Hw Hx Hin.
  destruct (cached_answers_proof Sys E rsz fsz programs s i w r x Hr Hf Hs Hw Hx) as [r' [H1 [H2 H3]]].
  assert (r' = r) as -> by (destruct H2 as [H2|H2]; [assumption|apply T2; assumption]).
  eapply plain_of_fresh; eassumption.
Qed.

(** ** How far a cached answer can be from the one asked for *)
Lemma nearest_close : forall x, Qcabs (qz (nearest x) - x) <= qc 1 2.
Proof.
  intros x. unfold nearest. set (f := Qfloor (this x)).
  assert (H1 : qz f <= x) by (apply Qcle_this; unfold qz; rewrite this_Q2Qc; apply Qfloor_le).
  assert (H2 : x < qz f + 1).
  { assert (H := Qlt_floor (this x)). fold f in H. apply Qclt_this. rewrite this_plus. unfold qz. rewrite this_Q2Qc.
    rewrite inject_Z_plus in H. exact H. }
  assert (Hf1 : qz (f + 1) = qz f + 1) by (apply Qc_is_canon; rewrite this_plus; unfold qz; rewrite !this_Q2Qc, inject_Z_plus; reflexivity).
  unfold qc in *. destruct (Qccompare (x - qz f) (Q2Qc (1 # 2))) eqn:Ec.
  - rewrite <- Qceq_alt in Ec. destruct (Z.even f); [|rewrite Hf1]; unfold Qcabs; qc_cases; qc_lra.
  - rewrite <- Qclt_alt in Ec. unfold Qcabs; qc_cases; qc_lra.
  - rewrite <- Qcgt_alt in Ec. rewrite Hf1. unfold Qcabs; qc_cases; qc_lra.
Qed.

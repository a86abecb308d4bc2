(** Events. *)
From Coq Require Import PeanoNat String Lia.
From Verif Require Import QcTac Base BaseLemmas Time_Model Num Simulations_Model Simulations_Spec.
Local Open Scope list_scope.

Lemma str_eqb : forall a b, String.eqb a b = true <-> a = b.
Proof. intros a b. apply String.eqb_eq. Qed.
Lemma get_set : forall V k k' (v : V) d, dict_get String.eqb k' (dict_set String.eqb k v d) = if string_dec k k' then Some v else dict_get String.eqb k' d.
Proof.
  intros V k k' v d. rewrite (dict_get_set _ _ String.eqb _ _ v d str_eqb). destruct (string_dec k k') as [D|D].
  - subst k'. now rewrite String.eqb_refl.
  - destruct (String.eqb k' k) eqn:E; [apply String.eqb_eq in E; congruence|reflexivity].
Qed.
Lemma declare_spec : forall es d,
  (forall d', declare_events es d = Ok d' -> NoDup (map we_name es) /\ (forall w, In w es -> dict_get String.eqb (we_name w) d = None) /\
     (forall k, dict_get String.eqb k d' = if in_dec string_dec k (map we_name es) then Some [] else dict_get String.eqb k d)) /\
  (forall e, declare_events es d = Err e -> e = ValidationError) /\
  (NoDup (map we_name es) -> (forall w, In w es -> dict_get String.eqb (we_name w) d = None) -> exists d', declare_events es d = Ok d').
Proof.
  induction es as [|w es IH]; intros d; cbn [declare_events map].
  - split; [|split; [discriminate|eauto]]. intros d' E. injection E as <-. split; [constructor|]. split; [intros ? []|]. intros k. destruct (in_dec string_dec k []) as [[]|]; reflexivity.
  - destruct (IH (dict_set String.eqb (we_name w) [] d)) as (I1 & I2 & I3). destruct (dict_get String.eqb (we_name w) d) as [l|] eqn:G.
    + split; [discriminate|]. split; [intros e E; congruence|]. intros _ A. specialize (A w (or_introl eq_refl)). congruence.
    + split; [|split].
      * intros d' E. destruct (I1 d' E) as (A & B & C).
        assert (forall x, In x es -> we_name x <> we_name w /\ dict_get String.eqb (we_name x) d = None) as Q.
        { intros x I. specialize (B x I). rewrite get_set in B. destruct (string_dec (we_name w) (we_name x)); [discriminate|]. split; [congruence|exact B]. }
        split; [|split].
        -- constructor; [|exact A]. intros I. apply in_map_iff in I as (x & E' & I). destruct (Q x I). congruence.
        -- intros x [->|I]; [exact G|now apply Q].
        -- intros k. rewrite C, get_set. destruct (in_dec string_dec k (map we_name es)) as [I|I], (in_dec string_dec k (we_name w :: map we_name es)) as [J|J], (string_dec (we_name w) k) as [D|D]; try reflexivity; exfalso; cbn in J; tauto.
      * exact I2.
      * intros N A. inversion N as [|? ? N1 N2]; subst. apply I3; [exact N2|]. intros x I. rewrite get_set. destruct (string_dec (we_name w) (we_name x)) as [D|D]; [|apply A; now right]. elim N1. rewrite D. now apply in_map.
Qed.
Lemma attach_spec : forall ps d,
  (forall d', attach_events ps d = Ok d' -> (forall p, In p ps -> dict_get String.eqb (wp_ref p) d <> None) /\
     forall k, dict_get String.eqb k d' = option_map (fun l => l ++ own_process_events k ps) (dict_get String.eqb k d)) /\
  (forall e, attach_events ps d = Err e -> e = ValidationError) /\
  ((forall p, In p ps -> dict_get String.eqb (wp_ref p) d <> None) -> exists d', attach_events ps d = Ok d').
Proof.
  induction ps as [|p ps IH]; intros d; cbn [attach_events].
  - split; [|split; [discriminate|eauto]]. intros d' E. injection E as <-. split; [intros ? []|]. intros k. unfold own_process_events. cbn. destruct (dict_get String.eqb k d); cbn; [now rewrite app_nil_r|reflexivity].
  - destruct (dict_get String.eqb (wp_ref p) d) as [l|] eqn:G.
    2:{ split; [discriminate|]. split; [intros e E; congruence|]. intros A. elim (A p (or_introl eq_refl) G). }
    destruct (IH (dict_set String.eqb (wp_ref p) (l ++ [wp_event p]) d)) as (I1 & I2 & I3). split; [|split].
    + intros d' E. destruct (I1 d' E) as [A B]. split.
      * intros q [->|I]; [congruence|]. specialize (A q I). rewrite get_set in A. destruct (string_dec (wp_ref p) (wp_ref q)) as [D|D]; [congruence|exact A].
      * intros k. rewrite B, get_set. unfold own_process_events, refers_to. cbn [filter]. destruct (string_dec (wp_ref p) k) as [D|D]; [|reflexivity].
        subst k. rewrite G. cbn [option_map map]. now rewrite <- app_assoc.
    + exact I2.
    + intros A. apply I3. intros q I. rewrite get_set. destruct (string_dec (wp_ref p) (wp_ref q)); [discriminate|]. apply A. now right.
Qed.

Lemma events_proof : forall es ps,
  (forall r, map_events es ps = Ok r -> Forall2 (event_made ps) es r) /\
  ((exists r, map_events es ps = Ok r) <-> NoDup (map we_name es) /\ forall p, In p ps -> In (wp_ref p) (map we_name es)) /\
  (forall e, map_events es ps = Err e -> e = ValidationError).
Proof.
  intros es ps. unfold map_events. destruct (declare_spec es []) as (D1 & D2 & D3). destruct (declare_events es []) as [d|e] eqn:Ed; cbn [bind].
  2:{ split; [discriminate|]. split; [|intros x E; injection E as <-; auto]. split; [intros [r E]; discriminate E|]. intros [N _]. destruct D3 as [d E]; [exact N|reflexivity|]. discriminate E. }
  destruct (D1 d eq_refl) as (N & _ & G). destruct (attach_spec ps d) as (A1 & A2 & A3).
  assert (forall p, dict_get String.eqb (wp_ref p) d <> None <-> In (wp_ref p) (map we_name es)) as K.
  { intros p. rewrite G. destruct (in_dec string_dec (wp_ref p) (map we_name es)) as [I|I]; cbn [dict_get]; split; try tauto; try congruence. }
  destruct (attach_events ps d) as [d'|e] eqn:Ea; cbn [bind].
  2:{ split; [discriminate|]. split; [|intros x E; injection E as <-; auto]. split; [intros [r E]; discriminate E|]. intros [_ R]. destruct A3 as [d' E]; [|discriminate E]. intros p I. apply K. auto. }
  destruct (A1 d' eq_refl) as [R G'].
  set (f := fun e => bind (of_option KeyError (dict_get String.eqb (we_name e) d')) (fun l => Ok (mkEcalcEvent (we_name e) (we_start e) (we_rest e) l))).
  assert (forall w, In w es -> f w = Ok (mkEcalcEvent (we_name w) (we_start w) (we_rest w) (own_process_events (we_name w) ps))) as F.
  { intros w I. unfold f. rewrite G', G. destruct (in_dec string_dec (we_name w) (map we_name es)) as [J|J]; [reflexivity|]. elim J. now apply in_map. }
  assert (exists r, mapM f es = Ok r /\ Forall2 (event_made ps) es r) as (r & Er & Hr).
  { clear - F. induction es as [|w es IH]; [exists []; split; [reflexivity|constructor]|]. destruct IH as (r & Er & Hr); [intros x I; apply F; now right|].
    eexists. cbn [mapM]. rewrite (F w (or_introl eq_refl)). cbn [bind]. rewrite Er. cbn [bind]. split; [reflexivity|]. constructor; [|exact Hr]. repeat split. }
  fold f. rewrite Er. split; [intros x E; injection E as <-; exact Hr|]. split; [|discriminate].
  split; [|eauto]. intros _. split; [exact N|]. intros p I. apply K. auto.
Qed.

Lemma made_in : forall ps es r e, Forall2 (event_made ps) es r -> In e r -> exists w, In w es /\ event_made ps w e.
Proof. intros ps es r e H. induction H; intros []; [subst; eexists; split; [now left|eassumption]|]. destruct (IHForall2 H1) as (w & I & M). exists w. split; [now right|exact M]. Qed.
Lemma in_made : forall ps es r w, Forall2 (event_made ps) es r -> In w es -> exists e, In e r /\ event_made ps w e.
Proof. intros ps es r w H. induction H; intros []; [subst; eexists; split; [now left|eassumption]|]. destruct (IHForall2 H1) as (e & I & M). exists e. split; [now right|exact M]. Qed.
Lemma own_in : forall name ps e, In e (own_process_events name ps) <-> exists p, In p ps /\ wp_event p = e /\ wp_ref p = name.
Proof.
  intros name ps e. unfold own_process_events. rewrite in_map_iff. split.
  - intros (p & E & I). apply filter_In in I as [I R]. unfold refers_to in R. destruct (string_dec (wp_ref p) name); [|discriminate]. eauto.
  - intros (p & I & E & R). exists p. split; [exact E|]. apply filter_In. split; [exact I|]. unfold refers_to. destruct (string_dec (wp_ref p) name); [reflexivity|contradiction].
Qed.
Lemma found_name : forall r name, NoDup (map ev_name r) -> forall e, get_event_by_name r name = Some e <-> In e r /\ ev_name e = name.
Proof.
  intros r name N e. unfold get_event_by_name. split.
  - intros E. apply find_some in E as [I E]. apply String.eqb_eq in E. auto.
  - induction r as [|x r IH]; intros [I E]; [destruct I|]. cbn [map] in N. inversion N as [|? ? N1 N2]; subst. cbn [find]. destruct (String.eqb (ev_name x) (ev_name e)) eqn:Q.
    + apply String.eqb_eq in Q. destruct I as [->|I]; [reflexivity|]. elim N1. rewrite Q. now apply in_map.
    + apply String.eqb_neq in Q. destruct I as [->|I]; [congruence|]. auto.
Qed.
Lemma made_names : forall ps es r, Forall2 (event_made ps) es r -> map ev_name r = map we_name es.
Proof. intros ps es r H. induction H as [|w e es r (E & _) H IH]; [reflexivity|]. cbn. now rewrite E, IH. Qed.

Lemma lookup_proof : forall es ps r, map_events es ps = Ok r ->
  (forall w, In w es -> exists e, get_event_by_name r (we_name w) = Some e /\ event_made ps w e) /\
  (forall name, ~ In name (map we_name es) -> get_event_by_name r name = None) /\
  (* a process event leads to an event that has one of this name *)
  (forall p, In p ps -> exists q w e, In q ps /\ pe_name (wp_event q) = pe_name (wp_event p) /\ In w es /\ we_name w = wp_ref q /\
     get_event_by_process_name r (pe_name (wp_event p)) = Some e /\ event_made ps w e) /\
  (* to its own, if the name is used once *)
  (NoDup (map (fun p => pe_name (wp_event p)) ps) -> forall p, In p ps -> exists w e, In w es /\ we_name w = wp_ref p /\
     get_event_by_process_name r (pe_name (wp_event p)) = Some e /\ event_made ps w e) /\
  (forall name, ~ In name (map (fun p => pe_name (wp_event p)) ps) -> get_event_by_process_name r name = None).
Proof.
  intros es ps r E. destruct (events_proof es ps) as (M & A & _). specialize (M r E). destruct (proj1 A (ex_intro _ r E)) as [N R].
  pose proof (made_names _ _ _ M) as Nm. assert (NoDup (map ev_name r)) as Nr by now rewrite Nm.
  assert (forall p, In p ps -> exists q w e, In q ps /\ pe_name (wp_event q) = pe_name (wp_event p) /\ In w es /\ we_name w = wp_ref q /\
     get_event_by_process_name r (pe_name (wp_event p)) = Some e /\ event_made ps w e) as P.
  { intros p I. destruct (get_event_by_process_name r (pe_name (wp_event p))) as [e|] eqn:G; unfold get_event_by_process_name in G.
    - apply find_some in G as [Ie B]. apply existsb_exists in B as (x & Ix & B). apply String.eqb_eq in B. destruct (made_in _ _ _ _ M Ie) as (w & Iw & Mw).
      pose proof Mw as (_ & _ & _ & Pw). rewrite Pw in Ix. apply own_in in Ix as (q & Iq & Eq & Rq). exists q, w, e. subst x. auto 10.
    - exfalso. specialize (R p I). apply in_map_iff in R as (w & Ew & Iw). destruct (in_made _ _ _ _ M Iw) as (e & Ie & Me). apply (find_none _ _ G) in Ie.
      destruct Me as (_ & _ & _ & Pw). enough (existsb (fun x => String.eqb (pe_name x) (pe_name (wp_event p))) (ev_process e) = true) by congruence.
      apply existsb_exists. exists (wp_event p). split; [|now apply String.eqb_eq]. rewrite Pw. apply own_in. exists p. auto. }
  split; [|split; [|split; [exact P|split]]].
  - intros w I. destruct (in_made _ _ _ _ M I) as (e & Ie & Me). exists e. split; [|exact Me]. apply found_name; [exact Nr|]. split; [exact Ie|]. apply Me.
  - intros name I. destruct (get_event_by_name r name) as [e|] eqn:G; [|reflexivity]. apply (found_name r name Nr) in G as [Ie Ee]. elim I. rewrite <- Nm, <- Ee. now apply in_map.
  - intros Np p I. destruct (P p I) as (q & w & e & Iq & Eq & Rest). assert (q = p) as ->.
    { clear - Np I Iq Eq. induction ps as [|x ps IH]; [destruct I|]. cbn [map] in Np. inversion Np as [|? ? N1 N2]; subst. destruct I as [->|I], Iq as [->|Iq]; auto.
      - elim N1. rewrite <- Eq. exact (in_map (fun p => pe_name (wp_event p)) _ _ Iq).
      - elim N1. rewrite Eq. exact (in_map (fun p => pe_name (wp_event p)) _ _ I). }
    exists w, e. tauto.
  - intros name I. destruct (get_event_by_process_name r name) as [e|] eqn:G; [|reflexivity]. unfold get_event_by_process_name in G. apply find_some in G as [Ie B].
    apply existsb_exists in B as (x & Ix & B). apply String.eqb_eq in B. destruct (made_in _ _ _ _ M Ie) as (w & Iw & (_ & _ & _ & Pw)). rewrite Pw in Ix. apply own_in in Ix as (q & Iq & Eq & _).
    elim I. subst. exact (in_map (fun p => pe_name (wp_event p)) _ _ Iq).
Qed.

(** Proofs about exported attributes: combining the categories of a consumer, its fuel and its producer. *)
From Coq Require Import String PeanoNat Sorted.
From Verif Require Import QcTac Num Time_Model Time_Spec Time_Proofs Time_Proofs2 Time_Proofs3 Vars_Proofs Units_Model Rates_Model Rates_Spec Numbers_Model Base BaseLemmas Export_Model Export_Spec Export_Proofs Attributes_Model Attributes_Spec Attributes_Proofs3.
Local Open Scope list_scope.

(** ** Periods between consecutive dates *)
Lemma increasing_head : forall a l x, increasing (a :: l) -> In x l -> a < x.
Proof.
  intros a l. revert a. induction l as [|b l IH]; intros a x [H1 H2] I; [easy|]. destruct I as [<-|I]; [lia|]. specialize (IH b x H2 I). lia.
Qed.
Lemma consecutive_In : forall ts w, increasing ts -> In w (consecutive ts) -> In (p_start w) ts /\ In (p_end w) ts /\ nonempty w /\ forall d, In d ts -> d <= p_start w \/ p_end w <= d.
Proof.
  induction ts as [|a ts IH]; intros w H I; [easy|]. destruct ts as [|b ts]; [easy|]. rewrite consecutive_cons2 in I. pose proof H as [H1 H2]. destruct I as [<-|I].
  - cbn [p_start p_end]. split; [now left|]. split; [right; now left|]. split; [exact H1|]. intros d [<-|[<-|I]]; [left; lia|right; lia|]. right. assert (b < d) by (now apply (increasing_head b ts)). lia.
  - destruct (IH w H2 I) as (A & B & C & D). split; [now right|]. split; [now right|]. split; [exact C|]. intros d [<-|J]; [|now apply D]. left. assert (a < p_start w) by (now apply (increasing_head a (b :: ts))). lia.
Qed.
Lemma consecutive_cover : forall ts a b d, increasing ts -> In a ts -> In b ts -> a <= d < b -> exists w, In w (consecutive ts) /\ In_period d w.
Proof.
  induction ts as [|x ts IH]; intros a b d H Ia Ib L; [easy|]. destruct ts as [|y ts].
  - destruct Ia as [<-|[]]. destruct Ib as [<-|[]]. lia.
  - rewrite consecutive_cons2. pose proof H as [H1 H2]. destruct (Z_lt_le_dec d y) as [C|C].
    + exists (mkPeriod x y). split; [now left|]. unfold In_period. cbn [p_start p_end]. assert (x <= a); [|lia]. destruct Ia as [<-|Ia]; [lia|]. pose proof (increasing_head x (y :: ts) a H Ia). lia.
    + destruct (IH y b d H2) as (w & I & D); [now left| |lia|exists w; split; [now right|exact D]]. destruct Ib as [<-|Ib]; [|exact Ib]. lia.
Qed.
Lemma consecutive_sorted : forall ts, increasing ts -> StronglySorted (fun a b => p_end a <= p_start b) (consecutive ts).
Proof.
  induction ts as [|a ts IH]; intros H; [constructor|]. destruct ts as [|b ts]; [constructor|]. rewrite consecutive_cons2. pose proof H as [H1 H2]. constructor; [now apply IH|].
  apply Forall_forall. intros w I. cbn [p_end]. destruct (consecutive_In _ w H2 I) as (A & _). destruct A as [<-|A]; [lia|]. pose proof (increasing_head b ts _ H2 A). lia.
Qed.

(** ** Looking up a category *)
Lemma find_ext_in : forall A (f g : A -> bool) l, (forall x, In x l -> f x = g x) -> find f l = find g l.
Proof. intros A f g l. induction l as [|x l IH]; intros H; [reflexivity|]. cbn [find]. rewrite (H x (or_introl eq_refl)). destruct (g x); auto. apply IH. intros; apply H. now right. Qed.
Lemma lookup_period : forall M (tm : list (period * M)) ts w d, increasing ts -> In w (consecutive ts) -> In_period d w ->
  (forall e, In e tm -> In (p_start (fst e)) ts /\ In (p_end (fst e)) ts) -> get_model_for_period tm w = get_model tm d.
Proof.
  intros M tm ts w d H I D G. unfold get_model_for_period, get_model. erewrite find_ext_in; [reflexivity|]. intros e Ie. destruct (G e Ie) as [G1 G2].
  destruct (consecutive_In ts w H I) as (_ & _ & N & X). pose proof (X _ G1). pose proof (X _ G2). unfold contains_period, contains_date, In_period, nonempty in *.
  destruct (Z.leb_spec (p_start (fst e)) (p_start w)); destruct (Z.leb_spec (p_start (fst e)) d); destruct (Z.ltb_spec (p_start w) (p_end w)); destruct (Z.leb_spec (p_end w) (p_end (fst e))); destruct (Z.ltb_spec d (p_end (fst e))); cbn; try reflexivity; lia.
Qed.
Lemma get_model_force : forall M (tm : list (period * M)) d m, ordered tm -> (get_model tm d = Ok m <-> in_force tm d m).
Proof.
  intros M tm d m. induction tm as [|[w m0] tm IH]; intros [S N].
  - unfold get_model. cbn. split; [discriminate|]. intros (w & [] & _).
  - inversion S as [|? ? S' SH]; subst. inversion N as [|? ? N1 N']; subst. rewrite get_model_cons. destruct (contains_date w d) eqn:D.
    + apply contains_spec in D. split.
      * intros E. injection E as <-. exists w. split; [now left|exact D].
      * intros (w' & [E|I] & D'); [congruence|]. exfalso. rewrite Forall_forall in SH. specialize (SH _ I). cbn in SH. unfold In_period in *. lia.
    + rewrite IH by (split; auto). split; intros (w' & I & D').
      * exists w'. split; [now right|exact D'].
      * exists w'. split; [|exact D']. destruct I as [E|I]; [|exact I]. exfalso. injection E as -> ->. apply contains_spec in D'. congruence.
Qed.
Definition lookup {M} (tm : option (list (period * M))) (d : datetime) : option M :=
  match tm with Some l => match get_model l d with Ok m => Some m | Err _ => None end | None => None end.
Lemma lookup_some : forall M (tm : list (period * M)) d m, ordered tm -> (lookup (Some tm) d = Some m <-> in_force tm d m).
Proof. intros M tm d m O. rewrite <- (get_model_force _ tm d m O). cbn [lookup]. destruct (get_model tm d); split; congruence. Qed.
Lemma lookup_category : forall M (tm : list (period * M)) p c, ordered tm -> (lookup (Some tm) (p_start p) = c <-> category_at tm p c).
Proof.
  intros M tm p [c|] O; cbn [category_at]; [now apply lookup_some|]. split.
  - intros E m F. apply (lookup_some _ tm (p_start p) m O) in F. congruence.
  - intros F. destruct (lookup (Some tm) (p_start p)) as [m|] eqn:E; [|reflexivity]. apply (lookup_some _ tm _ m O) in E. now apply F in E.
Qed.

(** ** Dates and scope *)
Definition well {M} (ps : list period) (tm : option (list (period * M))) : Prop := forall l, tm = Some l -> ordered l /\ on_grid ps l.
Definition defined {M} (tm : option (list (period * M))) (d : datetime) : Prop := exists l m, tm = Some l /\ in_force l d m.
Lemma dates_In : forall M (tm : option (list (period * M))) d, In d (dates_of_model tm) <-> exists l e, tm = Some l /\ In e l /\ (p_start (fst e) = d \/ p_end (fst e) = d).
Proof.
  intros M [l|] d; cbn [dates_of_model].
  - rewrite in_flat_map. split.
    + intros (e & I & [E|[E|[]]]); exists l, e; auto.
    + intros (l' & e & El & I & E). injection El as <-. exists e. split; [exact I|]. cbn. tauto.
  - split; [intros []|intros (l & e & E & _); discriminate].
Qed.
Lemma before_date : forall M ps (tm : option (list (period * M))) a x, well ps tm -> In a (dates_of_model tm) -> a <= x -> exists d, d <= x /\ defined tm d.
Proof.
  intros M ps tm a x W I L. apply dates_In in I as (l & [w m] & E & I & X). destruct (W l E) as [[_ N] _]. rewrite Forall_forall in N. specialize (N _ I). unfold nonempty in N. cbn in N, X.
  exists (p_start w). split; [lia|]. exists l, m. split; [exact E|]. exists w. split; [exact I|]. unfold In_period. lia.
Qed.
Lemma after_date : forall M ps (tm : option (list (period * M))) b x, well ps tm -> In b (dates_of_model tm) -> x < b -> exists d, x <= d /\ defined tm d.
Proof.
  intros M ps tm b x W I L. apply dates_In in I as (l & [w m] & E & I & X). destruct (W l E) as [[_ N] _]. rewrite Forall_forall in N. specialize (N _ I). unfold nonempty in N. cbn in N, X.
  exists (p_end w - 1). split; [lia|]. exists l, m. split; [exact E|]. exists w. split; [exact I|]. unfold In_period. lia.
Qed.
Lemma defined_dates : forall M (tm : option (list (period * M))) d, defined tm d -> exists a b, In a (dates_of_model tm) /\ In b (dates_of_model tm) /\ a <= d < b.
Proof.
  intros M tm d (l & m & E & w & I & D). exists (p_start w), (p_end w). split; [apply dates_In; exists l, (w, m); auto|]. split; [apply dates_In; exists l, (w, m); auto|exact D].
Qed.

(** ** Combined windows *)
Definition meta_at (fuel : option (list (period * option string))) (consumer producer : option categories) (d : datetime) : meta :=
  mkMeta (match lookup fuel d with Some c => c | None => None end) (lookup consumer d) (lookup producer d) None.
Lemma category_in_lookup : forall M (tm : option (list (period * M))) ts w d, increasing ts -> In w (consecutive ts) -> In_period d w ->
  (forall x, In x (dates_of_model tm) -> In x ts) -> category_in tm w = lookup tm d.
Proof.
  intros M [l|] ts w d H I D G; [|reflexivity]. cbn [category_in lookup]. rewrite (lookup_period _ l ts w d H I D); [reflexivity|].
  intros e Ie. split; apply G, dates_In; exists l, e; auto.
Qed.
Lemma consecutive_map : forall M (f : period -> M) ps ts, increasing ts -> (forall d, In d ts -> grid_date ps d) ->
  ordered (map (fun p => (p, f p)) (consecutive ts)) /\ on_grid ps (map (fun p => (p, f p)) (consecutive ts)).
Proof.
  intros M f ps ts H G. split; [split|].
  - pose proof (consecutive_sorted ts H) as S. induction S as [|a l S IH F]; [constructor|]. cbn [map]. constructor; [exact IH|]. apply Forall_forall. intros e I. apply in_map_iff in I as (w & <- & I). rewrite Forall_forall in F. now apply F.
  - apply Forall_forall. intros e I. apply in_map_iff in I as (w & <- & I). now apply (consecutive_In ts w H).
  - intros e I. apply in_map_iff in I as (w & <- & I). cbn [fst]. destruct (consecutive_In ts w H I) as (A & B & _). split; apply G; assumption.
Qed.
Lemma combine_ok : forall ps fuel consumer producer, (2 <= List.length (filter (fun b => b) [is_some fuel; is_some consumer; is_some producer]))%nat ->
  well ps fuel -> well ps consumer -> well ps producer ->
  exists ws, combine_categories fuel consumer producer = Ok ws /\ ordered ws /\ on_grid ps ws /\
    forall p (Q : meta -> Prop), (exists e, In e ws /\ In_period (p_start p) (fst e) /\ Q (snd e)) <->
      in_scope (fun d => defined fuel d \/ defined consumer d \/ defined producer d) p /\ Q (meta_at fuel consumer producer (p_start p)).
Proof.
  intros ps fuel consumer producer L Wf Wc Wp. unfold combine_categories. replace (_ <? 2)%nat with false by (symmetry; now apply Nat.ltb_ge). rewrite create_periods_ff.
  set (dates := dates_of_model fuel ++ dates_of_model consumer ++ dates_of_model producer). pose proof (sorted_set_increasing dates) as H.
  assert (forall x, In x (sorted_set dates) <-> In x (dates_of_model fuel) \/ In x (dates_of_model consumer) \/ In x (dates_of_model producer)) as D. { intros x. rewrite sorted_set_In. unfold dates. rewrite !in_app_iff. tauto. }
  assert (forall M (tm : option (list (period * M))) d, well ps tm -> In d (dates_of_model tm) -> grid_date ps d) as G.
  { intros M tm d W I. apply dates_In in I as (l & e & E & I & [<-|<-]); destruct (W l E) as [_ X]; apply (X e I). }
  eexists. split; [reflexivity|].
  destruct (consecutive_map meta (fun p => mkMeta (match category_in fuel p with Some c => c | None => None end) (category_in consumer p) (category_in producer p) None) ps (sorted_set dates) H) as [O X].
  { intros d I. apply D in I as [I|[I|I]]; [apply (G _ fuel)|apply (G _ consumer)|apply (G _ producer)]; assumption. }
  split; [exact O|]. split; [exact X|]. intros p Q.
  assert (forall w, In w (consecutive (sorted_set dates)) -> In_period (p_start p) w ->
     mkMeta (match category_in fuel w with Some c => c | None => None end) (category_in consumer w) (category_in producer w) None = meta_at fuel consumer producer (p_start p)) as Y.
  { intros w I J. unfold meta_at. rewrite (category_in_lookup _ fuel _ w (p_start p) H I J), (category_in_lookup _ consumer _ w (p_start p) H I J), (category_in_lookup _ producer _ w (p_start p) H I J); [reflexivity| | |]; intros x K; apply D; tauto. }
  split.
  - intros (e & I & J & K). apply in_map_iff in I as (w & <- & I). cbn [fst snd] in *. rewrite (Y w I J) in K. split; [|exact K]. destruct (consecutive_In _ w H I) as (A & B & _). unfold In_period in J. split.
    + apply D in A as [A|[A|A]]; [destruct (before_date _ ps _ _ (p_start p) Wf A) as (d & ? & ?)|destruct (before_date _ ps _ _ (p_start p) Wc A) as (d & ? & ?)|destruct (before_date _ ps _ _ (p_start p) Wp A) as (d & ? & ?)]; try lia; exists d; tauto.
    + apply D in B as [B|[B|B]]; [destruct (after_date _ ps _ _ (p_start p) Wf B) as (d & ? & ?)|destruct (after_date _ ps _ _ (p_start p) Wc B) as (d & ? & ?)|destruct (after_date _ ps _ _ (p_start p) Wp B) as (d & ? & ?)]; try lia; exists d; tauto.
  - intros [[(d1 & L1 & D1) (d2 & L2 & D2)] K].
    assert (forall d, defined fuel d \/ defined consumer d \/ defined producer d -> exists a b, In a (sorted_set dates) /\ In b (sorted_set dates) /\ a <= d < b) as Z.
    { intros d [E|[E|E]]; apply defined_dates in E as (a & b & A & B & ?); exists a, b; (split; [apply D; tauto|split; [apply D; tauto|assumption]]). }
    destruct (Z d1 D1) as (a & b1 & A & _ & ?). destruct (Z d2 D2) as (a2 & b & _ & B & ?). destruct (consecutive_cover _ a b (p_start p) H A B) as (w & I & J); [lia|].
    eexists. split; [apply in_map_iff; exists w; split; [reflexivity|exact I]|]. cbn [fst snd]. split; [exact J|]. rewrite (Y w I J). exact K.
Qed.

(** Expressions that change at dates. *)
From Coq Require Import PeanoNat Lia Sorted.
From Verif Require Import Base BaseLemmas Time_Model Convert_Model Convert_Spec.
Local Open Scope list_scope.

Fixpoint spans {raw} (latest : datetime) (items : list (datetime * raw)) : list (period * raw) :=
  match items with [] => [] | (d, r) :: rest => (mkPeriod d (match rest with [] => latest | (d', _) :: _ => d' end), r) :: spans latest rest end.
Lemma date_items_spans : forall raw latest (items : list (datetime * raw)), date_items latest items = spans latest items.
Proof.
  intros raw latest items. unfold date_items. rewrite removelast_last. induction items as [|[d r] items IH]; [reflexivity|]. destruct items as [|[d' r'] items]; [reflexivity|].
  cbn [map fst snd app tl combine spans] in *. f_equal. exact IH.
Qed.
Lemma spans_in : forall raw latest (items : list (datetime * raw)) p r, In (p, r) (spans latest items) -> In (p_start p, r) items.
Proof. intros raw latest items p r. induction items as [|[d s] items IH]; cbn [spans]; [contradiction|]. intros [E|I]; [injection E as <- <-; left; reflexivity|right; auto]. Qed.
Lemma spans_force : forall raw latest (items : list (datetime * raw)) t p r, in_order items -> In (p, r) (spans latest items) -> during p t -> in_force items t r.
Proof.
  intros raw latest items t p r. induction items as [|[d s] items IH]; intros O I D; [contradiction|]. cbn [spans] in I. unfold in_order in O. cbn [map fst] in O. inversion O as [|? ? O' F]; subst. rewrite Forall_forall in F. destruct I as [E|I].
  - injection E as <- <-. exists d. split; [left; reflexivity|]. destruct D as [D1 D2]. cbn in D1, D2. split; [exact D1|]. intros d' r' [E|J] L; [injection E as <- _; lia|]. exfalso. destruct items as [|[x y] items]; [contradiction|]. destruct J as [E|J].
    + injection E as <- _. lia.
    + inversion O' as [|? ? _ F']; subst. rewrite Forall_forall in F'. specialize (F' d' (in_map fst _ _ J)). lia.
  - destruct (IH O' I D) as (e & J & L & M). exists e. split; [right; exact J|]. split; [exact L|]. intros d' r' [E|K] X; [|exact (M d' r' K X)]. injection E as <- _. specialize (F e (in_map fst _ _ J)). lia.
Qed.
Lemma spans_cover : forall raw latest (items : list (datetime * raw)) t r, in_order items -> t < latest -> in_force items t r -> exists p, In (p, r) (spans latest items) /\ during p t.
Proof.
  intros raw latest items t r. induction items as [|[d s] items IH]; intros O T (e & J & L & M); [contradiction|]. unfold in_order in O. cbn [map fst] in O. inversion O as [|? ? O' F]; subst. rewrite Forall_forall in F. cbn [spans].
  assert (X : In (e, r) items \/ ((d, s) = (e, r) /\ forall d' r', In (d', r') items -> t < d')).
  { destruct J as [E|J]; [|left; exact J]. right. split; [exact E|]. injection E as <- <-. intros d' r' K. destruct (Z.lt_ge_cases t d') as [G|G]; [exact G|]. specialize (M d' r' (or_intror K) G). specialize (F d' (in_map fst _ _ K)). lia. }
  destruct X as [K|[E K]].
  - destruct (IH O' T) as (p & I & D); [|exists p; split; [right; exact I|exact D]]. exists e. split; [exact K|]. split; [exact L|]. intros d' r' N. apply (M d' r'). right. exact N.
  - injection E as <- <-. eexists. split; [left; reflexivity|]. split; cbn; [exact L|]. destruct items as [|[x y] items]; [exact T|]. apply (K x y). left. reflexivity.
Qed.
Lemma convert_in : forall raw expression (setup : raw -> result expression) items l, convert_items setup items = Ok l ->
  (forall p r, In (p, r) items -> exists e, setup r = Ok e /\ In (p, e) l) /\ (forall p e, In (p, e) l -> exists r, setup r = Ok e /\ In (p, r) items).
Proof.
  intros raw expression setup items. unfold convert_items. induction items as [|[q s] items IH]; intros l E; cbn [mapM fst snd] in E.
  - injection E as <-. split; intros ? ? [].
  - destruct (setup s) as [x|] eqn:S; cbn [bind] in E; [|discriminate E]. destruct (mapM _ items) as [ys|] eqn:Y; cbn [bind] in E; [|discriminate E]. injection E as <-. destruct (IH ys eq_refl) as [A B]. split.
    + intros p r [X|I]; [injection X as <- <-; exists x; split; [exact S|left; reflexivity]|]. destruct (A p r I) as (e & Q & J). exists e. split; [exact Q|right; exact J].
    + intros p e [X|I]; [injection X as <- <-; exists s; split; [exact S|left; reflexivity]|]. destruct (B p e I) as (r & Q & J). exists r. split; [exact Q|right; exact J].
Qed.
Lemma in_force_used : forall raw expression (setup : raw -> result expression) latest items l t, in_order items -> convert_expression setup latest (AtDates items) = Ok (Many l) -> t < latest ->
  (forall r, in_force items t r -> exists p e, In (p, e) l /\ during p t /\ setup r = Ok e) /\
  (forall p e, In (p, e) l -> during p t -> exists r, in_force items t r /\ setup r = Ok e).
Proof.
  intros raw expression setup latest items l t O E T. cbn [convert_expression] in E. destruct (convert_items setup (date_items latest items)) as [l'|] eqn:C; cbn [bind] in E; [|discriminate E]. injection E as ->. rewrite date_items_spans in C. destruct (convert_in _ _ _ _ _ C) as [A B]. split.
  - intros r F. destruct (spans_cover _ latest items t r O T F) as (p & I & D). destruct (A p r I) as (e & S & J). exists p, e. auto.
  - intros p e I D. destruct (B p e I) as (r & S & J). exists r. split; [exact (spans_force _ _ _ _ _ _ O J D)|exact S].
Qed.
Lemma first_differs : forall raw latest (items : list (datetime * raw)) p r p' r', in_order items -> In (p, r) (spans latest items) -> In (p', r') (spans latest items) -> p_start p = p_start p' -> p = p'.
Proof.
  intros raw latest items p r p' r'. induction items as [|[d s] items IH]; intros O I J E; [contradiction|]. unfold in_order in O. cbn [map fst] in O. inversion O as [|? ? O' F]; subst. rewrite Forall_forall in F. cbn [spans] in I, J. destruct I as [I|I], J as [J|J].
  - congruence.
  - injection I as <- <-. apply spans_in in J. specialize (F _ (in_map fst _ _ J)). cbn in *. lia.
  - injection J as <- <-. apply spans_in in I. specialize (F _ (in_map fst _ _ I)). cbn in *. lia.
  - auto.
Qed.
Lemma one_period : forall raw expression (setup : raw -> result expression) latest items l t p e p' e', in_order items -> convert_expression setup latest (AtDates items) = Ok (Many l) ->
  In (p, e) l -> In (p', e') l -> during p t -> during p' t -> p = p'.
Proof.
  intros raw expression setup latest items l t p e p' e' O E I J D D'. cbn [convert_expression] in E. destruct (convert_items setup (date_items latest items)) as [l'|] eqn:C; cbn [bind] in E; [|discriminate E]. injection E as ->. rewrite date_items_spans in C. destruct (convert_in _ _ _ _ _ C) as [_ B].
  destruct (B p e I) as (r & _ & K). destruct (B p' e' J) as (r' & _ & K'). apply (first_differs _ latest items p r p' r' O K K').
  assert (X : forall q s, In (q, s) (spans latest items) -> during q t -> forall x y, In (x, y) items -> x <= t -> x <= p_start q).
  { clear - O. induction items as [|[d s0] items IH]; intros q s Q D x y N L; [contradiction|]. unfold in_order in O. cbn [map fst] in O. inversion O as [|? ? O' F]; subst. rewrite Forall_forall in F. cbn [spans] in Q. destruct Q as [Q|Q].
    - injection Q as <- <-. destruct D as [D1 D2]. cbn in *. destruct N as [N|N]; [injection N as <- _; lia|]. exfalso. destruct items as [|[a b] items]; [contradiction|]. destruct N as [N|N]; [injection N as <- _; lia|]. inversion O' as [|? ? _ F']; subst. rewrite Forall_forall in F'. specialize (F' x (in_map fst _ _ N)). lia.
    - destruct N as [N|N]; [|exact (IH O' q s Q D x y N L)]. injection N as <- _. apply spans_in in Q. specialize (F _ (in_map fst _ _ Q)). cbn in F. lia. }
  pose proof (X p r K D _ _ (spans_in _ _ _ _ _ K') (proj1 D')). pose proof (X p' r' K' D' _ _ (spans_in _ _ _ _ _ K) (proj1 D)). lia.
Qed.
Lemma order_refuted : exists (items : list (datetime * nat)) l t r e, convert_expression (fun r : nat => Ok r) 100 (AtDates items) = Ok (Many l) /\ in_force items t r /\
  (exists p, In (p, e) l /\ during p t) /\ e <> r /\ forall p, In (p, r) l -> ~ during p t.
Proof.
  exists [(10, 1%nat); (30, 2%nat); (20, 3%nat)], [(mkPeriod 10 30, 1%nat); (mkPeriod 30 20, 2%nat); (mkPeriod 20 100, 3%nat)], 40, 2%nat, 3%nat. split; [reflexivity|]. split.
  - exists 30. split; [right; left; reflexivity|]. split; [lia|]. intros d r [E|[E|[E|[]]]] L; injection E as <- <-; lia.
  - split; [exists (mkPeriod 20 100); split; [right; right; left; reflexivity|split; cbn; lia]|]. split; [discriminate|]. intros p [E|[E|[E|[]]]]; try discriminate E. injection E as <-. intros [A B]. cbn in *. lia.
Qed.

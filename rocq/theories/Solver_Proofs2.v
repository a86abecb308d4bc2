(** Computations that do not depend on what is in some places and change only some places (C40). *)
From Coq Require Import List Bool ZArith Lia.
From Verif Require Import QcTac Base BaseLemmas Num Stream_Model Process_Model Search_Model Solver_Model Solver_Spec.
Import ListNotations.
Local Open Scope Qc_scope.

(** [tame W S T m]: [m] started in two states that differ at most in S behaves the same in both, the states differ at most
    in S afterwards, and in T if it returns; and it changes W only. *)
Definition det {A} (S T : cell -> Prop) (m : M heap A) : Prop :=
  forall h h', same_except S h h' ->
    fst (m h) = fst (m h') /\ same_except S (snd (m h)) (snd (m h')) /\
    (forall a, fst (m h) = Return a -> same_except T (snd (m h)) (snd (m h'))).
Definition frame {A} (W : cell -> Prop) (m : M heap A) : Prop := forall h, same_except W h (snd (m h)).
Definition tame {A} (W S T : cell -> Prop) (m : M heap A) : Prop := det S T m /\ frame W m.

Definition subset (S T : cell -> Prop) : Prop := forall c, S c -> T c.
Definition minus (S T : cell -> Prop) : cell -> Prop := fun c => S c /\ ~ T c.
Definition nothing : cell -> Prop := fun _ => False.

Lemma same_refl : forall S h, same_except S h h. Proof. intros S h c _. reflexivity. Qed.
Lemma same_sym : forall S h h', same_except S h h' -> same_except S h' h.
Proof. intros S h h' H c N. symmetry. now apply H. Qed.
Lemma same_trans : forall S a b c, same_except S a b -> same_except S b c -> same_except S a c.
Proof. intros S a b c H H' x N. rewrite H by assumption. now apply H'. Qed.
Lemma same_weaken : forall S T h h', subset S T -> same_except S h h' -> same_except T h h'.
Proof. intros S T h h' X H c N. apply H. intros Y. apply N, X, Y. Qed.
Lemma subset_refl : forall S, subset S S. Proof. intros S c H. exact H. Qed.
Lemma minus_subset : forall S T, subset (minus S T) S. Proof. intros S T c [H _]. exact H. Qed.
#[export] Hint Resolve same_refl subset_refl minus_subset : tame.

Lemma tame_ret : forall A W S (a : A), tame W S S (ret a).
Proof. intros. split; [|intros h; apply same_refl]. intros h h' H. cbn. auto. Qed.
Lemma tame_raise : forall A W S T e, tame W S T (@raise heap A e).
Proof. intros. split; [|intros h; apply same_refl]. intros h h' H. cbn. split; [reflexivity|split; [exact H|discriminate]]. Qed.
Lemma tame_lift : forall A W S (o : outcome A), tame W S S (lift o).
Proof. intros. split; [|intros h; apply same_refl]. intros h h' H. cbn. auto. Qed.

Lemma tame_weaken : forall A W S T T' (m : M heap A), tame W S T m -> subset T T' -> tame W S T' m.
Proof.
  intros A W S T T' m [D F] X. split; [|exact F]. intros h h' H. destruct (D h h' H) as (a & b & c).
  split; [exact a|split; [exact b|]]. intros x E. eapply same_weaken; eauto.
Qed.
Lemma frame_weaken : forall A W W' S T (m : M heap A), tame W S T m -> subset W W' -> tame W' S T m.
Proof. intros A W W' S T m [D F] X. split; [exact D|]. intros h. eapply same_weaken; eauto. Qed.

Lemma tame_bind : forall A B W S T U (m : M heap A) (k : A -> M heap B),
  subset T S -> tame W S T m -> (forall a, tame W T U (k a)) -> tame W S U (bind m k).
Proof.
  intros A B W S T U m k X [D F] K. split.
  - intros h h' H. destruct (D h h' H) as (E & H1 & H2). unfold bind.
    destruct (m h) as [[a|e] h1], (m h') as [[a'|e'] h2]; cbn [fst snd] in *; try discriminate.
    + injection E as <-. destruct (K a) as [DK _]. destruct (DK h1 h2 (H2 a eq_refl)) as (E' & G1 & G2).
      split; [exact E'|split; [|exact G2]]. eapply same_weaken; eauto.
    + injection E as <-. split; [reflexivity|split; [exact H1|discriminate]].
  - intros h. specialize (F h). unfold bind. destruct (m h) as [[a|e] h1]; cbn [fst snd] in *; [|exact F].
    eapply same_trans; [exact F|apply (proj2 (K a))].
Qed.

Lemma tame_catch : forall A W S T (m : M heap A) hd,
  tame W S T m -> (forall e k, hd e = Some k -> tame W S T k) -> tame W S T (catch m hd).
Proof.
  intros A W S T m hd [D F] K. split.
  - intros h h' H. destruct (D h h' H) as (E & H1 & H2). unfold catch.
    destruct (m h) as [[a|e] h1], (m h') as [[a'|e'] h2]; cbn [fst snd] in *; try discriminate.
    + auto.
    + injection E as <-. destruct (hd e) eqn:X.
      * apply (proj1 (K _ _ X)). exact H1.
      * split; [reflexivity|split; [exact H1|discriminate]].
  - intros h. specialize (F h). unfold catch. destruct (m h) as [[a|e] h1]; cbn [fst snd] in *; [exact F|].
    destruct (hd e) eqn:X; [|exact F]. eapply same_trans; [exact F|]. apply (proj2 (K _ _ X)).
Qed.

(** The same level before and after. *)
Lemma tame_bind1 : forall A B W S (m : M heap A) (k : A -> M heap B),
  tame W S S m -> (forall a, tame W S S (k a)) -> tame W S S (bind m k).
Proof. intros A B W S m k H K. exact (tame_bind _ _ W S S S m k (subset_refl S) H K). Qed.

(** ** Setting a place *)

Lemma read_set_shaft : forall i v h c, read (set_shaft i v h) c = match c with CShaft j => if Nat.eqb i j then VNumber v else read h c | _ => read h c end.
Proof. intros. destruct c; try reflexivity. cbn. unfold upd. now destruct (Nat.eqb i i0). Qed.
Lemma read_set_speed : forall i v h c, read (set_speed i v h) c = match c with CSpeed j => if Nat.eqb i j then VNumber (Some v) else read h c | _ => read h c end.
Proof. intros. destruct c; try reflexivity. cbn. unfold upd. now destruct (Nat.eqb i i0). Qed.
Lemma read_set_mix : forall i v h c, read (set_mix i v h) c = match c with CMix j => if Nat.eqb i j then VNumber (Some v) else read h c | _ => read h c end.
Proof. intros. destruct c; try reflexivity. cbn. unfold upd. now destruct (Nat.eqb i i0). Qed.
Lemma read_set_split : forall i v h c, read (set_split i v h) c = match c with CSplit j => if Nat.eqb i j then VNumber (Some v) else read h c | _ => read h c end.
Proof. intros. destruct c; try reflexivity. cbn. unfold upd. now destruct (Nat.eqb i i0). Qed.
Lemma read_set_choke : forall i v h c, read (set_choke i v h) c = match c with CChoke j => if Nat.eqb i j then VNumber (Some v) else read h c | _ => read h c end.
Proof. intros. destruct c; try reflexivity. cbn. unfold upd. now destruct (Nat.eqb i i0). Qed.
Lemma read_set_last : forall i v h c, read (set_last i v h) c = match c with CLast j => if Nat.eqb i j then VConfigurations v else read h c | _ => read h c end.
Proof. intros. destruct c; try reflexivity. cbn. unfold upd. now destruct (Nat.eqb i i0). Qed.

(** A state change [f] that sets the places W to values that do not depend on the state. *)
Definition sets (W : cell -> Prop) (f : heap -> heap) : Prop :=
  exists v, (forall c h, W c -> read (f h) c = v c) /\ (forall c h, ~ W c -> read (f h) c = read h c) /\ (forall c, W c \/ ~ W c).

Lemma sets_tame : forall W S f, sets W f -> tame W S (minus S W) (fun h => (Return tt, f h)).
Proof.
  intros W S f (v & A & B & D). split.
  - intros h h' H. cbn [fst snd]. split; [reflexivity|]. split.
    + intros c N. destruct (D c) as [w|w]; [now rewrite !A|]. rewrite !B by assumption. now apply H.
    + intros _ _ c N. destruct (D c) as [w|w]; [now rewrite !A|]. rewrite !B by assumption. apply H.
      intros X. apply N. now split.
  - intros h c N. cbn [snd]. now rewrite B.
Qed.

Lemma sets_compose : forall W V f g, sets W f -> sets V g -> sets (fun c => W c \/ V c) (fun h => g (f h)).
Proof.
  intros W V f g (v & A & B & D) (u & A' & B' & D').
  exists (fun c => match read (g (f (mk_heap (fun _ => None) (fun _ => 0) (fun _ => 0) (fun _ => 0) (fun _ => None) (fun _ => [])))) c with x => x end).
  split; [|split].
  - intros c h X. destruct (D' c) as [w|w].
    + now rewrite !A'.
    + rewrite !B' by assumption. destruct X as [X|X]; [|contradiction]. now rewrite !A.
  - intros c h X. rewrite B' by tauto. apply B. tauto.
  - intros c. destruct (D c), (D' c); tauto.
Qed.

Lemma sets_ext : forall W V f g, sets W f -> (forall c, W c <-> V c) -> (forall h, f h = g h) -> sets V g.
Proof.
  intros W V f g (v & A & B & D) E F. exists v. split; [|split].
  - intros c h X. rewrite <- F. apply A. now apply E.
  - intros c h X. rewrite <- F. apply B. intros Y. apply X. now apply E.
  - intros c. destruct (D c) as [w|w]; [left; now apply E|right; intros Y; apply w; now apply E].
Qed.

Lemma sets_speed : forall i v, sets (fun c => c = CSpeed i) (set_speed i v).
Proof.
  intros i v. exists (fun _ => VNumber (Some v)). split; [|split].
  - intros c h ->. rewrite read_set_speed. now rewrite Nat.eqb_refl.
  - intros c h N. rewrite read_set_speed. destruct c as [j| | | | |]; try reflexivity.
    destruct (Nat.eqb i j) eqn:E; [|reflexivity]. apply Nat.eqb_eq in E. subst. now destruct N.
  - intros [j| | | | |]; try (right; discriminate). destruct (Nat.eq_dec i j) as [->|N]; [now left|right; congruence].
Qed.
Lemma sets_mix : forall i v, sets (fun c => c = CMix i) (set_mix i v).
Proof.
  intros i v. exists (fun _ => VNumber (Some v)). split; [|split].
  - intros c h ->. rewrite read_set_mix. now rewrite Nat.eqb_refl.
  - intros c h N. rewrite read_set_mix. destruct c as [|j| | | |]; try reflexivity.
    destruct (Nat.eqb i j) eqn:E; [|reflexivity]. apply Nat.eqb_eq in E. subst. now destruct N.
  - intros [|j| | | |]; try (right; discriminate). destruct (Nat.eq_dec i j) as [->|N]; [now left|right; congruence].
Qed.
Lemma sets_split : forall i v, sets (fun c => c = CSplit i) (set_split i v).
Proof.
  intros i v. exists (fun _ => VNumber (Some v)). split; [|split].
  - intros c h ->. rewrite read_set_split. now rewrite Nat.eqb_refl.
  - intros c h N. rewrite read_set_split. destruct c as [| |j| | |]; try reflexivity.
    destruct (Nat.eqb i j) eqn:E; [|reflexivity]. apply Nat.eqb_eq in E. subst. now destruct N.
  - intros [| |j| | |]; try (right; discriminate). destruct (Nat.eq_dec i j) as [->|N]; [now left|right; congruence].
Qed.
Lemma sets_choke : forall i v, sets (fun c => c = CChoke i) (set_choke i v).
Proof.
  intros i v. exists (fun _ => VNumber (Some v)). split; [|split].
  - intros c h ->. rewrite read_set_choke. now rewrite Nat.eqb_refl.
  - intros c h N. rewrite read_set_choke. destruct c as [| | |j| |]; try reflexivity.
    destruct (Nat.eqb i j) eqn:E; [|reflexivity]. apply Nat.eqb_eq in E. subst. now destruct N.
  - intros [| | |j| |]; try (right; discriminate). destruct (Nat.eq_dec i j) as [->|N]; [now left|right; congruence].
Qed.
Lemma sets_shaft : forall i v, sets (fun c => c = CShaft i) (set_shaft i v).
Proof.
  intros i v. exists (fun _ => VNumber v). split; [|split].
  - intros c h ->. rewrite read_set_shaft. now rewrite Nat.eqb_refl.
  - intros c h N. rewrite read_set_shaft. destruct c as [| | | |j|]; try reflexivity.
    destruct (Nat.eqb i j) eqn:E; [|reflexivity]. apply Nat.eqb_eq in E. subst. now destruct N.
  - intros [| | | |j|]; try (right; discriminate). destruct (Nat.eq_dec i j) as [->|N]; [now left|right; congruence].
Qed.
Lemma sets_last : forall i v, sets (fun c => c = CLast i) (set_last i v).
Proof.
  intros i v. exists (fun _ => VConfigurations v). split; [|split].
  - intros c h ->. rewrite read_set_last. now rewrite Nat.eqb_refl.
  - intros c h N. rewrite read_set_last. destruct c as [| | | | |j]; try reflexivity.
    destruct (Nat.eqb i j) eqn:E; [|reflexivity]. apply Nat.eqb_eq in E. subst. now destruct N.
  - intros [| | | | |j]; try (right; discriminate). destruct (Nat.eq_dec i j) as [->|N]; [now left|right; congruence].
Qed.

Lemma sets_recirculation : forall m s v, sets (fun c => c = CMix m \/ c = CSplit s) (set_recirculation m s v).
Proof. intros. unfold set_recirculation. exact (sets_compose _ _ _ _ (sets_mix m v) (sets_split s v)). Qed.

Lemma sets_speeds : forall cs v W f, sets W f ->
  sets (fun c => W c \/ exists u, In u cs /\ c = CSpeed u) (fun h => fold_left (fun h c => set_speed c v h) cs (f h)).
Proof.
  induction cs as [|u cs IH]; intros v W f H.
  - eapply sets_ext; [exact H| |reflexivity]. intros c. split; [now left|]. intros [X|(u & [] & _)]. exact X.
  - cbn [fold_left]. eapply sets_ext; [apply (IH v (fun c => W c \/ c = CSpeed u) (fun h => set_speed u v (f h)))| |reflexivity].
    + exact (sets_compose _ _ _ _ H (sets_speed u v)).
    + intros c. split.
      * intros [[X|X]|(w & I & X)]; [now left|right; exists u; split; [now left|exact X]|right; exists w; split; [now right|exact X]].
      * intros [X|(w & [I|I] & X)]; [now left; left|subst w; left; now right|right; eauto].
Qed.

Lemma sets_apply_speed : forall i cs v, sets (fun c => c = CShaft i \/ exists u, In u cs /\ c = CSpeed u) (apply_speed i cs v).
Proof. intros. unfold apply_speed. apply (sets_speeds cs v _ _ (sets_shaft i (Some v))). Qed.

(** ** Handlers *)

Definition not_single (r : runner) (i : handler_id) : Prop :=
  forall cs, dict_get Nat.eqb i (r_handlers r) <> Some (SingleSpeedShaft cs).

Lemma cells_of_eq : forall r i hd, dict_get Nat.eqb i (r_handlers r) = Some hd ->
  forall c, handler_cells i hd c <-> cells_of r i c.
Proof.
  intros r i hd G c. split; [intros X; exists hd; auto|]. intros (hd' & X & Y). rewrite G in X. injection X as <-. exact Y.
Qed.

Lemma sets_cells : forall r i hd f W S, dict_get Nat.eqb i (r_handlers r) = Some hd -> sets (handler_cells i hd) f ->
  subset (cells_of r i) W -> tame W S (minus S (cells_of r i)) (fun h => (Return tt, f h)).
Proof.
  intros r i hd f W S G Hf HW. eapply frame_weaken; [|exact HW]. apply sets_tame.
  eapply sets_ext; [exact Hf|now apply cells_of_eq|reflexivity].
Qed.

Lemma tame_apply : forall r i v W S, not_single r i -> subset (cells_of r i) W ->
  tame W S (minus S (cells_of r i)) (apply_configuration r (i, v)).
Proof.
  intros r i v W S NS HW. unfold apply_configuration. cbn [fst snd].
  destruct (dict_get Nat.eqb i (r_handlers r)) as [hd|] eqn:G; [|apply tame_raise].
  assert (RAISE : forall e, tame W S (minus S (cells_of r i)) (fun h : heap => (@Raise unit e, h)))
    by (intros e; apply (tame_raise unit)).
  pose proof (sets_cells r i hd) as SET.
  destruct hd as [cs|cs|m s|k]; destruct v as [x|x|x]; try apply RAISE; unfold handle.
  - destruct (NS cs G).
  - apply SET; auto. apply sets_apply_speed.
  - apply SET; auto. apply sets_recirculation.
  - destruct (Qcltb x 0); [apply RAISE|]. apply SET; auto. apply sets_choke.
Qed.

Definition settable (r : runner) (i : handler_id) : Prop := is_loop r i \/ is_choke r i.

Lemma settable_not_single : forall r i, settable r i -> not_single r i.
Proof. intros r i [(m & s & G)|(k & G)] cs X; congruence. Qed.

Lemma tame_reset : forall r i W S, settable r i -> subset (cells_of r i) W ->
  tame W S (minus S (cells_of r i)) (reset_configuration r i).
Proof.
  intros r i W S N HW. unfold reset_configuration.
  pose proof (sets_cells r i) as SET. destruct N as [(m & s & G)|(k & G)]; rewrite G.
  - eapply SET; eauto. apply sets_recirculation.
  - eapply SET; eauto. apply sets_choke.
Qed.

(** ** Running *)

(** Places that running a pipeline does not look at. *)
Definition unread (S : cell -> Prop) : Prop := forall c, S c -> match c with CShaft _ | CLast _ => True | _ => False end.

Lemma speed_same : forall S h h' i, unread S -> same_except S h h' -> h_speed h i = h_speed h' i.
Proof. intros S h h' i U H. assert (X := H (CSpeed i) (fun s => U _ s)). cbn in X. congruence. Qed.

Lemma propagate_same : forall ph S h h' u s, unread S -> same_except S h h' -> propagate ph h u s = propagate ph h' u s.
Proof.
  intros ph S h h' [i k] s U H. unfold propagate. destruct k; try reflexivity.
  - unfold compressor_propagate, compressor_speed. now rewrite (speed_same S h h' i U H).
  - assert (X := H (CMix i) (fun s => U _ s)). cbn in X. replace (h_mix h' i) with (h_mix h i) by congruence. reflexivity.
  - assert (X := H (CSplit i) (fun s => U _ s)). cbn in X. replace (h_split h' i) with (h_split h i) by congruence. reflexivity.
  - assert (X := H (CChoke i) (fun s => U _ s)). cbn in X. replace (h_choke h' i) with (h_choke h i) by congruence. reflexivity.
Qed.

Lemma propagate_many_same : forall ph S h h' us s, unread S -> same_except S h h' ->
  propagate_many ph h us s = propagate_many ph h' us s.
Proof.
  intros ph S h h' us. induction us as [|u us IH]; intros s U H; [reflexivity|].
  cbn [propagate_many]. rewrite (propagate_same ph S h h' u s U H).
  destruct (propagate ph h' u s); cbn [obind]; [now apply IH|reflexivity].
Qed.

Lemma propagate_to_same : forall ph S h h' us to s, unread S -> same_except S h h' ->
  propagate_to ph h us to s = propagate_to ph h' us to s.
Proof.
  intros ph S h h' us to. induction us as [|u us IH]; intros s U H; [reflexivity|].
  cbn [propagate_to]. destruct (Nat.eqb (fst u) to); [reflexivity|]. rewrite (propagate_same ph S h h' u s U H).
  destruct (propagate ph h' u s); cbn [obind]; [now apply IH|reflexivity].
Qed.

Lemma tame_query : forall A W S (q : heap -> outcome A), (forall h h', same_except S h h' -> q h = q h') ->
  tame W S S (fun h => (q h, h)).
Proof.
  intros A W S q Q. split; [|intros h; apply same_refl]. intros h h' H. cbn [fst snd]. split; [now apply Q|auto].
Qed.

Lemma tame_run : forall W S ph r s, unread S -> tame W S S (run ph r s).
Proof. intros. apply tame_query. intros. eapply propagate_many_same; eauto. Qed.
Lemma tame_run_to : forall W S ph r s to, unread S -> tame W S S (run_to ph r s to).
Proof. intros. apply tame_query. intros. eapply propagate_to_same; eauto. Qed.
Lemma tame_range : forall W S ph i c s, unread S -> tame W S S (fun h => (recirculation_range ph h i c s, h)).
Proof.
  intros. apply tame_query. intros h h' X. unfold recirculation_range, minimum_standard_rate, maximum_standard_rate, compressor_speed.
  now rewrite (speed_same S h h' i H X).
Qed.
Lemma tame_compressor : forall W S ph i c s, unread S -> tame W S S (fun h => (compressor_propagate ph h i c s, h)).
Proof. intros. apply tame_query. intros h h' X. exact (propagate_same ph S h h' (i, Compressor c) s H X). Qed.

(** ** Searches over a tame function *)

Ltac tame_step :=
  match goal with
  | |- tame _ _ _ (ret _) => apply tame_ret
  | |- tame _ _ _ (raise _) => apply tame_raise
  | |- tame _ _ _ (lift _) => apply tame_lift
  | |- tame _ _ _ (bind _ _) => apply tame_bind1; [|intros]
  | |- tame _ _ _ (if ?b then _ else _) => destruct b
  | |- tame _ _ _ (match ?x with _ => _ end) => destruct x
  | |- tame _ _ _ (let _ := _ in _) => cbv zeta
  end.
Ltac tame_catch_step := apply tame_catch; [|let e := fresh "e" in let k := fresh "k" in let X := fresh "X" in
  intros e k X; repeat match type of X with (if ?b then _ else _) = _ => destruct b | match ?x with _ => _ end = _ => destruct x end;
  try discriminate X; injection X as <-].

Lemma tame_find_root : forall W S f t, (forall x, tame W S S (f x)) -> tame W S S (find_root t f).
Proof.
  intros W S f t F. induction t as [x|e|x k IH]; cbn [find_root]; [apply tame_ret|apply tame_raise|].
  apply tame_bind1; [apply F|intros y; apply IH].
Qed.

Lemma tame_bisect_loop : forall W S probe tol n x0 x1 l, (forall x, tame W S S (probe x)) ->
  tame W S S (@bisect_loop heap probe tol n x0 x1 l).
Proof.
  intros W S probe tol n. induction n; intros x0 x1 l F; cbn [bisect_loop]; [apply tame_ret|].
  apply tame_bind1; [apply F|intros r]. cbv zeta. destruct (Qcltb _ tol); [apply tame_ret|]. now apply IHn.
Qed.

Lemma tame_search : forall W S tol n b probe, (forall x, tame W S S (probe x)) -> tame W S S (@search heap tol n b probe).
Proof.
  intros. unfold search, bisect. apply tame_bind1; [now apply tame_bisect_loop|]. intros [x|]; [apply tame_ret|apply tame_raise].
Qed.

Lemma tame_highest : forall W S tol n b p, (forall x, tame W S S (p x)) -> tame W S S (@highest_true heap tol n b p).
Proof.
  intros W S tol n b p P. unfold highest_true, first_true. apply tame_bind1; [apply P|]. intros ok. destruct ok; [apply tame_ret|].
  apply tame_bind1; [apply P|]. intros far. destruct (negb far); [apply tame_ret|].
  apply tame_bind1; [|intros; apply tame_ret]. apply tame_bisect_loop. intros x. apply tame_bind1; [apply P|intros; apply tame_ret].
Qed.

Section Searches.
Variable W S : cell -> Prop.
Variable func : Qc -> M heap stream.
Hypothesis F : forall x, tame W S S (func x).

Lemma tame_eos_ok : forall x, tame W S S (eos_ok func x).
Proof. intros x. unfold eos_ok. tame_catch_step; repeat tame_step; apply F. Qed.
Lemma tame_bool_speed : forall x, tame W S S (bool_speed func x).
Proof. intros x. unfold bool_speed. tame_catch_step; repeat tame_step; apply F. Qed.
Lemma tame_bool_rate : forall b x, tame W S S (bool_rate func b x).
Proof. intros b x. unfold bool_rate. tame_catch_step; repeat tame_step; apply F. Qed.
Lemma tame_min_speed : forall b, tame W S S (min_capacity_speed func b).
Proof.
  intros b. unfold min_capacity_speed. tame_catch_step; repeat tame_step; try apply F. apply tame_search, tame_bool_speed.
Qed.
Lemma tame_min_rate : forall t b, tame W S S (min_capacity_rate func t b).
Proof.
  intros t b. unfold min_capacity_rate. tame_catch_step; repeat tame_step; try apply F. apply tame_search, tame_bool_rate.
Qed.
Lemma tame_max_rate : forall t b, tame W S S (max_capacity_rate func t b).
Proof.
  intros t b. unfold max_capacity_rate. tame_catch_step; repeat tame_step; try apply F. apply tame_search, tame_bool_rate.
Qed.
Lemma tame_root : forall t (g : stream -> Qc), tame W S S (find_root t (fun x => let* out := func x in ret (g out))).
Proof. intros. apply tame_find_root. intros x. apply tame_bind1; [apply F|intros; apply tame_ret]. Qed.

Lemma tame_find_speed : forall root target depth b, tame W S S (find_speed func root target depth b).
Proof.
  intros root target depth. induction depth; intros b; [apply tame_raise|].
  cbn [find_speed]. apply tame_bind1.
  - apply tame_catch; [apply tame_bind1; [apply F|intros; apply tame_ret]|].
    intros e k X. destruct e; try discriminate X; injection X as <-; try apply tame_ret.
    apply tame_bind1; [apply tame_highest, tame_eos_ok|]. intros [v|]; [|apply tame_ret].
    apply tame_bind1; [apply IHdepth|intros; apply tame_ret].
  - intros [at_max|r]; [|apply tame_ret]. destruct (Qcltb _ target); [apply tame_ret|].
    apply tame_bind1.
    + apply tame_catch; [apply tame_bind1; [apply tame_min_speed|intros; apply tame_ret]|].
      intros e k X. destruct e; try discriminate X; injection X as <-; apply tame_ret.
    + intros [[ms am]|f]; [|apply tame_ret]. destruct (Qcltb target _); [apply tame_ret|].
      destruct (Qcleb _ target && Qcleb target _); [|apply tame_raise].
      apply tame_bind1; [apply tame_root|intros; apply tame_ret].
Qed.

Lemma tame_find_rate : forall root tol target b, tame W S S (find_rate func root tol target b).
Proof.
  intros root tol target b. unfold find_rate. apply tame_bind1.
  - apply tame_catch; [apply tame_bind1; [apply tame_min_rate|intros; apply tame_ret]|].
    intros e k X. destruct e; try discriminate X; injection X as <-; apply tame_ret.
  - intros [x|f]; [|apply tame_ret]. destruct target as [c|]; [|apply tame_ret].
    apply tame_bind1; [apply tame_max_rate|intros hi]. apply tame_bind1; [apply F|intros at_min].
    destruct (below_target _ c); [apply tame_ret|]. destruct (at_target _ c); [apply tame_ret|].
    apply tame_bind1; [apply F|intros at_max].
    destruct (at_target _ c); [apply tame_ret|]. destruct (above_target _ c); [apply tame_ret|].
    apply tame_bind1; [apply tame_root|intros; apply tame_ret].
Qed.

Lemma tame_outlet_pressure : forall x, tame W S S (outlet_pressure func x).
Proof. intros. unfold outlet_pressure. apply tame_bind1; [apply F|intros; apply tame_ret]. Qed.

Lemma tame_capacity_loop : forall n lo hi e, tame W S S (capacity_loop func n lo hi e).
Proof.
  intros n. induction n; intros lo hi e; cbn [capacity_loop]; (destruct (Qcltb _ _); [|apply tame_ret]); [apply tame_raise|].
  cbv zeta. apply tame_bind1.
  - tame_catch_step; repeat tame_step; apply tame_outlet_pressure.
  - intros [e'|]; apply IHn.
Qed.

Lemma tame_find_downstream : forall target, tame W S S (find_downstream func target).
Proof. intros. unfold find_downstream. apply tame_bind1; [apply F|]. intros out. destruct (Qcltb _ _); apply tame_ret. Qed.

(** everything of find_upstream after its first probe *)
Definition upstream_rest (root : root_finder) (target : Qc) (b : boundary) (p0 : Qc) : M heap finding :=
  if Qcltb target p0 then
    let* found :=
      catch (outlet_pressure func (b_max b) ;;* ret (b_max b, None))
            (fun e => if is_one_of [StonewallError; InletPressureError] e
                      then Some (let* r := capacity_loop func (halvings (b_max b - b_min b)) (b_min b) (b_max b) e in
                                 ret (fst r, Some (snd r)))
                      else None) in
    let '(search_max, capacity_error) := found in
    let* max_pressure := outlet_pressure func search_max in
    if Qcltb target max_pressure then
      match capacity_error with
      | Some StonewallError => ret (search_max, Some StonewallFailure)
      | Some InletPressureError => ret (search_max, Some InletPressureFailure)
      | Some e => raise e
      | None => ret (search_max, Some (Unreachable max_pressure target MinAboveTarget None))
      end
    else
      let* delta := find_root (root (mk_boundary (b_min b) search_max))
                              (fun x => let* p := outlet_pressure func x in ret (p - target)) in
      ret (delta, None)
  else raise AssertionErr.

Lemma tame_upstream_rest : forall root target b p0, tame W S S (upstream_rest root target b p0).
Proof.
  intros. unfold upstream_rest. destruct (Qcltb target p0); [|apply tame_raise].
  apply tame_bind1.
  - tame_catch_step; [repeat tame_step; apply tame_outlet_pressure|].
    apply tame_bind1; [apply tame_capacity_loop|intros; apply tame_ret].
  - intros [sm ce]. apply tame_bind1; [apply tame_outlet_pressure|]. intros mp. destruct (Qcltb target mp).
    + destruct ce as [e|]; [destruct e; first [apply tame_ret|apply tame_raise]|apply tame_ret].
    + apply tame_bind1; [|intros; apply tame_ret]. apply tame_find_root. intros x.
      apply tame_bind1; [apply tame_outlet_pressure|intros; apply tame_ret].
Qed.
End Searches.

Lemma find_upstream_eq : forall func root target b h,
  find_upstream func root target b h = bind (outlet_pressure func 0) (upstream_rest func root target b) h.
Proof. reflexivity. Qed.

(** ** Strategies *)

Section Strategies.
Variable ph : physics.
Variable sec : section.
Let r := sec_runner sec.
Variable W : cell -> Prop.

Lemma tame_apply1 : forall S i v, not_single r i -> subset (cells_of r i) W -> tame W S S (apply_configuration r (i, v)).
Proof. intros. eapply tame_weaken; [now apply tame_apply|apply minus_subset]. Qed.

Lemma tame_apply_all : forall S confs, (forall c, In c confs -> not_single r (fst c) /\ subset (cells_of r (fst c)) W) ->
  tame W S S (apply_configurations r confs).
Proof.
  intros S confs. induction confs as [|[i v] confs IH]; intros H; [apply tame_ret|].
  cbn [apply_configurations]. apply tame_bind1.
  - apply tame_apply1; apply (H (i, v)); now left.
  - intros _. apply IH. intros c I. apply H. now right.
Qed.

Lemma cells_of_all_cons : forall i l c, cells_of_all r (i :: l) c <-> cells_of r i c \/ cells_of_all r l c.
Proof.
  intros i l c. split.
  - intros (j & [<-|J] & X); [now left|right; exists j; auto].
  - intros [X|(j & J & X)]; [exists i; split; [now left|exact X]|exists j; split; [now right|exact X]].
Qed.

Lemma tame_reset_all : forall l S, (forall i, In i l -> settable r i) -> subset (cells_of_all r l) W ->
  tame W S (minus S (cells_of_all r l)) (reset_all sec l).
Proof.
  induction l as [|i l IH]; intros S H HW; cbn [reset_all].
  - eapply tame_weaken; [apply tame_ret|]. intros c X. split; [exact X|]. intros (j & [] & _).
  - eapply tame_bind; [apply minus_subset|apply tame_reset|].
    + apply H. now left.
    + intros c X. apply HW. apply cells_of_all_cons. now left.
    + intros _. eapply tame_weaken; [apply IH|].
      * intros j J. apply H. now right.
      * intros c X. apply HW. apply cells_of_all_cons. now right.
      * intros c [[X Y] Z]. split; [exact X|]. intros Q. apply cells_of_all_cons in Q. tauto.
Qed.

Lemma tame_range_at : forall S inlet c, unread S -> tame W S S (range_at ph sec inlet c).
Proof. intros. unfold range_at. apply tame_bind1; [now apply tame_run_to|intros; now apply tame_range]. Qed.

Lemma tame_set_rate : forall S l x, settable r l -> subset (cells_of r l) W -> tame W S (minus S (cells_of r l)) (set_rate sec l x).
Proof. intros. unfold set_rate. apply tame_apply; [now apply settable_not_single|assumption]. Qed.

Lemma tame_with_rate : forall S inlet l x, unread (minus S (cells_of r l)) -> settable r l -> subset (cells_of r l) W ->
  tame W S (minus S (cells_of r l)) (with_rate ph sec inlet l x).
Proof.
  intros. unfold with_rate. eapply tame_bind; [apply minus_subset|now apply tame_set_rate|]. intros _. now apply tame_run.
Qed.

Lemma tame_stages : forall S inlet choose ps, unread S ->
  (forall p, In p ps -> settable r (fst p) /\ subset (cells_of r (fst p)) W) ->
  tame W S S (stages ph sec inlet choose ps).
Proof.
  intros S inlet choose ps U. induction ps as [|[l c] ps IH]; intros H; cbn [stages]; [apply tame_ret|].
  apply tame_bind1; [now apply tame_range_at|]. intros b. apply tame_bind1.
  - eapply tame_weaken; [apply tame_set_rate; apply (H (l, c)); now left|apply minus_subset].
  - intros _. apply tame_bind1; [|intros; apply tame_ret]. apply IH. intros p P. apply H. now right.
Qed.

Lemma in_combine_loops : forall (loops : list handler_id) (cs : list compressor) p, In p (combine loops cs) -> In (fst p) loops.
Proof. intros loops cs [a b] H. now apply in_combine_l in H. Qed.

(** the configurations an anti-surge strategy returns are for its own loops *)
Lemma stages_handlers : forall inlet choose ps h confs h', stages ph sec inlet choose ps h = (Return confs, h') ->
  map fst confs = map fst ps.
Proof.
  intros inlet choose ps. induction ps as [|[l c] ps IH]; intros h confs h' H; cbn [stages] in H.
  - cbv [ret] in H. injection H as <- <-. reflexivity.
  - unfold bind in H. destruct (range_at ph sec inlet c h) as [[b|e] h1]; [|discriminate].
    destruct (set_rate sec l (choose b) h1) as [[u|e] h2]; [|discriminate].
    destruct (stages ph sec inlet choose ps h2) as [[cs|e] h3] eqn:E; [|discriminate].
    cbv [ret] in H. injection H as <- <-. cbn [map fst]. f_equal. eapply IH. exact E.
Qed.

Lemma map_fst_combine : forall (A B : Type) (l : list A) (k : list B) x, In x (map fst (combine l k)) -> In x l.
Proof. intros A B l k x H. apply in_map_iff in H. destruct H as ([a b] & <- & H). now apply in_combine_l in H. Qed.

Lemma anti_surge_confs : forall inlet a h s h', anti_surge_apply ph sec inlet a h = (Return s, h') ->
  forall c, In c (sol_configuration s) -> In (fst c) (anti_surge_handlers a).
Proof.
  intros inlet a h s h' H c C. destruct a as [|loops cs|l c0]; cbn [anti_surge_apply anti_surge_handlers] in *.
  - cbv [ret] in H. injection H as <- <-. destruct C.
  - unfold bind in H. destruct (anti_surge_reset sec (ASIndividual loops cs) h) as [[u|e] h1]; [|discriminate].
    destruct (stages ph sec inlet b_min (combine loops cs) h1) as [[confs|e] h2] eqn:E; [|discriminate].
    cbv [ret] in H. injection H as <- <-. cbn [sol_configuration] in C.
    apply stages_handlers in E. apply (in_map fst) in C. rewrite E in C. now apply map_fst_combine in C.
  - unfold bind in H. destruct (anti_surge_reset sec (ASCommon l c0) h) as [[u|e] h1]; [|discriminate].
    destruct (range_at ph sec inlet c0 h1) as [[b|e] h2]; [|discriminate].
    destruct (find_rate _ _ _ _ b h2) as [[f|e] h3]; [|discriminate].
    cbv [ret] in H. injection H as <- <-. destruct C as [<-|[]]. now left.
Qed.

(** [bind] when the continuation needs to know that the value was returned by the first computation. *)
Lemma tame_bind_known : forall A B S T U (m : M heap A) (k : A -> M heap B),
  subset T S -> tame W S T m -> (forall a h h', m h = (Return a, h') -> tame W T U (k a)) -> tame W S U (bind m k).
Proof.
  intros A B S T U m k X [D F] K. split.
  - intros h h' H. destruct (D h h' H) as (E & H1 & H2). unfold bind.
    destruct (m h) as [[a|e] h1] eqn:M1, (m h') as [[a'|e'] h2]; cbn [fst snd] in *; try discriminate.
    + injection E as <-. destruct (K a _ _ M1) as [DK _]. destruct (DK h1 h2 (H2 a eq_refl)) as (E' & G1 & G2).
      split; [exact E'|split; [|exact G2]]. eapply same_weaken; eauto.
    + injection E as <-. split; [reflexivity|split; [exact H1|discriminate]].
  - intros h. specialize (F h). unfold bind. destruct (m h) as [[a|e] h1] eqn:M1; cbn [fst snd] in *; [|exact F].
    eapply same_trans; [exact F|apply (proj2 (K a _ _ M1))].
Qed.

Variable S2 : cell -> Prop.
Hypothesis U2 : unread S2.

Lemma tame_anti_reset : forall S a, (forall i, In i (anti_surge_handlers a) -> settable r i) ->
  subset (cells_of_all r (anti_surge_handlers a)) W ->
  tame W S (minus S (cells_of_all r (anti_surge_handlers a))) (anti_surge_reset sec a).
Proof.
  intros S a H HW. destruct a as [|loops cs|l c]; cbn [anti_surge_reset anti_surge_handlers] in *.
  - eapply tame_weaken; [apply tame_ret|]. intros c X. split; [exact X|]. intros (j & [] & _).
  - now apply tame_reset_all.
  - eapply tame_weaken; [apply tame_reset|].
    + apply H. now left.
    + intros c' X. apply HW. exists l. split; [now left|exact X].
    + intros c' [X Y]. split; [exact X|]. intros (j & [<-|[]] & Z). contradiction.
Qed.

Lemma tame_anti_apply : forall S inlet a, (forall i, In i (anti_surge_handlers a) -> settable r i) ->
  subset (cells_of_all r (anti_surge_handlers a)) W ->
  subset (minus S (cells_of_all r (anti_surge_handlers a))) S2 -> subset S2 S ->
  tame W S S2 (anti_surge_apply ph sec inlet a).
Proof.
  intros S inlet a H HW HS HS'.
  assert (R : tame W S S2 (anti_surge_reset sec a)).
  { eapply tame_weaken; [now apply tame_anti_reset|exact HS]. }
  destruct a as [|loops cs|l c]; cbn [anti_surge_apply anti_surge_handlers] in *.
  - eapply tame_weaken; [apply tame_ret|]. intros c X. apply HS. split; [exact X|]. intros (j & [] & _).
  - eapply tame_bind; [exact HS'|exact R|]. intros _.
    apply tame_bind1; [|intros; apply tame_ret]. apply tame_stages; [exact U2|].
    intros p P. apply in_combine_loops in P. split; [now apply H|]. intros c X. apply HW. exists (fst p). auto.
  - eapply tame_bind; [exact HS'|exact R|]. intros _.
    apply tame_bind1; [now apply tame_range_at|]. intros b.
    apply tame_bind1; [|intros; apply tame_ret]. apply tame_find_rate. intros x.
    eapply tame_weaken; [apply tame_with_rate|apply minus_subset].
    + intros c' [X _]. now apply U2.
    + apply H. now left.
    + intros c' X. apply HW. exists l. split; [now left|exact X].
Qed.
End Strategies.

(** Charts from files: the order of the rows does not matter, nor whether the curves are in a file or in the model file. *)
From Coq Require Import PeanoNat String Lia.
From Verif Require Import QcTac Base BaseLemmas Input_Model Chart_Model Files_Model Files_Spec Files_Proofs Files_Proofs2 Files_Proofs3.
Local Open Scope list_scope.
Local Open Scope Qc_scope.

Lemma increasing_same : forall l m, StronglySorted Qclt l -> StronglySorted Qclt m -> (forall x, In x l <-> In x m) -> l = m.
Proof.
  induction l as [|a l IH]; intros m L M E.
  - destruct m as [|b m]; [reflexivity|]. destruct (proj2 (E b) (or_introl eq_refl)).
  - destruct m as [|b m]; [destruct (proj1 (E a) (or_introl eq_refl))|]. inversion L as [|? ? L1 L2]. inversion M as [|? ? M1 M2]. subst. rewrite Forall_forall in L2, M2.
    assert (a = b) as <-.
    { destruct (proj1 (E a) (or_introl eq_refl)) as [W|W]; [symmetry; exact W|]. destruct (proj2 (E b) (or_introl eq_refl)) as [V|V]; [exact V|].
      exfalso. apply M2 in W. apply L2 in V. exact (Qclt_not_le _ _ W (Qclt_le_weak _ _ V)). }
    f_equal. apply IH; auto. intros x. split; intros I.
    + destruct (proj1 (E x) (or_intror I)) as [<-|W]; [|exact W]. exfalso. exact (Qclt_not_eq _ _ (L2 _ I) eq_refl).
    + destruct (proj2 (E x) (or_intror I)) as [<-|W]; [|exact W]. exfalso. exact (Qclt_not_eq _ _ (M2 _ I) eq_refl).
Qed.
Lemma sorted_speeds : forall cs, StronglySorted (fun a b => cv_speed a < cv_speed b) cs -> StronglySorted Qclt (map cv_speed cs).
Proof. induction 1 as [|c cs _ IH H]; constructor; [exact IH|]. apply Forall_forall. intros x I. apply in_map_iff in I as (d & <- & I). rewrite Forall_forall in H. apply H. exact I. Qed.
Lemma pick_permutation : forall s rows rows', Permutation rows rows' -> Permutation (pick s rows) (pick s rows').
Proof.
  intros s rows rows' P. unfold pick. apply Permutation_map. induction P as [|x l m _ IH|x y l|l m n _ IH1 _ IH2]; cbn [filter].
  - constructor.
  - destruct (Qceqb (fst x) s); [constructor|]; exact IH.
  - destruct (Qceqb (fst y) s); destruct (Qceqb (fst x) s); try apply perm_swap; apply Permutation_refl.
  - exact (Permutation_trans IH1 IH2).
Qed.
Lemma determined_proof : forall u rows rows' cs cs', curves_of u rows cs -> curves_of u rows' cs' -> Permutation rows rows' -> Forall2 same_curve cs cs'.
Proof.
  intros u rows rows' cs cs' (S & I & T) (S' & I' & T') P.
  assert (map cv_speed cs = map cv_speed cs') as E.
  { apply increasing_same; try (apply sorted_speeds; assumption). intros x. rewrite <- I, <- I'. split; apply Permutation_in; apply Permutation_map; [exact P|exact (Permutation_sym P)]. }
  clear S S' I I'. revert cs' T' E. induction cs as [|c cs IH]; intros [|c' cs'] T' E; try discriminate E; constructor.
  - injection E as E _. split; [exact E|]. destruct (T c (or_introl eq_refl)) as (ps & A & qs & B & C & _). destruct (T' c' (or_introl eq_refl)) as (ps' & A' & qs' & B' & C' & _).
    apply pick_spec in A, A'. apply made_list in B, B'. subst. apply (Permutation_trans (Permutation_sym C)). apply (Permutation_trans (l' := map (made u) (pick (cv_speed c') rows'))); [|exact C'].
    apply Permutation_map. rewrite E. apply pick_permutation. exact P.
  - injection E as _ E. apply IH; auto; intros d D; [apply T|apply T']; right; exact D.
Qed.
Lemma pick_app : forall s a b, pick s (a ++ b) = pick s a ++ pick s b.
Proof. intros s a b. unfold pick. rewrite filter_app, map_app. reflexivity. Qed.
Lemma pick_one : forall s t ps, pick s (map (fun p => (t, p)) ps) = if Qceqb t s then ps else [].
Proof.
  intros s t ps. unfold pick. induction ps as [|p ps IH]; [destruct (Qceqb t s); reflexivity|]. cbn [map filter fst]. destruct (Qceqb t s); cbn [map snd]; [f_equal|]; exact IH.
Qed.
Lemma pick_written : forall ys rows, rows_written ys rows -> NoDup (map yc_speed ys) -> (forall s, ~ In s (map yc_speed ys) -> pick s rows = []) /\
  forall y ps, In y ys -> written_points y ps -> pick (yc_speed y) rows = ps.
Proof.
  induction 1 as [|y ys ps rows W _ IH]; intros N; [split; [reflexivity|intros y ps []]|]. cbn [map] in N. inversion N as [|? ? N1 N2]. subst. destruct (IH N2) as [A B]. split.
  - intros s I. rewrite pick_app, pick_one, A by (intros X; apply I; right; exact X). destruct (Qceqb (yc_speed y) s) eqn:E; [|reflexivity]. apply Qceqb_eq in E. exfalso. apply I. left. exact E.
  - intros z qs [<-|I] Z; rewrite pick_app, pick_one.
    + rewrite (proj2 (Qceqb_eq _ _) eq_refl), (A _ N1), app_nil_r. destruct W as (R & H & F), Z as (R' & H' & F'). rewrite R in R'. rewrite H in H'. rewrite F in F'. clear - R' H' F'.
      revert qs R' H' F'. induction ps as [|[[a b] c] ps IH]; intros [|[[a' b'] c'] qs] R H F; try discriminate R; [reflexivity|]. injection R as -> R. injection H as -> H. injection F as -> F. f_equal. apply IH; assumption.
    + rewrite (B z qs I Z). destruct (Qceqb (yc_speed y) (yc_speed z)) eqn:E; [|reflexivity]. apply Qceqb_eq in E. exfalso. apply N1. rewrite E. apply in_map. exact I.
Qed.
Lemma Forall2_right : forall A B (P : A -> B -> Prop) l m b, Forall2 P l m -> In b m -> exists a, In a l /\ P a b.
Proof. intros A B P l m b H. induction H as [|x y l m p _ IH]; intros I; [destruct I|]. destruct I as [<-|I]; [exists x; split; [left; reflexivity|exact p]|]. destruct (IH I) as (a & X & Y). exists a. split; [right; exact X|exact Y]. Qed.
Lemma written_curves_proof : forall ys u rows cs, NoDup (map yc_speed ys) -> rows_written ys rows -> from_yaml_curves ys u = Ok cs -> curves_of u rows cs.
Proof.
  intros ys u rows cs N W E. destruct (yaml_curves_proof ys u cs E) as (S & mm & P & F). destruct (pick_written ys rows W N) as [A B].
  assert (map cv_speed mm = map yc_speed ys) as M by (clear - F; induction F as [|y c ys cs (H & _) _ IH]; cbn; congruence).
  split; [|split].
  - apply strictly_ordered; [exact S|]. apply (Permutation_NoDup (Permutation_map cv_speed P)). rewrite M. exact N.
  - intros s. transitivity (In s (map yc_speed ys)).
    + rewrite pick_In. split.
      * intros X. destruct (in_dec Qc_eq_dec s (map yc_speed ys)) as [I|I]; [exact I|]. exfalso. apply X. apply A. exact I.
      * intros I. apply in_map_iff in I as (y & <- & I). destruct (proj1 (yaml_accepted_proof ys u) (ex_intro _ cs E) y I) as (ps & X & L & _). rewrite (B y ps I X). destruct ps; [cbn in L; lia|discriminate].
    + rewrite <- M. split; apply Permutation_in; apply Permutation_map; [exact P|exact (Permutation_sym P)].
  - intros c I. apply (Permutation_in _ (Permutation_sym P)) in I. destruct (Forall2_right _ _ _ _ _ _ F I) as (y & Y & E1 & ps & X & T). exists ps. split; [|exact T].
    apply pick_spec. rewrite E1. symmetry. apply B; assumption.
Qed.

(** The difference of two dicts. *)
From Coq Require Import PeanoNat Lia QArith.Qcanon.
From Verif Require Import Base BaseLemmas Subtract_Model Subtract_Spec.
Local Open Scope list_scope.

Lemma loop_ok : forall K (eqb : K -> K -> bool) this that delta, (forall a b, eqb a b = true <-> a = b) -> dict this -> (forall k, In k (map fst this) -> In k (map fst that)) ->
  exists d, subtract_loop eqb this that delta = Difference d /\
    forall k, dict_get eqb k d = match dict_get eqb k this with Some v => match dict_get eqb k that with Some w => Some (v - w)%Qc | None => None end | None => dict_get eqb k delta end.
Proof.
  intros K eqb this that delta Q. revert delta. induction this as [|[k v] this IH]; intros delta D S; cbn [subtract_loop].
  - exists delta. split; reflexivity.
  - inversion D as [|? ? N D']; subst. destruct (dict_get eqb k that) as [w|] eqn:W; [|exfalso; apply (dict_get_None _ _ eqb k that Q) in W; apply W, S; left; reflexivity].
    destruct (IH (dict_set eqb k (v - w)%Qc delta) D' (fun x I => S x (or_intror I))) as (d & E & G). exists d. split; [exact E|]. intros x. rewrite G. cbn [dict_get]. destruct (eqb x k) eqn:X.
    + apply Q in X as ->. rewrite W. apply (dict_get_None _ _ eqb k this Q) in N. rewrite N. rewrite dict_get_set by exact Q. rewrite (proj2 (Q k k) eq_refl). reflexivity.
    + destruct (dict_get eqb x this); [reflexivity|]. rewrite dict_get_set by exact Q. rewrite X. reflexivity.
Qed.
Lemma loop_missing : forall K (eqb : K -> K -> bool) this that delta k, (forall a b, eqb a b = true <-> a = b) -> subtract_loop eqb this that delta = MissingKey k -> In k (map fst this) /\ ~ In k (map fst that).
Proof.
  intros K eqb this that delta k Q. revert delta. induction this as [|[x v] this IH]; intros delta; cbn [subtract_loop]; [discriminate|].
  destruct (dict_get eqb x that) as [w|] eqn:W.
  - intros E. destruct (IH _ E). split; [right; assumption|assumption].
  - intros E. injection E as ->. split; [left; reflexivity|]. apply (dict_get_None _ _ eqb k that Q). exact W.
Qed.
Lemma loop_not : forall K (eqb : K -> K -> bool) this that delta, match subtract_loop eqb this that delta with Incompatible | DifferentLengths => False | _ => True end.
Proof. intros K eqb this that. induction this as [|[x v] this IH]; intros delta; cbn [subtract_loop]; [exact I|]. destruct (dict_get eqb x that); [apply IH|exact I]. Qed.

Lemma same_length : forall K (d d' : list (K * Qc)), dict d -> dict d' -> same_keys d d' -> List.length d = List.length d'.
Proof.
  intros K d d' D D' S. rewrite <- (map_length fst d), <- (map_length fst d'). apply Nat.le_antisymm; apply NoDup_incl_length; try assumption; intros k I; apply S; exact I.
Qed.
Lemma subtracts : forall K (eqb : K -> K -> bool) this that, (forall a b, eqb a b = true <-> a = b) -> dict this -> dict that -> same_keys this that ->
  exists d, elementwise_subtraction_by_key eqb (Some this) (Some that) = Difference d /\
    forall k, dict_get eqb k d = match dict_get eqb k this, dict_get eqb k that with Some v, Some w => Some (v - w)%Qc | _, _ => None end.
Proof.
  intros K eqb this that Q D D' S. unfold elementwise_subtraction_by_key. rewrite (same_length _ _ _ D D' S), Nat.eqb_refl. cbn [negb].
  destruct (loop_ok K eqb this that [] Q D (fun k => proj1 (S k))) as (d & E & G). exists d. split; [exact E|]. intros k. rewrite G. destruct (dict_get eqb k this); reflexivity.
Qed.
Lemma only_same_keys : forall K (eqb : K -> K -> bool) this that d, (forall a b, eqb a b = true <-> a = b) -> dict this -> dict that ->
  elementwise_subtraction_by_key eqb (Some this) (Some that) = Difference d -> same_keys this that.
Proof.
  intros K eqb this that d Q D D'. unfold elementwise_subtraction_by_key. destruct (Nat.eqb_spec (List.length this) (List.length that)) as [L|L]; cbn [negb]; [|discriminate]. intros E.
  assert (S : incl (map fst this) (map fst that)).
  { clear D D' L. generalize dependent (@nil (K * Qc)). induction this as [|[k v] this IH]; intros delta E; [intros x []|]. cbn [subtract_loop] in E. destruct (dict_get eqb k that) as [w|] eqn:W; [|discriminate E]. intros x [<-|I]; [|exact (IH _ E x I)]. apply (dict_get_In _ _ eqb k w that Q) in W. exact (in_map fst _ _ W). }
  assert (S' : incl (map fst that) (map fst this)) by (apply NoDup_length_incl; [exact D|rewrite !map_length; lia|exact S]).
  intros k. split; [apply S|apply S'].
Qed.
Lemma missing_named : forall K (eqb : K -> K -> bool) this that k, (forall a b, eqb a b = true <-> a = b) ->
  elementwise_subtraction_by_key eqb (Some this) (Some that) = MissingKey k -> In k (map fst this) /\ ~ In k (map fst that).
Proof.
  intros K eqb this that k Q. unfold elementwise_subtraction_by_key. destruct (negb _); [discriminate|]. apply loop_missing. exact Q.
Qed.
Lemma reversed : forall K (eqb : K -> K -> bool) this that d d', (forall a b, eqb a b = true <-> a = b) -> dict this -> dict that ->
  elementwise_subtraction_by_key eqb (Some this) (Some that) = Difference d -> elementwise_subtraction_by_key eqb (Some that) (Some this) = Difference d' ->
  forall k, dict_get eqb k d' = option_map Qcopp (dict_get eqb k d).
Proof.
  intros K eqb this that d d' Q D D' E E' k. pose proof (only_same_keys _ _ _ _ _ Q D D' E) as S. pose proof (only_same_keys _ _ _ _ _ Q D' D E') as S'.
  destruct (subtracts _ _ _ _ Q D D' S) as (x & X & G). destruct (subtracts _ _ _ _ Q D' D S') as (y & Y & G'). rewrite E in X. injection X as <-. rewrite E' in Y. injection Y as <-. rewrite G, G'.
  destruct (dict_get eqb k this), (dict_get eqb k that); cbn [option_map]; try reflexivity. f_equal. ring.
Qed.

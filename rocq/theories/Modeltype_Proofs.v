(** The types of energy usage models over time. *)
From Coq Require Import PeanoNat String Lia.
From Verif Require Import Base BaseLemmas Modeltype_Model Modeltype_Spec.
Local Open Scope list_scope.

Lemma collect_spec : forall models types, NoDup types -> NoDup (collect_types models types) /\ forall t, In t (collect_types models types) <-> In t types \/ exists time, In (time, t) models.
Proof.
  induction models as [|[time s] models IH]; intros types N; cbn [collect_types].
  - split; [exact N|]. intros t. split; [auto|]. intros [I|(x & [])]. exact I.
  - assert (M : forall l, In s l -> (forall t, In t l <-> In t types \/ t = s) -> forall t, (In t l \/ (exists x, In (x, t) models)) <-> (In t types \/ exists x, In (x, t) ((time, s) :: models))).
    { intros l I L t. rewrite L. split.
      - intros [[J| ->]|(x & J)]; [left; exact J|right; exists time; left; reflexivity|right; exists x; right; exact J].
      - intros [J|(x & [E|J])]; [auto|injection E as _ ->; auto|right; exists x; exact J]. }
    destruct (existsb (String.eqb s) types) eqn:E.
    + apply existsb_exists in E as (y & I & Y). apply String.eqb_eq in Y as <-. destruct (IH types N) as [N' S]. split; [exact N'|]. intros t. rewrite S. apply M; [exact I|]. intros x. split; [auto|]. intros [J| ->]; assumption.
    + assert (I : ~ In s types) by (intros I; assert (T : existsb (String.eqb s) types = true) by (apply existsb_exists; exists s; split; [exact I|apply String.eqb_refl]); congruence).
      destruct (IH (types ++ [s])) as [N' S].
      { clear - N I. induction types as [|a types IHt]; [repeat constructor; intros []|]. inversion N as [|? ? A B]; subst. cbn. constructor; [|apply IHt; [exact B|intros J; apply I; right; exact J]]. intros J. apply in_app_or in J as [J|[->|[]]]; [contradiction|]. apply I. left. reflexivity. }
      split; [exact N'|]. intros t. rewrite S. apply M; [apply in_or_app; right; left; reflexivity|]. intros x. rewrite in_app_iff. cbn. intuition congruence.
Qed.
Lemma accepted_same_type : forall model, validate_energy_usage_models model = None <-> forall t t', has_type model t -> has_type model t' -> t = t'.
Proof.
  intros [s|models]; cbn; [split; [congruence|reflexivity]|]. destruct (collect_spec models [] (NoDup_nil _)) as [N S]. destruct (collect_types models []) as [|a [|b l]]; cbn.
  - split; [|reflexivity]. intros _ t t' H _. destruct (proj2 (S t) (or_intror H)).
  - split; [|reflexivity]. intros _ t t' H H'. destruct (proj2 (S t) (or_intror H)) as [<-|[]]. destruct (proj2 (S t') (or_intror H')) as [<-|[]]. reflexivity.
  - split; [discriminate|]. intros A. exfalso. destruct (proj1 (S a) (or_introl eq_refl)) as [[]|Ha]. destruct (proj1 (S b) (or_intror (or_introl eq_refl))) as [[]|Hb]. pose proof (A a b Ha Hb) as ->. inversion N as [|? ? X _]. apply X. left. reflexivity.
Qed.
Lemma types_listed : forall model types, validate_energy_usage_models model = Some types -> NoDup types /\ (2 <= List.length types)%nat /\ forall t, In t types <-> has_type model t.
Proof.
  intros [s|models] types; cbn [validate_energy_usage_models]; [discriminate|]. destruct (collect_spec models [] (NoDup_nil _)) as [N S]. destruct (Nat.ltb_spec 1 (List.length (collect_types models []))) as [L|L]; [|discriminate]. intros E. injection E as <-.
  split; [exact N|]. split; [lia|]. intros t. rewrite S. cbn. split; [intros [[]|H]; exact H|auto].
Qed.

(** The names under which emissions are reported. *)
From Coq Require Import Ascii PeanoNat String.
From Verif Require Import QcTac Num Base BaseLemmas Time_Model Units_Model Rates_Model Expr_Model Vars_Model Input_Model Energy_Model
  Emitters_Model Emitters_Spec Emitters_Proofs Emitters_Proofs2 Emitters_Proofs3.
Local Open Scope list_scope.

Definition capital (c : ascii) : bool := (Nat.leb 65 (nat_of_ascii c) && Nat.leb (nat_of_ascii c) 90)%bool.
Definition find_index (c : ascii) (l : list ascii) : option nat := index_of Ascii.eqb c l.
Lemma lower_ascii_check : forall c,
  match find_index c (list_ascii_of_string "ABCDEFGHIJKLMNOPQRSTUVWXYZ") with
  | Some i => match nth_error (list_ascii_of_string "ABCDEFGHIJKLMNOPQRSTUVWXYZ") i, nth_error (list_ascii_of_string "abcdefghijklmnopqrstuvwxyz") i with
              | Some a, Some b => (Ascii.eqb a c && Ascii.eqb b (lower_ascii c))%bool
              | _, _ => false
              end
  | None => (Ascii.eqb c (lower_ascii c) && negb (existsb (Ascii.eqb c) (list_ascii_of_string "ABCDEFGHIJKLMNOPQRSTUVWXYZ")))%bool
  end = true.
Proof. intros c. destruct c as [[] [] [] [] [] [] [] []]; vm_compute; reflexivity. Qed.
Lemma lower_ascii_small : forall c, small_letter c (lower_ascii c).
Proof.
  intros c. pose proof (lower_ascii_check c) as H.
  destruct (find_index c _) as [i|].
  - left. exists i.
    destruct (nth_error (list_ascii_of_string "ABCDEFGHIJKLMNOPQRSTUVWXYZ") i) as [a|]; [|discriminate H].
    destruct (nth_error (list_ascii_of_string "abcdefghijklmnopqrstuvwxyz") i) as [b|]; [|discriminate H].
    apply Bool.andb_true_iff in H. destruct H as [H1 H2]. apply Ascii.eqb_eq in H1, H2. subst a b. split; reflexivity.
  - right. apply Bool.andb_true_iff in H. destruct H as [H1 H2]. apply Ascii.eqb_eq in H1. split; [|symmetry; exact H1].
    intros I. apply Bool.negb_true_iff in H2.
    assert (X : existsb (Ascii.eqb c) (list_ascii_of_string "ABCDEFGHIJKLMNOPQRSTUVWXYZ") = true).
    { apply existsb_exists. exists c. split; [exact I|apply Ascii.eqb_refl]. }
    rewrite X in H2. discriminate H2.
Qed.
Lemma lower_small : forall s, in_lower_case s (lower s).
Proof.
  intros s. unfold in_lower_case. induction s as [|c s IH]; [constructor|].
  cbn [lower list_ascii_of_string]. constructor; [apply lower_ascii_small|exact IH].
Qed.

Lemma string_eqb_iff : forall a b, String.eqb a b = true <-> a = b.
Proof. intros a b. apply String.eqb_eq. Qed.

Lemma dict_set_keys : forall {V} k (v : V) d x, In x (map fst (dict_set String.eqb k v d)) <-> x = k \/ In x (map fst d).
Proof.
  intros V k v d x. induction d as [|[a b] d IH].
  - cbn. intuition.
  - cbn [dict_set]. destruct (String.eqb k a) eqn:E.
    + apply String.eqb_eq in E. subst a. cbn. intuition.
    + cbn [map fst In]. rewrite IH. intuition.
Qed.

(** a loop that adds one entry to the dictionary for each emission *)
Lemma loop_keys : forall {E} (name : E -> string) (add : result (list (string * series num)) -> E -> result (list (string * series num))) es acc d,
  (forall acc e d, add acc e = Ok d -> exists d0 s, acc = Ok d0 /\ d = dict_set String.eqb (name e) s d0) ->
  fold_left add es acc = Ok d ->
  exists d0, acc = Ok d0 /\ forall x, In x (map fst d) <-> In x (map fst d0) \/ In x (map name es).
Proof.
  intros E name add es. induction es as [|e es IH]; intros acc d H F.
  - cbn in F. exists d. split; [exact F|]. intros x. cbn. tauto.
  - cbn [fold_left] in F. destruct (IH _ d H F) as [d1 [E1 K1]].
    destruct (H acc e d1 E1) as [d0 [s [E0 Ed]]]. exists d0. split; [exact E0|].
    intros x. rewrite K1, Ed, dict_set_keys. cbn [map In]. intuition.
Qed.

Lemma with_regularity_keys : forall vm reg l d, with_regularity vm reg l = Ok d -> map fst d = map fst l.
Proof.
  intros vm reg l d E. unfold with_regularity in E. destruct (regularity_series vm reg) as [r|]; [|discriminate E]. cbn [bind] in E.
  apply mapM_Ok in E. induction E as [|a b l d H E IH]; [reflexivity|]. cbn [map]. rewrite IH. f_equal.
  destruct (rate_from_stream_day (snd a) r); [|discriminate H]. cbn [bind] in H. injection H as <-. reflexivity.
Qed.

Lemma names_lower : forall {A} (given : list (string * A)) (names : list string),
  (forall x, In x names <-> In x (map (fun g => lower (fst g)) given)) ->
  (forall name, In name names -> exists g r, In (g, r) given /\ in_lower_case g name) /\
  (forall g r, In (g, r) given -> exists name, In name names /\ in_lower_case g name).
Proof.
  intros A given names K. split.
  - intros name I. apply K in I. apply in_map_iff in I. destruct I as [[g r] [E I]].
    exists g, r. split; [exact I|]. rewrite <- E. apply lower_small.
  - intros g r I. exists (lower g). split; [|apply lower_small]. apply K, in_map_iff. exists (g, r). split; [reflexivity|exact I].
Qed.

(** C97: every emission is reported under the name given for it, in lower case. *)
Lemma direct_names_proof : forall pow vm reg (given : list (string * rate_input)) d,
  direct_get_emissions pow vm reg (map (fun g => make_venting_emission (fst g) (snd g)) given) = Ok d ->
  (forall name, In name (map fst d) -> exists g r, In (g, r) given /\ in_lower_case g name) /\
  (forall g r, In (g, r) given -> exists name, In name (map fst d) /\ in_lower_case g name).
Proof.
  intros pow vm reg given d E. unfold direct_get_emissions in E.
  destruct (direct_emissions pow vm reg _) as [l|] eqn:D; [|discriminate E]. cbn [bind] in E.
  apply names_lower. rewrite (with_regularity_keys vm reg l d E). unfold direct_emissions in D.
  apply (loop_keys fst) in D.
  - destruct D as [d0 [E0 K]]. injection E0 as <-. intros x. rewrite K, map_map. cbn. tauto.
  - intros acc e dd H. rewrite add_direct_eq in H. destruct acc as [d0|]; [|discriminate H]. cbn [bind] in H.
    destruct (direct_one pow vm reg (snd e)) as [s|]; [|discriminate H]. cbn [bind] in H. injection H as <-.
    exists d0, s. split; reflexivity.
Qed.

(** C98: every emission is reported under the name given for it, in lower case. *)
Lemma oil_names_proof : forall pow vm reg volume (given : list (string * list token)) d,
  oil_get_emissions pow vm reg volume (map (fun g => make_volume_emission (fst g) (snd g)) given) = Ok d ->
  (forall name, In name (map fst d) -> exists g r, In (g, r) given /\ in_lower_case g name) /\
  (forall g r, In (g, r) given -> exists name, In name (map fst d) /\ in_lower_case g name).
Proof.
  intros pow vm reg volume given d E. unfold oil_get_emissions in E.
  destruct (oil_emissions pow vm reg volume _) as [l|] eqn:D; [|discriminate E]. cbn [bind] in E.
  apply names_lower. rewrite (with_regularity_keys vm reg l d E). unfold oil_emissions in D.
  destruct (oil_rates pow vm reg volume) as [oil|]; [|discriminate D]. cbn [bind] in D.
  apply (loop_keys fst) in D.
  - destruct D as [d0 [E0 K]]. injection E0 as <-. intros x. rewrite K, map_map. cbn. tauto.
  - intros acc e dd H. unfold add_oil in H. destruct acc as [d0|]; [|discriminate H]. cbn [bind] in H.
    destruct (vm_evaluate pow vm (snd e)) as [f|]; [|discriminate H]. cbn [bind] in H. cbv zeta in H.
    destruct (unit_to KILO_PER_DAY TONS_PER_DAY) as [cv|]; [|discriminate H]. cbn [bind] in H.
    destruct (make_series _ _ _) as [s|] in H; [|discriminate H]. cbn [bind] in H. injection H as <-.
    exists d0, s. split; reflexivity.
Qed.

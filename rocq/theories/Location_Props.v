(** Property C156: the place of an error. *)
From Coq Require Import PeanoNat String Ascii Lia.
From Verif Require Import Base Location_Model Location_Spec Location_Proofs.
Local Open Scope list_scope.

(** Two places that are shown the same are the same, if names are not empty, have no separator and do not look like dates. *)
Theorem C156_shown_once : forall keys keys', Forall proper keys -> Forall proper keys' -> as_dot_separated keys = as_dot_separated keys' -> keys = keys'.
Proof. exact shown_once. Qed.
Print Assumptions C156_shown_once.

(** A name with a dot in it is shown as two names. *)
Theorem C156_dots_refuted : exists a b c, as_dot_separated [Name a] = as_dot_separated [Name b; Name c] /\ b <> [] /\ c <> [].
Proof. exact dots_refuted. Qed.
Print Assumptions C156_dots_refuted.

(** A name that looks like a date is shown as that date. *)
Theorem C156_dates_refuted : exists a s d, proper (Name a) /\ proper_day d /\ (forall c, In c s -> ~ separator c) /\ as_dot_separated [Name a; Name s] = as_dot_separated [Name a; Date d].
Proof. exact dates_refuted. Qed.
Print Assumptions C156_dates_refuted.

(** ** Cases *)
Definition C156_keys : list key := [Name (list_ascii_of_string "FACILITY_INPUTS"); Position 10; Date (mkDay 2020 1 31); Name (list_ascii_of_string "FILE")].
Example C156_case : as_dot_separated C156_keys = list_ascii_of_string "FACILITY_INPUTS[10].2020-01-31.FILE".
Proof. reflexivity. Qed.
Example C156_case_proper : Forall proper C156_keys.
Proof.
  assert (P : forall s, s = "FACILITY_INPUTS"%string \/ s = "FILE"%string -> proper (Name (list_ascii_of_string s))).
  { intros s [-> | ->]; (split; [discriminate|split; [|intros d _ E; discriminate E]]); cbn; intros c I [-> | ->]; repeat (destruct I as [I|I]; [discriminate I|]); exact I. }
  apply Forall_cons; [apply P; left; reflexivity|]. apply Forall_cons; [exact I|]. apply Forall_cons; [cbn [proper]; unfold proper_day; cbn [d_year d_month d_day]; lia|]. apply Forall_cons; [apply P; right; reflexivity|apply Forall_nil].
Qed.

(** Property C157: expressions that change at dates. *)
From Coq Require Import PeanoNat Sorted Lia.
From Verif Require Import Base Time_Model Convert_Model Convert_Spec Convert_Proofs.
Local Open Scope list_scope.

(** With the dates in order, the expression used at a time is the one given at the last date that is not after it. *)
Theorem C157_in_force : forall raw expression (setup : raw -> result expression) latest items l t, in_order items -> convert_expression setup latest (AtDates items) = Ok (Many l) -> t < latest ->
  (forall r, in_force items t r -> exists p e, In (p, e) l /\ during p t /\ setup r = Ok e) /\
  (forall p e, In (p, e) l -> during p t -> exists r, in_force items t r /\ setup r = Ok e).
Proof. exact in_force_used. Qed.
Print Assumptions C157_in_force.

(** With the dates in order, no time is in two periods. *)
Theorem C157_one_period : forall raw expression (setup : raw -> result expression) latest items l t p e p' e', in_order items -> convert_expression setup latest (AtDates items) = Ok (Many l) ->
  In (p, e) l -> In (p', e') l -> during p t -> during p' t -> p = p'.
Proof. exact one_period. Qed.
Print Assumptions C157_one_period.

(** With dates out of order another expression than the one given last is used. *)
Theorem C157_order_refuted : exists (items : list (datetime * nat)) l t r e, convert_expression (fun r : nat => Ok r) 100 (AtDates items) = Ok (Many l) /\ in_force items t r /\
  (exists p, In (p, e) l /\ during p t) /\ e <> r /\ forall p, In (p, r) l -> ~ during p t.
Proof. exact order_refuted. Qed.
Print Assumptions C157_order_refuted.

(** ** Cases *)
Example C157_case : convert_expression (fun r : nat => Ok r) 100 (AtDates [(10, 1%nat); (20, 2%nat)]) = Ok (Many [(mkPeriod 10 20, 1%nat); (mkPeriod 20 100, 2%nat)]).
Proof. reflexivity. Qed.
Example C157_case_order : in_order [(10, 1%nat); (20, 2%nat)] /\ in_force [(10, 1%nat); (20, 2%nat)] 15 1%nat.
Proof.
  split; [unfold in_order; cbn [map fst]; apply SSorted_cons; [apply SSorted_cons; [apply SSorted_nil|apply Forall_nil]|apply Forall_cons; [lia|apply Forall_nil]]|].
  exists 10. split; [left; reflexivity|]. split; [lia|]. intros d r [E|[E|[]]] L; injection E as <- <-; lia.
Qed.

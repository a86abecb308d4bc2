(** The sampled compressor: what is refused. *)
From Coq Require Import PeanoNat.
From Verif Require Import QcTac Base BaseLemmas Num Interp_Model Interp_Spec Interp_Proofs Sampled_Model Sampled_Spec Sampled_Proofs Sampled_Proofs5 Sampled_Proofs6 Sampled_Proofs7 Sampled_Proofs8.
Local Open Scope list_scope.
Local Open Scope Qc_scope.

Theorem constant_table : forall g s, acceptable s -> only_vary s [] -> make_sampled g s = Err NotImplementedErr.
Proof.
  intros g s A H. unfold make_sampled. pose proof (proj2 (acceptable_ok s) A) as B. rewrite !andb_true_iff in B. destruct B as [[-> ->] ->]. cbn [negb].
  destruct (varying_list s A) as (r & p & d & E & Hr & Hp & Hd). unfold make_core. rewrite E.
  assert (r = false) as -> by (destruct r; [exfalso; apply (H RATE); now apply Hr|reflexivity]).
  assert (p = false) as -> by (destruct p; [exfalso; apply (H PS); now apply Hp|reflexivity]).
  assert (d = false) as -> by (destruct d; [exfalso; apply (H PD); now apply Hd|reflexivity]). reflexivity.
Qed.
Theorem max_rate_two : forall g s m sp, make_sampled g s = Ok m -> column_varies (sm_rate s) -> ~ only_vary s [RATE] ->
  get_max_standard_rate m sp = Err TypeError.
Proof.
  intros g s m sp Hm Hv Hn. destruct (make_sampled_inv g s m Hm) as (A & Ec & Es & _).
  destruct (varying_list s A) as (r & p & d & E & Hr & Hp & Hd).
  assert (r = true) as -> by now apply Hr.
  assert (p = true \/ d = true) as Hpd.
  { destruct p; [now left|]. destruct d; [now right|]. exfalso. apply Hn. intros v. cbn [In].
    destruct v; cbn [sm_column]; [tauto|rewrite <- Hp|rewrite <- Hd]; (split; [intros [Q|[]]; discriminate|discriminate]). }
  unfold make_core in Ec. rewrite E in Ec. destruct Hv as (l & _ & _ & El & _). unfold get_max_standard_rate. rewrite Es, El.
  destruct p, d; cbn [filter] in Ec.
  - destruct (g_solid g _ _); [|discriminate]. injection Ec as <-. reflexivity.
  - destruct (make_rate_ps g _ _); [|discriminate]. injection Ec as <-. reflexivity.
  - destruct (make_rate_pd g _ _); [|discriminate]. injection Ec as <-. reflexivity.
  - destruct Hpd; discriminate.
Qed.

(** The rate that is reported is the one that was looked up: a positive rate is reported 1e-15 lower. *)
Theorem reported_rate : forall m rate ps pd res k, evaluate_sampled m rate ps pd = Ok res ->
  (forall r, requested rate k r -> 0 < r -> nth_error (sr_rate res) k = Some (Some (r - tiny))) /\
  (forall r, requested rate k r -> r <= 0 -> nth_error (sr_rate res) k = Some (Some r)) /\
  (rate = None -> forall u, nth_error (sr_usage res) k = Some u -> nth_error (sr_rate res) k = Some None).
Proof.
  intros m rate ps pd res k He. unfold evaluate_sampled in He. destruct (interpolated_values m rate ps pd) as [us|]; [|discriminate]. cbn [bind] in He.
  destruct (fuel_to_power (sa_samples m)) as [t|]; [|discriminate]. cbn [bind] in He. injection He as <-. cbn [sr_rate sr_usage]. split; [|split].
  - intros r (l & -> & Hk) L. rewrite nth_error_map, Hk. cbn. unfold shift_rate. replace (Qcltb 0 r) with true by (symmetry; now apply Qcltb_lt). reflexivity.
  - intros r (l & -> & Hk) L. rewrite nth_error_map, Hk. cbn. unfold shift_rate. replace (Qcltb 0 r) with false by (symmetry; now apply Qcltb_ge). reflexivity.
  - intros -> u Hu. rewrite nth_error_map, Hu. reflexivity.
Qed.

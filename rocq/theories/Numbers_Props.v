(** Property C50 (number formatting): theorems. *)
From Coq Require Import String Qround.
From Verif Require Import QcTac Num Flash_Model Base Numbers_Model Numbers_Spec Numbers_Proofs2.
Local Open Scope list_scope.
Local Open Scope Qc_scope.

(** ** C50 Formatting to a precision is correct rounding *)

(** What is refused. *)
Theorem C50_refused : forall x precision,
  (format_to_precision x precision = Err ValueError <-> (precision < -1)%Z) /\
  ((-1 <= precision)%Z -> exists t, format_to_precision x precision = Ok t).
Proof. exact format_error_proof. Qed.
Print Assumptions C50_refused.

(** Every number is printed with no more decimals than are kept, without superfluous zeros, and within half a unit of the
    last kept decimal. *)
Theorem C50_close : forall x precision, (0 <= precision)%Z ->
  exists t, format_to_precision x precision = Ok t /\ tidy t /\
    forall n, decimals_kept x precision n ->
      (Z.of_nat (List.length (tx_fraction t)) <= n)%Z /\ Qcabs (float_of_text t - x) <= qc 1 2 / qz (10 ^ n).
Proof. exact format_proof. Qed.
Print Assumptions C50_close.

(** Formatting the printed number again prints the same text, except that a printed "-0" becomes "0". *)
Theorem C50_idempotent : forall x precision t, (0 <= precision)%Z -> format_to_precision x precision = Ok t ->
  exists u, format_to_precision (float_of_text t) precision = Ok u /\ float_of_text u = float_of_text t /\
    (float_of_text t <> 0 -> u = t).
Proof. exact idempotent_proof. Qed.
Print Assumptions C50_idempotent.
Theorem C50_minus_zero_refuted : exists x precision t u, (0 <= precision)%Z /\ format_to_precision x precision = Ok t /\
  format_to_precision (float_of_text t) precision = Ok u /\ u <> t.
Proof. exact minus_zero_refuted_proof. Qed.
Print Assumptions C50_minus_zero_refuted.

(** A text is determined by its sign and its value, so equal numbers are printed alike. *)
Theorem C50_text_unique : forall t u, tidy t -> tidy u -> tx_negative t = tx_negative u -> float_of_text t = float_of_text u -> t = u.
Proof. exact text_unique_proof. Qed.
Print Assumptions C50_text_unique.

(** Integers other than zero are printed as they are. *)
Theorem C50_integer : forall k precision, (0 <= precision)%Z -> k <> 0%Z ->
  exists t, format_to_precision (qz k) precision = Ok t /\ float_of_text t = qz k /\ tx_fraction t = [].
Proof. exact integer_proof. Qed.
Print Assumptions C50_integer.

(** The guard admits a precision of -1, for which the error is no longer bounded by half a unit. *)
Theorem C50_precision_refuted : exists x t, format_to_precision x (-1) = Ok t /\ float_of_text t = 0 /\ x = 1.
Proof. exact precision_refuted_proof. Qed.
Print Assumptions C50_precision_refuted.

(** Whole results: every float, and nothing else, is replaced by its rounded value; rounding twice is rounding once. *)
Theorem C50_results : forall precision t, (0 <= precision)%Z ->
  exists t', round_tree precision t = Ok t' /\ rounded precision t t' /\ round_tree precision t' = Ok t'.
Proof. exact results_proof. Qed.
Print Assumptions C50_results.

(** *** Examples: 3.1415288, 31.415, 0.1, 999.96, 0.001, 1234.5 and 1235.5 with two digits, and the hypotheses of the theorems
    for them *)
Example C50_examples : map (fun x => format_to_precision x 2) [qc 31415288 10000000; qc 31415 1000; qc 1 10; qc 99996 100; qc 1 1000; qc 12345 10; qc 12355 10; - qc 98765 1000000]
  = [Ok (mkText false 3 [1; 4]); Ok (mkText false 31 [4]); Ok (mkText false 0 [1]); Ok (mkText false 1000 []); Ok (mkText false 0 []);
     Ok (mkText false 1234 []); Ok (mkText false 1236 []); Ok (mkText true 0 [1])]%Z.
Proof. vm_compute. reflexivity. Qed.
Example C50_example_kept : decimals_kept (qc 31415 1000) 2 1.
Proof. right. exists 1%Z. split; [lia|]. split; [discriminate|]. split; reflexivity. Qed.
Example C50_example_tree :
  match round_tree 2 (TModel [("a"%string, TList [TFloat (qc 31415288 10000000); TOther 1]); ("b"%string, TDict [("c"%string, TFloat (qc 1 1000))])]) with
  | Ok (TModel [(_, TList [TFloat x; TOther _]); (_, TDict [(_, TFloat y)])]) => Qceqb x (qc 314 100) && Qceqb y 0
  | _ => false
  end = true.
Proof. vm_compute. reflexivity. Qed.

(** Property C148: versions. *)
From Coq Require Import PeanoNat NArith Ascii String.
From Verif Require Import Base Version_Model Version_Spec Version_Proofs.
Local Open Scope list_scope.
Local Open Scope N_scope.

(** A text is read as the version it is, and as 0.0.0 if it is none. *)
Theorem C148_read : forall t v, (List.length t <= 4300)%nat ->
  (from_string (Some t) = Ok v <-> is_version t v \/ ((major v = 0 /\ minor v = 0 /\ patch v = 0) /\ ~ exists w, is_version t w)).
Proof. exact versions_read. Qed.
Print Assumptions C148_read.

(** A version that was written is read as the same version, also with a v in front. *)
Theorem C148_round_trip : forall v t p, to_string v = Ok t -> p = [] \/ p = ["v"%char] \/ p = ["V"%char] -> from_string (Some (p ++ t)) = Ok v.
Proof. exact printed_read. Qed.
Print Assumptions C148_round_trip.

(** What is written is that version. *)
Theorem C148_written : forall v t, to_string v = Ok t -> is_version t v.
Proof. exact printed_is_version. Qed.
Print Assumptions C148_written.

(** Versions are ordered by their first number that differs, and all six comparisons agree with this order. *)
Theorem C148_order : (forall v w, (lt v w = true <-> older v w) /\ (gt v w = true <-> older w v) /\ (le v w = true <-> older v w \/ v = w) /\ (ge v w = true <-> older w v \/ v = w) /\
               (eq v w = true <-> v = w) /\ (ne v w = true <-> v <> w)) /\
  (forall v, ~ older v v) /\ (forall u v w, older u v -> older v w -> older u w) /\ (forall v w, older v w \/ v = w \/ older w v).
Proof. exact order_of_versions. Qed.
Print Assumptions C148_order.

(** 10.0.0-rc1 is read as 0.0.0, like no version at all, and so is older than 2.0. *)
Theorem C148_invalid_refuted : exists t u v w, (* 10.0.0-rc1 and 2.0 *)
  t = ["1"; "0"; "."; "0"; "."; "0"; "-"; "r"; "c"; "1"]%char /\ u = ["2"; "."; "0"]%char /\
  from_string (Some t) = Ok v /\ from_string (Some u) = Ok w /\ older v w /\ from_string None = Ok v.
Proof. exact invalid_refuted. Qed.
Print Assumptions C148_invalid_refuted.

(** A number with more than 4300 digits is an error of Python, not 0.0.0. *)
Theorem C148_long_refuted : exists t v, is_version t v /\ from_string (Some t) = Err ValueError.
Proof. exact long_refuted. Qed.
Print Assumptions C148_long_refuted.

(** ** Cases *)
Example C148_case_read : map (fun t => from_string (Some (list_ascii_of_string t))) ["v8.21"; "10"; "1.02.3"; "1.2.3.4"; ""; "1."]%string =
  [Ok (mkVersion 8 21 0); Ok (mkVersion 10 0 0); Ok (mkVersion 1 2 3); Ok zero_version; Ok zero_version; Ok zero_version].
Proof. vm_compute. reflexivity. Qed.
Example C148_case_write : to_string (mkVersion 10 0 305) = Ok (list_ascii_of_string "10.0.305").
Proof. vm_compute. reflexivity. Qed.
Example C148_case_order : older (mkVersion 9 12 0) (mkVersion 10 2 0) /\ lt (mkVersion 9 12 0) (mkVersion 10 2 0) = true.
Proof. split; [left; reflexivity|reflexivity]. Qed.

(** C131: charts that are read from files or written in the model file. *)
From Coq Require Import PeanoNat String Lia.
From Verif Require Import QcTac Base BaseLemmas Input_Model Chart_Model Files_Model Files_Spec Files_Proofs Files_Proofs2 Files_Proofs3 Files_Proofs4.
Local Open Scope list_scope.
Local Open Scope Qc_scope.

(** ** A file with several speeds: which files are accepted, and the curves *)
Theorem C131_variable_accepted : forall f u, proper_file f ->
  ((exists cs, from_resource f u false = Ok cs) <->
   only_numbers f /\ (forall name, In name ["SPEED"; "RATE"; "HEAD"; "EFFICIENCY"]%string -> In name (f_headers f)) /\
   exists rows, rows_are f rows /\ rows_ok u rows).
Proof. exact variable_accepted_proof. Qed.
Print Assumptions C131_variable_accepted.
Theorem C131_variable_curves : forall f u rows cs, proper_file f -> rows_are f rows -> from_resource f u false = Ok cs -> curves_of u rows cs.
Proof. exact variable_curves_proof. Qed.
Print Assumptions C131_variable_curves.
(** ** A file with one speed *)
Theorem C131_single_accepted : forall f u, proper_file f ->
  ((exists cs, from_resource f u true = Ok cs) <->
   exists rows s, single_rows_are f rows /\ (forall r, In r rows -> fst r = s) /\ points_ok u (map snd rows)).
Proof. exact single_accepted_proof. Qed.
Print Assumptions C131_single_accepted.
Theorem C131_single_curves : forall f u rows cs, proper_file f -> single_rows_are f rows -> from_resource f u true = Ok cs ->
  exists c, cs = [c] /\ (forall r, In r rows -> fst r = cv_speed c) /\ curve_through u (map snd rows) c.
Proof. exact single_curves_proof. Qed.
Print Assumptions C131_single_curves.
(** ** Curves in the model file *)
Theorem C131_written_accepted : forall ys u, (exists cs, from_yaml_curves ys u = Ok cs) <-> forall y, In y ys -> exists ps, written_points y ps /\ points_ok u ps.
Proof. exact yaml_accepted_proof. Qed.
Print Assumptions C131_written_accepted.
Theorem C131_written_curves : forall ys u cs, from_yaml_curves ys u = Ok cs ->
  StronglySorted (fun a b => cv_speed a <= cv_speed b) cs /\
  exists made, Permutation made cs /\ Forall2 (fun y c => cv_speed c = yc_speed y /\ exists ps, written_points y ps /\ curve_through u ps c) ys made.
Proof. exact yaml_curves_proof. Qed.
Print Assumptions C131_written_curves.
(** ... which are, when the speeds differ, the curves of a file that says the same *)
Theorem C131_written_as_file : forall ys u rows cs, NoDup (map yc_speed ys) -> rows_written ys rows -> from_yaml_curves ys u = Ok cs -> curves_of u rows cs.
Proof. exact written_curves_proof. Qed.
Print Assumptions C131_written_as_file.
(** ** The curves are determined by the rows in any order. *)
Theorem C131_determined : forall u rows rows' cs cs', curves_of u rows cs -> curves_of u rows' cs' -> Permutation rows rows' -> Forall2 same_curve cs cs'.
Proof. exact determined_proof. Qed.
Print Assumptions C131_determined.

(** Two speeds, rows in no order, head in metres and efficiency in percent *)
Definition C131_numbers (l : list Z) : list (option Qc) := map (fun z => Some (qz z)) l.
Definition C131_file : file := mkFile ["RATE"; "SPEED"; "HEAD"; "EFFICIENCY"]%string
  [C131_numbers [300; 100; 200; 400]; C131_numbers [7000; 5000; 5000; 7000]; C131_numbers [900; 1000; 800; 700]; C131_numbers [75; 50; 60; 70]]%Z.
Definition C131_rows : list row := [(qz 7000, (qz 300, qz 900, qz 75)); (qz 5000, (qz 100, qz 1000, qz 50)); (qz 5000, (qz 200, qz 800, qz 60)); (qz 7000, (qz 400, qz 700, qz 70))].
Definition C131_check (cs : list curve) (expected : list (Qc * list (Qc * Qc * Qc))) : bool :=
  Nat.eqb (List.length cs) (List.length expected) &&
  forallb (fun ce => Qceqb (cv_speed (fst ce)) (fst (snd ce)) && Nat.eqb (List.length (cv_points (fst ce))) (List.length (snd (snd ce))) &&
    forallb (fun pq => Qceqb (p_rate (fst pq)) (p_rate (snd pq)) && Qceqb (p_head (fst pq)) (p_head (snd pq)) && Qceqb (p_eff (fst pq)) (p_eff (snd pq))) (combine (cv_points (fst ce)) (snd (snd ce))))
    (combine cs expected).
Lemma C131_proper : forall f n, NoDup (f_headers f) -> List.length (f_columns f) = List.length (f_headers f) -> (0 < n)%nat -> forallb (fun c => Nat.eqb (List.length c) n) (f_columns f) = true -> proper_file f.
Proof. intros f n A B C D. constructor; [exact A|exact B|]. exists n. split; [exact C|]. intros c I. rewrite forallb_forall in D. apply Nat.eqb_eq. exact (D c I). Qed.
Ltac C131_names := repeat (constructor; [cbn; intuition discriminate|]); constructor.
Ltac C131_rows_are := repeat split; apply float_column; reflexivity.
Example C131_case : proper_file C131_file /\ rows_are C131_file C131_rows /\ exists cs, from_resource C131_file default_units false = Ok cs /\
  C131_check cs [(qz 5000, [(qz 100, qz 9810, qc 1 2); (qz 200, qz 7848, qc 3 5)]); (qz 7000, [(qz 300, qz 8829, qc 3 4); (qz 400, qz 6867, qc 7 10)])] = true.
Proof.
  split; [apply (C131_proper _ 4); [C131_names|reflexivity|lia|reflexivity]|]. split; [C131_rows_are|].
  destruct (from_resource C131_file default_units false) as [cs|] eqn:E; [|vm_compute in E; discriminate E]. exists cs. split; [reflexivity|]. vm_compute in E. injection E as <-. vm_compute. reflexivity.
Qed.
(** the rows are acceptable, and so is a file with one of the speeds *)
Example C131_case_ok : rows_ok default_units C131_rows /\ (exists cs, from_resource (mkFile ["Rate"; "Head"; "Efficiency"]%string [C131_numbers [300; 100]; C131_numbers [900; 1000]; C131_numbers [75; 50]]%Z) default_units true = Ok cs /\
  C131_check cs [(1, [(qz 100, qz 9810, qc 1 2); (qz 300, qz 8829, qc 3 4)])] = true).
Proof.
  split.
  - destruct C131_case as (P & R & cs & E & _). destruct (proj1 (variable_accepted_proof C131_file default_units P) (ex_intro _ cs E)) as (_ & _ & rows & R' & K).
    rewrite (rows_unique C131_file _ _ R R'). exact K.
  - destruct (from_resource _ default_units true) as [cs|] eqn:E; [|vm_compute in E; discriminate E]. exists cs. split; [reflexivity|]. vm_compute in E. injection E as <-. vm_compute. reflexivity.
Qed.

(** "The case of the headers does not matter" is true for one speed and false for several: the same file is refused, and with a
    KeyError that is no validation error if it is another header than SPEED. *)
Theorem C131_header_case_refuted : exists f g u rows, proper_file f /\ proper_file g /\ rows_are f rows /\ rows_are g rows /\ rows_ok u rows /\ only_numbers f /\ only_numbers g /\
  (exists c, from_resource f u true = Ok c) /\ from_resource f u false = Err ValidationError /\ from_resource g u false = Err KeyError.
Proof.
  exists (mkFile ["Speed"; "Rate"; "Head"; "Efficiency"]%string [C131_numbers [1; 1]; C131_numbers [3; 4]; C131_numbers [9; 7]; C131_numbers [75; 70]]%Z),
    (mkFile ["SPEED"; "Rate"; "HEAD"; "EFFICIENCY"]%string [C131_numbers [1; 1]; C131_numbers [3; 4]; C131_numbers [9; 7]; C131_numbers [75; 70]]%Z), default_units,
    [(1, (qz 3, qz 9, qz 75)); (1, (qz 4, qz 7, qz 70))].
  split; [apply (C131_proper _ 2); [C131_names|reflexivity|lia|reflexivity]|]. split; [apply (C131_proper _ 2); [C131_names|reflexivity|lia|reflexivity]|].
  split; [C131_rows_are|]. split; [C131_rows_are|]. split.
  { intros s [<-|[<-|[]]]; (exists [(qz 3, qz 9, qz 75); (qz 4, qz 7, qz 70)]; split; [repeat constructor|]; split; [cbn; lia|]; intros p [<-|[<-|[]]]; apply efficiency_spec; split; vm_compute; discriminate). }
  split; [apply columns_numbers; eexists; vm_compute; reflexivity|]. split; [apply columns_numbers; eexists; vm_compute; reflexivity|].
  split; [eexists; vm_compute; reflexivity|]. split; vm_compute; reflexivity.
Qed.
Print Assumptions C131_header_case_refuted.
(** "Only the columns of the chart are read" is true for one speed and false for several: a column of texts, which is not used, is refused. *)
Theorem C131_other_columns_refuted : exists f u rows, proper_file f /\ rows_are f rows /\ rows_ok u rows /\ (forall name, In name ["SPEED"; "RATE"; "HEAD"; "EFFICIENCY"]%string -> In name (f_headers f)) /\
  (exists c, from_resource f u true = Ok c) /\ from_resource f u false = Err ValidationError.
Proof.
  exists (mkFile ["SPEED"; "RATE"; "HEAD"; "EFFICIENCY"; "REMARK"]%string [C131_numbers [1; 1]; C131_numbers [3; 4]; C131_numbers [9; 7]; C131_numbers [75; 70]; [None; None]]%Z), default_units,
    [(1, (qz 3, qz 9, qz 75)); (1, (qz 4, qz 7, qz 70))].
  split; [apply (C131_proper _ 2); [C131_names|reflexivity|lia|reflexivity]|]. split; [C131_rows_are|]. split.
  { intros s [<-|[<-|[]]]; (exists [(qz 3, qz 9, qz 75); (qz 4, qz 7, qz 70)]; split; [repeat constructor|]; split; [cbn; lia|]; intros p [<-|[<-|[]]]; apply efficiency_spec; split; vm_compute; discriminate). }
  split; [intros name I; cbn in *; tauto|]. split; [eexists; vm_compute; reflexivity|vm_compute; reflexivity].
Qed.
Print Assumptions C131_other_columns_refuted.
(** "A chart has one curve for each speed" is false for curves in the model file: two of one speed are accepted. *)
Theorem C131_same_speed_refuted : exists ys u c d, from_yaml_curves ys u = Ok [c; d] /\ cv_speed c = cv_speed d /\ cv_points c <> cv_points d.
Proof.
  exists [mkYamlCurve 1 [qz 1; qz 2] [qz 9; qz 8] [qz 50; qz 60]; mkYamlCurve 1 [qz 1; qz 2] [qz 90; qz 80] [qz 50; qz 60]], default_units.
  eexists. eexists. split; [vm_compute; reflexivity|]. split; [reflexivity|]. discriminate.
Qed.
Print Assumptions C131_same_speed_refuted.

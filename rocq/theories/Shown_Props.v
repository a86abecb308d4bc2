(** Property C146: the charts in the results. *)
From Coq Require Import PeanoNat Lia.
From Verif Require Import QcTac Base Interp_Spec Chart_Model Chart_Spec Compressor_Spec Shown_Model Shown_Spec Shown_Proofs.
Local Open Scope list_scope.
Local Open Scope Qc_scope.

(** A user-defined chart is shown with its own curves in order of speed, its margin and the line of the margin. *)
Theorem C146_user : forall cs m, (forall c, In c cs -> showable c) -> (forall q, m = Some q -> 0 <= q /\ q <= 1) ->
  exists d, show_chart (UserDefined cs m) = Ok d /\ by_speed cs (cd_curves d) /\ cd_margin d = m /\ cd_design_rate d = None /\ cd_design_head d = None /\
    ((m = None \/ m = Some 0 \/ cs = []) -> cd_line d = None) /\
    (forall q, m = Some q -> 0 < q -> cs <> [] -> exists line, cd_line d = Some line /\ Forall2 (margin_point q) (cd_curves d) line).
Proof. exact user_chart_shown. Qed.
Print Assumptions C146_user.

(** A generic chart is shown with its curves and its design point. *)
Theorem C146_generic : forall cs r h, (forall c, In c cs -> showable c) -> 0 <= r -> 0 <= h ->
  show_chart (Generic cs r h) = Ok (mkChartDto cs None None (Some r) (Some h)).
Proof. exact generic_chart_shown. Qed.
Print Assumptions C146_generic.

(** Charts with negative numbers or efficiencies that are not above 0 are never shown. *)
Theorem C146_only : forall d shown c, show_chart d = Ok shown -> (exists cs m, d = UserDefined cs m /\ In c cs) \/ (exists cs r h, d = Generic cs r h /\ In c cs) ->
  0 <= cv_speed c /\ (2 <= List.length (cv_points c))%nat /\ forall p, In p (cv_points c) -> 0 <= p_rate p /\ 0 <= p_head p /\ 0 < p_eff p /\ p_eff p <= 1.
Proof. exact only_showable. Qed.
Print Assumptions C146_only.

(** A curve with an efficiency of 0 is accepted for a compressor, but its results cannot be made. *)
Theorem C146_zero_efficiency_refuted : exists rates heads efficiencies speed c, make_curve rates heads efficiencies speed = Ok c /\ proper_curve c /\ NoDup (cv_rate c) /\
  (forall p, In p (cv_points c) -> 0 <= p_rate p /\ 0 <= p_head p) /\ 0 <= cv_speed c /\ show_chart (UserDefined [c] None) = Err ValidationError.
Proof. exact zero_efficiency_refuted. Qed.
Print Assumptions C146_zero_efficiency_refuted.

(** ** A case: two curves, the faster given first, and a margin of a half *)
Definition C146_fast : curve := mkCurve [(qz 20, qz 80, qc 7 10); (qz 40, qz 40, qc 8 10)] (qz 200).
Definition C146_slow : curve := mkCurve [(qz 10, qz 30, qc 6 10); (qz 20, qz 10, qc 8 10)] (qz 100).
Example C146_case_showable : showable C146_fast /\ showable C146_slow.
Proof.
  split; (split; [split; [cbn; lia|split]|split; [|split]]).
  all: try (cbn; repeat constructor; try (apply Qcleb_le; vm_compute; reflexivity); cbn; intuition discriminate).
  all: try (apply Qcleb_le; vm_compute; reflexivity).
  all: try (cbn; intros e [<-|[<-|[]]]; split; apply Qcleb_le; vm_compute; reflexivity).
  all: cbn; intros p [<-|[<-|[]]]; (split; [apply Qcleb_le; vm_compute; reflexivity|split; [apply Qcleb_le; vm_compute; reflexivity|apply Qcltb_lt; vm_compute; reflexivity]]).
Qed.
Example C146_case : exists d, show_chart (UserDefined [C146_fast; C146_slow] (Some (qc 1 2))) = Ok d /\ cd_curves d = [C146_slow; C146_fast] /\
  option_map (map (fun p => (p_rate p, p_head p))) (cd_line d) = Some [(qz 15, qz 20); (qz 30, qz 60)].
Proof. eexists. split; [vm_compute; reflexivity|]. split; vm_compute; reflexivity. Qed.

(** Property C58 (cached flashes): theorems. *)
From Coq Require Import List Bool ZArith.
From Verif Require Import QcTac Num Base Search_Model Stream_Model Cache_Model Flash_Model Flash_Spec Flash_Proofs Flash_Proofs2.
Import ListNotations.
Local Open Scope list_scope.
Local Open Scope Qc_scope.

(** Whatever was asked before, by whichever threads, and whatever the sizes of the caches: an answer is the fresh calculation
    for the same request, or for a request of this run that agrees with it to six decimals. *)
Theorem C58_answers : forall (Sys : Type) (E : @engine Sys) (ref_size flash_size : Z) (programs : list (list request)) (s : @state Sys) i w r x,
  (0 <= ref_size)%Z -> (0 <= flash_size)%Z -> wsteps E (wstart ref_size flash_size programs) s ->
  nth_error (workers s) i = Some w -> In (r, x) (w_answers w) ->
  exists r', In r' (concat programs) /\ (r' = r \/ same_flash r' r) /\ fresh_answer E (concat programs) r' x.
Proof. exact cached_answers_proof. Qed.
Print Assumptions C58_answers.

(** When no two different requests agree to that precision, every answer is the one without caches. *)
Theorem C58_transparent : forall (Sys : Type) (E : @engine Sys) (ref_size flash_size : Z) (programs : list (list request)) (s : @state Sys) i w r x,
  (0 <= ref_size)%Z -> (0 <= flash_size)%Z -> told_apart E (concat programs) -> wsteps E (wstart ref_size flash_size programs) s ->
  nth_error (workers s) i = Some w -> In (r, x) (w_answers w) -> In r (concat programs) -> x = plain_answer E r.
Proof. exact transparent_proof. Qed.
Print Assumptions C58_transparent.

(** In general it is not: a second flash a ten-millionth of a bar away gets the answer of the first. *)
Theorem C58_transparent_refuted : exists (E : @engine (Qc * Qc * Qc)) (requests : list request) s w r x,
  accurate E /\ wsteps E (wstart 5 5 [requests]) s /\ nth_error (workers s) 0 = Some w /\
  In (r, x) (w_answers w) /\ x <> plain_answer E r.
Proof. exact transparent_refuted_proof. Qed.
Print Assumptions C58_transparent_refuted.

(** How far off: with an engine that ends at the conditions asked for, a TP answer is within a millionth of a bar and of a kelvin. *)
Theorem C58_pt_accuracy : forall (Sys : Type) (E : @engine Sys) (ref_size flash_size : Z) (programs : list (list request)) (s : @state Sys) i w m p t a,
  (0 <= ref_size)%Z -> (0 <= flash_size)%Z -> accurate E -> wsteps E (wstart ref_size flash_size programs) s ->
  nth_error (workers s) i = Some w -> In (FlashPT m p t, Return (AProperties a)) (w_answers w) ->
  within_millionth (p_pressure a) p /\ within_millionth (p_temperature a) t.
Proof. exact pt_accuracy_proof. Qed.
Print Assumptions C58_pt_accuracy.

(** A PH answer, cached or not and with any engine, has been validated: positive state, enthalpy on target. *)
Theorem C58_ph_accuracy : forall (Sys : Type) (E : @engine Sys) (ref_size flash_size : Z) (programs : list (list request)) (s : @state Sys) i w m p h g a,
  (0 <= ref_size)%Z -> (0 <= flash_size)%Z -> wsteps E (wstart ref_size flash_size programs) s ->
  nth_error (workers s) i = Some w -> In (FlashPH m p h g, Return (AProperties a)) (w_answers w) ->
  0 < p_pressure a /\ 0 < p_temperature a /\ 0 < p_density a /\ 0 < p_z a /\ 0 < p_kappa a /\ 0 < p_standard_density a /\
  Qcabs (p_enthalpy a - h) <= Qcmax (qz 10) (Qcabs h * qc 1 10000) + qc 2 1000000 /\
  (accurate E -> within_millionth (p_pressure a) p).
Proof. exact ph_accuracy_proof. Qed.
Print Assumptions C58_ph_accuracy.

(** Cases.  The run of [toy_requests] reaches answers to all of them. *)
Example C58_case : wsteps toy_engine (wstart 5 5 [toy_requests]) toy_final /\
  option_map (fun w => length (w_answers w)) (nth_error (workers toy_final) 0) = Some 3%nat /\ accurate toy_engine.
Proof. split; [exact toy_reached|]. split; [vm_compute; reflexivity|exact toy_accurate]. Qed.

Example C58_transparent_case : told_apart toy_engine [FlashPT toy_model (qz 10) (qz 300); FlashPT toy_model (qz 20) (qz 300); FlashPT toy_model (qz 10) (qz 300)].
Proof.
  assert (Hd : six_decimals (qz 10) <> six_decimals (qz 20)).
  { intros H. apply (f_equal (fun x => Qnum (this x))) in H. vm_compute in H. discriminate. }
  assert (Hm : forall m, used_model toy_engine [FlashPT toy_model (qz 10) (qz 300); FlashPT toy_model (qz 20) (qz 300); FlashPT toy_model (qz 10) (qz 300)] m -> m = toy_model).
  { intros m [[r [Hr Hq]]|[f [gas [Hf _]]]].
    - destruct Hr as [<-|[<-|[<-|[]]]]; cbn [request_model] in Hq; congruence.
    - destruct Hf as [H|[H|[H|[]]]]; discriminate. }
  split.
  - intros m m' H H' _. rewrite (Hm m H), (Hm m' H'). reflexivity.
  - intros r r' Hr Hr' H. destruct Hr as [<-|[<-|[<-|[]]]]; destruct Hr' as [<-|[<-|[<-|[]]]]; try reflexivity;
      cbn [same_flash] in H; destruct H as [_ [H _]]; exfalso; apply Hd; congruence.
Qed.

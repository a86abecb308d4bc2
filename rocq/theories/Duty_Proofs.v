(** Proofs about the pump process simulations of a model file. *)
From Coq Require Import PeanoNat String.
From Verif Require Import QcTac Base BaseLemmas Num Time_Model Time_Spec Time_Proofs Time_Proofs2 Units_Model Rates_Model Rates_Proofs4 Expr_Model Expr_Spec
  Vars_Model Vars_Proofs Vars_Proofs2 Input_Model Energy_Model Energy_Proofs3 Emitters_Spec Chart_Model Chart_Spec Pump_Model Pump_Spec Pump_Proofs
  Consumer_Model Consumer_Spec Consumer_Proofs2 Consumer_Proofs5 Equipment_Model Equipment_Spec Equipment_Proofs2 Duty_Model Duty_Spec.
Local Open Scope list_scope.
Local Open Scope Qc_scope.

(** ** A stream given by its volume *)
Lemma day_volume : forall x d : Qc, d <> 0 -> x * d / qz 24 / d * qz 24 = x.
Proof. intros x d H. field. split; [discriminate|exact H]. Qed.
Lemma day_positive : forall x : Qc, 0 <= x / qz 24 <-> 0 <= x.
Proof.
  intros x. split; intros H; [|now apply div_nn].
  assert (x / qz 24 * qz 24 = x) as <- by (field; discriminate). apply mul_nn; [exact H|]. vm_compute. discriminate.
Qed.
Theorem volume_proof : forall rate pressure density,
  (forall s, liquid_from_volume rate pressure density = Ok s ->
     physical s /\ l_rate_per_day s = rate /\ l_pressure s = pressure /\ l_density s = density) /\
  ((exists s, liquid_from_volume rate pressure density = Ok s) <-> 0 < density /\ 0 <= rate /\ 0 < pressure) /\
  (forall e, liquid_from_volume rate pressure density = Err e -> e = DomainError).
Proof.
  intros r p d. unfold liquid_from_volume. destruct (new_liquid_proof p d (r * d / qz 24)) as [A B].
  assert (0 < d -> (0 <= r * d / qz 24 <-> 0 <= r)) as S.
  { intros H. rewrite day_positive. split; intros K; [|now apply mul_nn; [|apply Qclt_le_weak]].
    destruct (Qclt_le_dec r 0) as [L|L]; [|exact L]. exfalso. assert (r * d < 0) by (clear - L H; qc_nra). revert K. now apply Qclt_not_le. }
  split; [|split].
  - intros s E. destruct (A s E) as [-> P]. split; [exact P|]. split; [|split; reflexivity]. unfold l_rate_per_day, l_rate_per_hour. cbn [l_mass l_density].
    apply day_volume. apply lt_neq. apply P.
  - rewrite B. split; intros (H & K & L); (split; [exact H|]; split; [|exact L]); now apply S.
  - intros e. unfold new_liquid. repeat destruct (_ : bool); congruence.
Qed.
Theorem target_proof : forall closest np_std p target s,
  (0 < target -> set_discharge target = Ok (Some target)) /\ (target <= 0 -> set_discharge target = Err DomainError) /\
  pump_propagate closest np_std p None s = Err ValueError.
Proof.
  intros. unfold set_discharge. split; [|split; [|reflexivity]].
  - intros H. destruct (Qcleb target 0) eqn:E; [|reflexivity]. apply Qcleb_le in E. elim (Qclt_not_le _ _ H E).
  - intros H. apply Qcleb_le in H. now rewrite H.
Qed.

(** ** One period *)
Definition values_ok (rate suction density discharge : Qc) : Prop :=
  0 <= rate /\ 0 < suction /\ 0 < density /\ 0 <= discharge /\ (0 < rate -> 0 < discharge).
Definition input_ok (rate suction density discharge : Qc) (i : liquid * Qc) : Prop :=
  physical (fst i) /\ requested (fst i) * qz 24 = rate /\ l_pressure (fst i) = suction /\ l_density (fst i) = density /\
  0 < snd i /\ (0 < discharge -> snd i = discharge) /\ (discharge = 0 -> snd i = suction).
Lemma require_positive_cases : forall x, (0 < x /\ require_positive x = Ok tt) \/ (~ 0 < x /\ require_positive x = Err ValidationError).
Proof.
  intros x. unfold require_positive. destruct (Qcleb x 0) eqn:E; [right|left]; (split; [|reflexivity]).
  - apply Qcleb_le in E. now apply Qcle_not_lt.
  - destruct (Qclt_le_dec 0 x) as [H|H]; [exact H|]. apply Qcleb_le in H. congruence.
Qed.
Lemma operating_input : forall r s d rho, 0 <= d ->
  (forall i, to_operating_input r s d rho = Ok i -> values_ok r s rho d /\ input_ok r s rho d i) /\
  (values_ok r s rho d -> exists i, to_operating_input r s d rho = Ok i).
Proof.
  intros r s d rho Hd. unfold to_operating_input. destruct (volume_proof r s rho) as (V1 & V2 & _).
  destruct (require_positive_cases s) as [[Hs ->]|[Hs ->]]; cbn [bind]; [|split; [discriminate|intros H; elim Hs; apply H]].
  destruct (require_positive_cases rho) as [[Hr ->]|[Hr ->]]; cbn [bind]; [|split; [discriminate|intros H; elim Hr; apply H]].
  destruct (liquid_from_volume r s rho) as [inlet|e] eqn:El; cbn [bind].
  2:{ split; [discriminate|]. intros H. destruct (proj2 V2) as [x E]; [|discriminate E]. split; [exact Hr|]. split; [apply H|exact Hs]. }
  destruct (V1 inlet eq_refl) as (P & R & Pp & Pd). assert (0 <= r) as Hn by (apply V2; eauto).
  destruct (Qcltb 0 r) eqn:Er.
  - apply Qcltb_lt in Er. destruct (require_positive_cases d) as [[Hp ->]|[Hp ->]]; cbn [bind].
    + split; [|eauto]. intros i E. injection E as <-. split; [repeat split; auto|]. unfold input_ok. cbn [fst snd]. repeat split; auto; try apply P.
      intros ->. elim (Qclt_not_le _ _ Hp (Qcle_refl 0)).
    + split; [discriminate|]. intros H. elim Hp. now apply H.
  - split; [|eauto]. assert (~ 0 < r) as Hz by (intros H; apply Qcltb_lt in H; congruence). intros i E. injection E as <-. split; [repeat split; auto; intros H; now elim Hz|].
    unfold input_ok. cbn [fst snd]. split; [exact P|]. split; [exact R|]. split; [exact Pp|]. split; [exact Pd|].
    destruct (Qcltb 0 d) eqn:Ed.
    + apply Qcltb_lt in Ed. split; [exact Ed|]. split; [reflexivity|]. intros ->. elim (Qclt_not_le _ _ Ed (Qcle_refl 0)).
    + split; [exact Hs|]. split; [|reflexivity]. intros H. apply Qcltb_lt in H. congruence.
Qed.
Lemma operating_inputs_spec : forall rs ss ds rhos, List.length ss = List.length rs -> List.length ds = List.length rs -> List.length rhos = List.length rs ->
  (forall d, In d ds -> 0 <= d) ->
  let all (P : nat -> Qc -> Qc -> Qc -> Qc -> Prop) := forall k r s d rho, nth_error rs k = Some r -> nth_error ss k = Some s -> nth_error ds k = Some d -> nth_error rhos k = Some rho -> P k r s rho d in
  (forall l, operating_inputs rs ss ds rhos = Ok l -> List.length l = List.length rs /\ all (fun _ => values_ok) /\
     all (fun k r s rho d => exists i, nth_error l k = Some i /\ input_ok r s rho d i)) /\
  (all (fun _ => values_ok) -> exists l, operating_inputs rs ss ds rhos = Ok l).
Proof.
  induction rs as [|r rs IH]; intros [|s ss] [|d ds] [|rho rhos] L1 L2 L3 Nd; try discriminate; cbn zeta.
  - split; [|intros _; exists []; reflexivity]. intros l E. injection E as <-. split; [reflexivity|]. split; intros [|k]; discriminate.
  - cbn [operating_inputs]. destruct (operating_input r s d rho (Nd d (or_introl eq_refl))) as [A B].
    destruct (IH ss ds rhos ltac:(cbn in L1; lia) ltac:(cbn in L2; lia) ltac:(cbn in L3; lia) (fun x I => Nd x (or_intror I))) as [C D]. cbn zeta in C, D. split.
    + intros l E. destruct (to_operating_input r s d rho) as [i|] eqn:Ei; [|discriminate]. cbn [bind] in E. destruct (operating_inputs rs ss ds rhos) as [l'|] eqn:El; [|discriminate]. cbn [bind] in E. injection E as <-.
      destruct (A i eq_refl) as [A1 A2]. destruct (C l' eq_refl) as (C1 & C2 & C3). split; [cbn; congruence|]. split.
      * intros [|k] x1 x2 x3 x4 E1 E2 E3 E4; cbn [nth_error] in *; [congruence|]. eapply C2; eauto.
      * intros [|k] x1 x2 x3 x4 E1 E2 E3 E4; cbn [nth_error] in *; [|eapply C3; eauto]. exists i. split; [reflexivity|]. congruence.
    + intros H. destruct B as [i Ei]; [now apply (H 0%nat)|]. rewrite Ei. cbn [bind]. destruct D as [l El]; [intros k; apply (H (Datatypes.S k))|]. rewrite El. cbn [bind]. eauto.
Qed.

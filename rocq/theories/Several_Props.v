(** C121, C122, C123: several sections and the rate that a section cannot take. *)
From Coq Require Import List Bool ZArith Lia.
From Verif Require Import QcTac Base Num Search_Model Stream_Model Stream_Spec Process_Model Solver_Model Solver_Spec Solver_Proofs
  Stream_Props Process_Props Solver_Props Several_Spec Several_Proofs Several_Proofs2 Several_Proofs3 Several_Proofs4.
Import ListNotations.
Local Open Scope list_scope.
Local Open Scope Qc_scope.

(** A compressor that adds 5 s - 8 r bar at the speed s, between 10 and 20, and the rate r, between 1 and 10; with its loop and a choke. *)
Definition C121_chart : chart := mk_chart (fun _ => 1) (fun _ => qz 10) (fun s r => Return (qz 5 * s - qz 8 * r, qc 1 2)) (qz 10) (qz 20).
Definition C121_handlers (base shaft : nat) (cs : list unit_id) (control : pressure_control_type) : list (handler_id * handler) :=
  fst (assemble_section [(base, Compressor C121_chart)] (base + 1) IndividualASV control) ++ [(shaft, VariableSpeedShaft cs)].
Definition C121_section (id base shaft : nat) (cs : list unit_id) (control : pressure_control_type) : section :=
  match assemble_solver id (snd (assemble_section [(base, Compressor C121_chart)] (base + 1) IndividualASV control))
          (C121_handlers base shaft cs control) [(base, C121_chart)] [(base + 3)%nat] shaft [C121_chart] control
          (Some (base + 5)%nat) C39_finder (fun x n => qz 2) with
  | Return sec => sec
  | Raise _ => mk_section 0%nat 0%nat (mk_runner [] []) ASNone (PCUpstream 0%nat) (mk_boundary 0 0) C39_finder (fun x n => x)
  end.

Lemma C121_sound : forall id base shaft cs control,
  In (base, shaft, cs) [(0, 30, [0]); (10, 40, [10]); (0, 30, [0; 10]); (10, 30, [0; 10])]%nat -> In control [UpstreamChoke; DownstreamChoke] ->
  well_equipped (C39_physics C43_service) (C121_section id base shaft cs control) (C39_target (qz 90)).
Proof.
  intros id base shaft cs control H K.
  assert (N : NoDup (map fst (C121_handlers base shaft cs control))).
  { destruct H as [[= <- <- <-]|[[= <- <- <-]|[[= <- <- <-]|[[= <- <- <-]|[]]]]]; destruct K as [<-|[<-|[]]]; vm_compute; repeat constructor; cbn; lia. }
  assert (A : apart (C121_handlers base shaft cs control))
    by (destruct H as [[= <- <- <-]|[[= <- <- <-]|[[= <- <- <-]|[[= <- <- <-]|[]]]]]; destruct K as [<-|[<-|[]]]; C39_apart).
  assert (W : wired (C121_section id base shaft cs control) /\ paired (C121_section id base shaft cs control) /\
              (NoDup [(base + 3)%nat] -> apart (C121_handlers base shaft cs control) -> separate (C121_section id base shaft cs control))).
  { eapply (C40_assembled id (snd (assemble_section [(base, Compressor C121_chart)] (base + 1) IndividualASV control))
      (C121_handlers base shaft cs control) [(base, C121_chart)] [(base + 3)%nat] shaft [C121_chart] control (Some (base + 5)%nat) C39_finder (fun x n => qz 2)).
    - exact N.
    - exists cs. destruct H as [[= <- <- <-]|[[= <- <- <-]|[[= <- <- <-]|[[= <- <- <-]|[]]]]]; destruct K as [<-|[<-|[]]]; vm_compute; tauto.
    - intros l [<-|[]]. exists (base + 1)%nat, (base + 2)%nat.
      destruct H as [[= <- <- <-]|[[= <- <- <-]|[[= <- <- <-]|[[= <- <- <-]|[]]]]]; destruct K as [<-|[<-|[]]]; vm_compute; tauto.
    - intros k [= <-]. exists (base + 4)%nat.
      destruct H as [[= <- <- <-]|[[= <- <- <-]|[[= <- <- <-]|[[= <- <- <-]|[]]]]]; destruct K as [<-|[<-|[]]]; vm_compute; tauto.
    - destruct H as [[= <- <- <-]|[[= <- <- <-]|[[= <- <- <-]|[[= <- <- <-]|[]]]]]; destruct K as [<-|[<-|[]]]; reflexivity. }
  destruct W as (W1 & W2 & W3). split; [exact W1|]. split; [apply W3; [repeat constructor; intros []|exact A]|]. split; [exact W2|].
  split; [vm_compute; discriminate|].
  destruct K as [<-|[<-|[]]].
  - assert (E : sec_control (C121_section id base shaft cs UpstreamChoke) = PCUpstream (base + 5)%nat)
      by (destruct H as [[= <- <- <-]|[[= <- <- <-]|[[= <- <- <-]|[[= <- <- <-]|[]]]]]; reflexivity).
    rewrite E. assert (F : sec_finder (C121_section id base shaft cs UpstreamChoke) = C39_finder)
      by (destruct H as [[= <- <- <-]|[[= <- <- <-]|[[= <- <- <-]|[[= <- <- <-]|[]]]]]; reflexivity).
    rewrite F. split; [exact C39_finder_accurate|exact C39_finder_settled].
  - assert (E : sec_control (C121_section id base shaft cs DownstreamChoke) = PCDownstream (base + 5)%nat)
      by (destruct H as [[= <- <- <-]|[[= <- <- <-]|[[= <- <- <-]|[[= <- <- <-]|[]]]]]; reflexivity).
    rewrite E. split; [exact C43_service_consistent|].
    exists (base + 4)%nat, [((base + 1)%nat, DirectMixer); (base, Compressor C121_chart); ((base + 2)%nat, DirectSplitter)].
    destruct H as [[= <- <- <-]|[[= <- <- <-]|[[= <- <- <-]|[[= <- <- <-]|[]]]]]; (split; [reflexivity|]; split; [reflexivity|]; vm_compute; lia).
Qed.

(** The places that the second section sets are not read by the first. *)
Definition C121_no (c : cell) : nat :=
  match c with CSpeed i | CMix i | CSplit i | CChoke i => i | _ => 0%nat end.
Definition C121_high (hd : handler) : bool :=
  match hd with
  | SingleSpeedShaft cs | VariableSpeedShaft cs => forallb (Nat.leb 10) cs
  | RecirculationLoop m s => Nat.leb 10 m && Nat.leb 10 s
  | ChokeHandler k => Nat.leb 10 k
  end.
Definition C121_all_high (sec : section) (l : list handler_id) : bool :=
  forallb (fun i => match dict_get Nat.eqb i (r_handlers (sec_runner sec)) with Some hd => C121_high hd | None => true end) l.
Lemma C121_reads_low : forall sec c, forallb (fun u => Nat.ltb u 10) (map fst (r_units (sec_runner sec))) = true -> section_reads sec c ->
  (C121_no c < 10)%nat /\ (forall i, c <> CShaft i) /\ (forall i, c <> CLast i).
Proof.
  intros sec c H (u & U & R). rewrite forallb_forall in H. assert (L : (fst u < 10)%nat) by (apply Nat.ltb_lt; apply H; now apply in_map).
  unfold unit_reads in R. destruct (snd u); try contradiction; subst c; cbn [C121_no]; (split; [exact L|]; split; intros i; discriminate).
Qed.
Lemma C121_sets_high : forall sec l c, C121_all_high sec l = true -> cells_of_all (sec_runner sec) l c ->
  (10 <= C121_no c)%nat \/ exists i, c = CShaft i.
Proof.
  intros sec l c H (i & I & hd & D & C). unfold C121_all_high in H. rewrite forallb_forall in H. specialize (H i I). rewrite D in H.
  destruct hd; cbn [C121_high handler_cells] in H, C.
  1, 2: destruct C as [C|(u & U & ->)]; [right; eauto|left; rewrite forallb_forall in H; apply Nat.leb_le; exact (H u U)].
  - apply andb_true_iff in H. destruct H as [H1 H2]. left. destruct C as [-> | ->]; now apply Nat.leb_le.
  - subst c. left. now apply Nat.leb_le.
Qed.
Lemma C121_alone : forall a b (sets : section -> cell -> Prop) l, forallb (fun u => Nat.ltb u 10) (map fst (r_units (sec_runner a))) = true ->
  C121_all_high b l = true -> (forall c, sets b c -> cells_of_all (sec_runner b) l c \/ exists k, c = CLast k) -> leave_alone sets [a; b].
Proof.
  intros a b sets l A B S. split; [|split; [intros later c []|exact I]]. intros later c [<-|[]] X R.
  destruct (C121_reads_low a c A R) as (R1 & R2 & R3). destruct (S c X) as [X1|[k ->]]; [|now apply (R3 k)].
  destruct (C121_sets_high b l c B X1) as [Y|[i ->]]; [lia|now apply (R2 i)].
Qed.

(** ** C121: sections with a shaft each *)

(** C121: there is a target for every section. *)
Theorem C121_number : forall ph secs targets inlet h, length targets <> length secs ->
  multi_shaft ph secs targets inlet h = (Raise AssertionErr, h).
Proof. exact shaft_number_proof. Qed.
Print Assumptions C121_number.

(** C121: the sections are solved one after the other, each for the stream that the solved sections before it deliver; the answer is a success exactly when every
    section is solved and runs, and it then holds the settings of all sections in order. *)
Theorem C121_success : forall ph secs targets inlet h sol h', length targets = length secs ->
  (multi_shaft ph secs targets inlet h = (Return sol, h') /\ success sol = true <->
   exists sols out, in_turn ph (combine secs targets) inlet h sols out h' /\
     sol = mk_solution (concat (map sol_configuration sols)) None).
Proof. exact shaft_success_proof. Qed.
Print Assumptions C121_success.

(** C121: an answer that is not a success comes from the first section that is not solved or cannot run, and it says what is wrong with that section. *)
Theorem C121_failure : forall ph secs targets inlet h sol h',
  multi_shaft ph secs targets inlet h = (Return sol, h') -> success sol = false ->
  exists before sec target after sols s h1,
    combine secs targets = before ++ (sec, target) :: after /\ in_turn ph before inlet h sols s h1 /\
    ((exists bad, find_solution ph sec [target] s h1 = (Return bad, h') /\ success bad = false /\
        sol = mk_solution (concat (map sol_configuration sols) ++ sol_configuration bad) (sol_failure bad)) \/
     (exists good h2 e f, find_solution ph sec [target] s h1 = (Return good, h2) /\ success good = true /\
        run_with ph sec (sol_configuration good) s h2 = (Raise e, h') /\ becomes e f /\ sol = mk_solution [] (Some f))).
Proof. exact shaft_failure_proof. Qed.
Print Assumptions C121_failure.

(** C121: after a success the stream that leaves each section meets that section's target, with the settings as they are left. *)
Theorem C121_targets : forall ph secs targets inlet h sol h',
  Forall2 (well_equipped ph) secs targets -> leave_alone own secs ->
  multi_shaft ph secs targets inlet h = (Return sol, h') -> success sol = true ->
  exists streams, flows ph h' secs inlet streams /\ Forall2 meets targets streams.
Proof. exact shaft_targets_proof. Qed.
Print Assumptions C121_targets.

(** C121: only the shafts, loops and chokes of the sections are set. *)
Theorem C121_local : forall ph secs targets inlet h sol h',
  Forall2 (well_equipped ph) secs targets ->
  multi_shaft ph secs targets inlet h = (Return sol, h') -> success sol = true ->
  same_except (fun c => exists sec, In sec secs /\ own sec c) h h'.
Proof. exact shaft_local_proof. Qed.
Print Assumptions C121_local.

Definition C121_first : section := C121_section 0 0 30 [0%nat] UpstreamChoke.
Definition C121_second : section := C121_section 1 10 40 [10%nat] DownstreamChoke.
Definition C121_solves (r : outcome solution * heap) : option (list handler_id * bool) :=
  match fst r with Return s => Some (map fst (sol_configuration s), success s) | Raise _ => None end.
Example C121_case :
  Forall2 (well_equipped (C39_physics C43_service)) [C121_first; C121_second] [C39_target (qz 90); C39_target (qz 150)] /\
  leave_alone own [C121_first; C121_second] /\
  C121_solves (multi_shaft (C39_physics C43_service) [C121_first; C121_second] [C39_target (qz 90); C39_target (qz 150)] C37_in C40_fresh) =
    Some ([30; 3; 40; 13]%nat, true) /\
  C121_solves (multi_shaft (C39_physics C43_service) [C121_first; C121_second] [C39_target (qz 90); C39_target (qz 200)] C37_in C40_fresh) =
    Some ([30; 3; 40; 13]%nat, false).
Proof.
  split.
  { constructor; [|constructor; [|constructor]]; apply C121_sound; cbn; tauto. }
  split; [apply (C121_alone _ _ own (section_handlers C121_second)); [reflexivity|reflexivity|intros c [H|(k & _ & ->)]; eauto]|].
  split; vm_compute; reflexivity.
Qed.

(** C121: with equal pressure ratios the gas leaves each section but the last at the inlet pressure times a power of the ratio, and the last one at the target. *)
Theorem C121_equal_ratio : forall ph nth_root secs target inlet h sol h', secs <> [] -> s_pressure inlet <> 0 ->
  (forall sec p, In sec secs -> well_equipped ph sec (mk_constraint p (fc_abs_tol target))) -> leave_alone own secs ->
  multi_shaft_equal_ratio ph nth_root secs [target] inlet h = (Return sol, h') -> success sol = true ->
  exists streams, flows ph h' secs inlet streams /\
    (forall i out, (Datatypes.S i < length secs)%nat -> nth_error streams i = Some out ->
       Qcabs (s_pressure out - s_pressure inlet * power (nth_root (fc_value target / s_pressure inlet) (length secs)) (Datatypes.S i)) <= fc_abs_tol target) /\
    (exists out, nth_error streams (length secs - 1) = Some out /\ meets target out).
Proof. exact equal_ratio_met_proof. Qed.
Print Assumptions C121_equal_ratio.

Example C121_equal_ratio_case : s_pressure C37_in <> 0 /\
  (forall sec p, In sec [C121_first; C121_second] -> well_equipped (C39_physics C43_service) sec (mk_constraint p (fc_abs_tol (C39_target (qz 120))))) /\
  leave_alone own [C121_first; C121_second] /\
  C121_solves (multi_shaft_equal_ratio (C39_physics C43_service) (fun _ _ => qz 2) [C121_first; C121_second] [C39_target (qz 120)] C37_in C40_fresh) =
    Some ([30; 3; 5; 40; 13]%nat, true).
Proof.
  split; [vm_compute; discriminate|]. split.
  { intros sec p [<-|[<-|[]]]; [apply (C121_sound 0%nat 0%nat 30%nat [0%nat] UpstreamChoke)|apply (C121_sound 1%nat 10%nat 40%nat [10%nat] DownstreamChoke)]; cbn; tauto. }
  split; [apply (C121_alone _ _ own (section_handlers C121_second)); [reflexivity|reflexivity|intros c [H|(k & _ & ->)]; eauto]|].
  vm_compute. reflexivity.
Qed.

(** ** C122: sections on one shaft *)

(** C122: what is accepted: two or more sections on one shaft, with an upstream choke only in the first and a downstream choke only in the last. *)
Theorem C122_accepts : forall secs shaft,
  multi_pressure_valid secs = Return shaft <->
  (2 <= length secs)%nat /\ (forall sec, In sec secs -> sec_shaft sec = shaft) /\ chokes_placed secs.
Proof. exact pressure_accepts_proof. Qed.
Print Assumptions C122_accepts.
Theorem C122_refuses : forall secs, (forall shaft, multi_pressure_valid secs <> Return shaft) ->
  multi_pressure_valid secs = Raise ValidationErr.
Proof. exact pressure_refuses_proof. Qed.
Print Assumptions C122_refuses.
Theorem C122_number : forall ph shaft secs targets inlet h, length targets <> length secs ->
  multi_pressure ph shaft secs targets inlet h = (Raise ValidationErr, h).
Proof. exact pressure_number_proof. Qed.
Print Assumptions C122_number.

(** C122: after a success all compressors run at the largest of the speeds that the sections need by themselves, and with the settings as they are left the stream
    that leaves each section meets that section's target. *)
Theorem C122_success : forall ph shaft cs secs targets inlet h sol h',
  Forall2 (well_equipped ph) secs targets -> Forall (on_shaft shaft cs) secs -> leave_alone own_loops secs ->
  multi_pressure ph shaft secs targets inlet h = (Return sol, h') -> success sol = true ->
  exists xs out h1 x streams,
    needs ph shaft (combine secs targets) inlet h xs out h1 /\ In x xs /\ (forall y, In y xs -> y <= x) /\
    last_says (sol_configuration sol) shaft (SpeedSetting x) /\ (forall u, In u cs -> h_speed h' u = Some x) /\
    flows ph h' secs inlet streams /\ Forall2 meets targets streams.
Proof. exact pressure_success_proof. Qed.
Print Assumptions C122_success.

(** C122: an answer that is not a success comes from the first section that has no speed of its own, or from the second pass. *)
Theorem C122_failure : forall ph shaft secs targets inlet h sol h',
  multi_pressure ph shaft secs targets inlet h = (Return sol, h') -> success sol = false ->
  (exists before sec target after xs s h1, combine secs targets = before ++ (sec, target) :: after /\
     needs ph shaft before inlet h xs s h1 /\ find_solution ph sec [target] s h1 = (Return sol, h')) \/
  (exists xs out h1, needs ph shaft (combine secs targets) inlet h xs out h1) \/
  (exists f, sol = mk_solution [] (Some f) /\ exists e, becomes e f).
Proof. exact pressure_failure_proof. Qed.
Print Assumptions C122_failure.

(** C122: a section that stays below its target at the common speed makes the answer a failure that says what was reached. *)
Theorem C122_below : forall ph shaft sec target rest inlet so_far x h ha hb a hc hd out,
  success so_far = true -> control_reset sec (sec_control sec) h = (Return tt, ha) ->
  apply_configuration (sec_runner sec) (shaft, SpeedSetting x) ha = (Return tt, hb) ->
  anti_surge_apply ph sec inlet (sec_anti sec) hb = (Return a, hc) -> success a = true ->
  apply_configurations (sec_runner sec) (sol_configuration a) hc = (Return tt, hd) ->
  run ph (sec_runner sec) inlet hd = (Return out, hd) -> s_pressure out < fc_value target - fc_abs_tol target -> 0 <= fc_abs_tol target ->
  second_pass ph (shaft, SpeedSetting x) ((sec, target) :: rest) inlet so_far h =
    (Return (mk_solution (merge_configurations (sol_configuration so_far) (sol_configuration a))
       (Some (Unreachable (s_pressure out) (fc_value target) MaxBelowTarget (Some (sec_id sec))))), hd).
Proof. exact pressure_below_proof. Qed.
Print Assumptions C122_below.

Definition C122_first : section := C121_section 0 0 30 [0; 10]%nat UpstreamChoke.
Definition C122_second : section := C121_section 1 10 30 [0; 10]%nat DownstreamChoke.
Definition C122_shows (r : outcome solution * heap) : option (list (handler_id * option Q) * bool) :=
  match fst r with
  | Return s => Some (map (fun c => (fst c, match snd c with SpeedSetting x => Some (this x) | ChokeSetting x => Some (this x) | _ => None end)) (sol_configuration s), success s)
  | Raise _ => None
  end.
(** The second section needs the larger speed; the first is then choked by 20 bar. *)
Example C122_case :
  Forall2 (well_equipped (C39_physics C43_service)) [C122_first; C122_second] [C39_target (qz 90); C39_target (qz 170)] /\
  Forall (on_shaft 30%nat [0; 10]%nat) [C122_first; C122_second] /\ leave_alone own_loops [C122_first; C122_second] /\
  multi_pressure_valid [C122_first; C122_second] = Return 30%nat /\ multi_pressure_valid [C122_second; C122_first] = Raise ValidationErr /\
  C122_shows (multi_pressure (C39_physics C43_service) 30%nat [C122_first; C122_second] [C39_target (qz 90); C39_target (qz 170)] C37_in C40_fresh) =
    Some ([(30%nat, Some (96 # 5)%Q); (3%nat, None); (5%nat, Some 20%Q); (13%nat, None)], true) /\
  C122_shows (multi_pressure (C39_physics C43_service) 30%nat [C122_first; C122_second] [C39_target (qz 90); C39_target (qz 200)] C37_in C40_fresh) =
    Some ([(30%nat, Some 20%Q); (13%nat, None)], false).
Proof.
  split. { constructor; [|constructor; [|constructor]]; apply C121_sound; cbn; tauto. }
  split. { constructor; [|constructor; [|constructor]]; split; reflexivity. }
  split; [eapply (C121_alone _ _ own_loops); [reflexivity| |intros c H; left; exact H]; reflexivity|]. split; [reflexivity|]. split; [reflexivity|]. split; vm_compute; reflexivity.
Qed.

(** ** C123: the rate that a section cannot take *)

(** C123: nothing is left over without gas or when the section takes all of it. *)
Theorem C123_none : forall ph sec target inlet h,
  (standard_rate inlet <= 0 -> get_excess_rate ph sec target inlet h = (Return 0, h)) /\
  (forall sol h', 0 < standard_rate inlet -> find_solution ph sec [target] inlet h = (Return sol, h') -> success sol = true ->
     get_excess_rate ph sec target inlet h = (Return 0, h')).
Proof. exact no_excess_proof. Qed.
Print Assumptions C123_none.

(** C123: otherwise the excess lies between nothing and everything, and what remains is an end of a small range of rates between one that the section takes (or
    none) and one that it does not (or all); unless the section does not converge at some rate, and then everything is left over. *)
Theorem C123_excess : forall ph sec target inlet h sol h1 excess h', wired sec -> 0 < standard_rate inlet ->
  find_solution ph sec [target] inlet h = (Return sol, h1) -> success sol = false ->
  get_excess_rate ph sec target inlet h = (Return excess, h') ->
  same_except (own sec) h h' /\
  let full := standard_rate inlet in
  0 <= excess /\ excess <= full /\
  ((exists lo hi, 0 <= lo /\ lo <= hi /\ hi <= full /\
     (lo = 0 \/ takes ph sec target inlet h lo) /\ (hi = full \/ takes_not ph sec target inlet h hi) /\
     ((full - excess = lo /\ takes ph sec target inlet h lo) \/ (full - excess = hi /\ takes_not ph sec target inlet h hi)) /\
     (hi - lo < qc 1 10000 * Qcmax hi 1 \/ hi - lo = full / (qz 2) ^ 40)) \/
   (excess = full /\ exists rate, 0 <= rate /\ rate <= full /\
      (with_standard_rate inlet rate = Raise DidNotConverge \/
       exists s, with_standard_rate inlet rate = Return s /\ fst (find_solution ph sec [target] s h) = Raise DidNotConverge))).
Proof. exact excess_proof. Qed.
Print Assumptions C123_excess.

(** C123: asking does not depend on what was asked before. *)
Theorem C123_again : forall ph sec target inlet h h2, wired sec -> same_except (own sec) h h2 ->
  fst (get_excess_rate ph sec target inlet h) = fst (get_excess_rate ph sec target inlet h2).
Proof. exact excess_again_proof. Qed.
Print Assumptions C123_again.

Definition C123_excess_of (target : Qc) : outcome Qc := fst (get_excess_rate (C39_physics C43_service) C121_first (C39_target target) C37_in C40_fresh).
Example C123_case : wired C121_first /\ this (standard_rate C37_in) = 3000%Q /\
  C121_solves (find_solution (C39_physics C43_service) C121_first [C39_target (qz 120)] C37_in C40_fresh) = Some ([30; 3]%nat, false) /\
  match C123_excess_of (qz 120) with Return x => this x = (2303625 # 2048)%Q | Raise _ => False end /\
  match C123_excess_of (qz 90) with Return x => this x = 0%Q | Raise _ => False end.
Proof.
  split; [apply (C121_sound 0%nat 0%nat 30%nat [0%nat] UpstreamChoke); cbn; tauto|]. split; [reflexivity|]. split; [vm_compute; reflexivity|].
  split; vm_compute; reflexivity.
Qed.

(** C123 as one would like it fails: the section need not take what remains after the excess, and when it takes nothing some of the gas is still not called excess. *)
Theorem C123_remaining_refuted : exists ph sec target inlet h excess h', wired sec /\ 0 < standard_rate inlet /\
  get_excess_rate ph sec target inlet h = (Return excess, h') /\ 0 < excess /\ excess < standard_rate inlet /\
  takes_not ph sec target inlet h (standard_rate inlet - excess).
Proof.
  exists (C39_physics C43_service), C121_first, (C39_target (qz 500)), C37_in, C40_fresh.
  destruct (get_excess_rate (C39_physics C43_service) C121_first (C39_target (qz 500)) C37_in C40_fresh) as [[x|e] h'] eqn:E.
  2: { exfalso. apply (f_equal fst) in E. vm_compute in E. discriminate E. }
  exists x, h'. split; [apply (C121_sound 0%nat 0%nat 30%nat [0%nat] UpstreamChoke); cbn; tauto|]. split; [reflexivity|]. split; [reflexivity|].
  assert (X : this x = (12582911625 # 4194304)%Q).
  { apply (f_equal (fun p => match fst p with Return q => this q | Raise _ => 0%Q end)) in E. cbn [fst] in E. rewrite <- E. vm_compute. reflexivity. }
  assert (XE : x = qc 12582911625 4194304) by (apply Qc_is_canon; rewrite X; reflexivity). subst x. clear E X.
  split; [reflexivity|]. split; [reflexivity|].
  unfold takes_not.
  destruct (with_standard_rate C37_in (standard_rate C37_in - qc 12582911625 4194304)) as [s|e] eqn:W;
    [|exfalso; vm_compute in W; discriminate W].
  destruct (find_solution (C39_physics C43_service) C121_first [C39_target (qz 500)] s C40_fresh) as [[sol|e] g] eqn:F.
  - exists s, sol, g. split; [reflexivity|]. split; [exact F|].
    assert (Y : match with_standard_rate C37_in (standard_rate C37_in - qc 12582911625 4194304) with
                | Return q => match fst (find_solution (C39_physics C43_service) C121_first [C39_target (qz 500)] q C40_fresh) with Return z => success z | Raise _ => true end
                | Raise _ => true end = false) by (vm_compute; reflexivity).
    rewrite W, F in Y. exact Y.
  - exfalso.
    assert (Y : match with_standard_rate C37_in (standard_rate C37_in - qc 12582911625 4194304) with
                | Return q => match fst (find_solution (C39_physics C43_service) C121_first [C39_target (qz 500)] q C40_fresh) with Return _ => true | Raise _ => false end
                | Raise _ => false end = true) by (vm_compute; reflexivity).
    rewrite W, F in Y. discriminate Y.
Qed.
Print Assumptions C123_remaining_refuted.

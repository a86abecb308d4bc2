(** The properties of the solvers (C38-C41), with their proofs elsewhere. *)
From Coq Require Import List Bool ZArith Lia.
From Verif Require Import QcTac Base BaseLemmas Num Stream_Model Stream_Spec Stream_Props Process_Model Process_Spec Process_Props Search_Model
  Solver_Model Solver_Spec Solver_Proofs Solver_Proofs2 Solver_Proofs3 Solver_Proofs4 Solver_Proofs7.
Import ListNotations.
Local Open Scope Qc_scope.

(** ** C38 Merging *)

(** Every handler once, in the order of first mention, with what the last mention says; and that determines the result. *)
Theorem C38_merge : forall first second, merges (first ++ second) (merge_configurations first second).
Proof. exact merge_proof. Qed.
Print Assumptions C38_merge.
Theorem C38_unique : forall l m m', merges l m -> merges l m' -> m = m'.
Proof. exact merges_unique_proof. Qed.
Print Assumptions C38_unique.
Theorem C38_associative : forall a b c,
  merge_configurations (merge_configurations a b) c = merge_configurations a (merge_configurations b c).
Proof. exact merge_assoc_proof. Qed.
Print Assumptions C38_associative.
(** Combining solutions: the first failure ends it; otherwise the configurations are merged. *)
Theorem C38_combine : forall a b,
  (success (combine_solutions a b) = true <-> success a = true /\ success b = true) /\
  (success a = false -> combine_solutions a b = a) /\
  (success a = true ->
     sol_failure (combine_solutions a b) = sol_failure b /\
     merges (sol_configuration a ++ sol_configuration b) (sol_configuration (combine_solutions a b))).
Proof. exact combine_proof. Qed.
Print Assumptions C38_combine.
Theorem C38_combine_associative : forall a b c,
  combine_solutions (combine_solutions a b) c = combine_solutions a (combine_solutions b c).
Proof. exact combine_assoc_proof. Qed.
Print Assumptions C38_combine_associative.
Theorem C38_lookup : forall a b i, success a = true ->
  (forall v, last_says (sol_configuration a ++ sol_configuration b) i v ->
             get_configuration (combine_solutions a b) i = Return v) /\
  (~ In i (map fst (sol_configuration a ++ sol_configuration b)) ->
             get_configuration (combine_solutions a b) i = Raise ValueErr).
Proof. exact get_configuration_proof. Qed.
Print Assumptions C38_lookup.
Example C38_case :
  let a := [(1%nat, SpeedSetting 1); (2%nat, RecirculationSetting 0)] in
  let b := [(3%nat, ChokeSetting 0); (2%nat, RecirculationSetting 1)] in
  merge_configurations a b = [(1%nat, SpeedSetting 1); (2%nat, RecirculationSetting 1); (3%nat, ChokeSetting 0)] /\
  merges (a ++ b) (merge_configurations a b) /\ last_says (a ++ b) 2%nat (RecirculationSetting 1) /\
  success (mk_solution a None) = true /\ success (mk_solution a (Some SurgeFailure)) = false.
Proof.
  cbv zeta. split; [reflexivity|]. split; [apply C38_merge|]. split; [|split; reflexivity].
  exists [(1%nat, SpeedSetting 1); (2%nat, RecirculationSetting 0); (3%nat, ChokeSetting 0)], []. split; [reflexivity|intros []].
Qed.

(** ** C40 No memory *)

(** The solution is a function of everything but the settings of the section's own shaft, loops and choke. *)
Theorem C40_independent : forall ph sec targets inlet h h',
  wired sec -> same_except (own sec) h h' ->
  fst (find_solution ph sec targets inlet h) = fst (find_solution ph sec targets inlet h') /\
  same_except (own sec) (snd (find_solution ph sec targets inlet h)) (snd (find_solution ph sec targets inlet h')).
Proof. exact independent_proof. Qed.
Print Assumptions C40_independent.
(** Nothing else is changed. *)
Theorem C40_local : forall ph sec targets inlet h,
  wired sec -> same_except (own sec) h (snd (find_solution ph sec targets inlet h)).
Proof. exact local_proof. Qed.
Print Assumptions C40_local.
(** After any history of solving the section and configuring its handlers the solution is what it was at first. *)
Theorem C40_history : forall ph sec history targets inlet h,
  wired sec -> Forall (own_event sec) history ->
  fst (find_solution ph sec targets inlet (fold_left (happens ph sec) history h)) = fst (find_solution ph sec targets inlet h).
Proof. exact history_proof. Qed.
Print Assumptions C40_history.
(** Solvers are assembled so that this applies. *)
Theorem C40_assembled : forall id units handlers compressors loops shaft charts control choke finder nth_root sec,
  NoDup (map fst handlers) ->
  (exists cs, In (shaft, VariableSpeedShaft cs) handlers) ->
  (forall l, In l loops -> exists m s, In (l, RecirculationLoop m s) handlers) ->
  (forall k, choke = Some k -> exists u, In (k, ChokeHandler u) handlers) ->
  assemble_solver id units handlers compressors loops shaft charts control choke finder nth_root = Return sec ->
  wired sec /\ paired sec /\ (NoDup loops -> apart handlers -> separate sec).
Proof. exact assemble_wired_proof. Qed.
Print Assumptions C40_assembled.

(** One compressor between 10 and 20 rpm that doubles the pressure, with its loop and a choke behind it. *)
Definition C40_parts := assemble_section [(0%nat, Compressor C37_chart)] 1%nat IndividualASV DownstreamChoke.
Definition C40_handlers : list (handler_id * handler) := fst C40_parts ++ [(10%nat, VariableSpeedShaft [0%nat])].
Definition C40_finder : root_finder := fun b => Stop DidNotConverge.
Definition C40_assembled_section : outcome section :=
  assemble_solver 0%nat (snd C40_parts) C40_handlers [(0%nat, C37_chart)] [3%nat] 10%nat [C37_chart] DownstreamChoke (Some 5%nat)
    C40_finder (fun x _ => x).
Definition C40_section : section :=
  match C40_assembled_section with
  | Return sec => sec
  | Raise _ => mk_section 0%nat 0%nat (mk_runner [] []) ASNone (PCUpstream 0%nat) (mk_boundary 0 0) C40_finder (fun x _ => x)
  end.
Definition C40_fresh : heap := mk_heap (fun _ => None) (fun _ => 0) (fun _ => 0) (fun _ => 0) (fun _ => None) (fun _ => []).
Definition C40_target : float_constraint := mk_constraint (qz 50) (qc 1 100).
Example C40_case : wired C40_section /\ separate C40_section /\
  own_event C40_section (Configured (5%nat, ChokeSetting (qz 20))) /\ own_event C40_section (Solved [C40_target] C37_in) /\
  match fst (find_solution (C37_physics C43_service) C40_section [C40_target] C37_in C40_fresh) with
  | Return s => map fst (sol_configuration s) = [10; 3; 5]%nat /\ success s = true
  | Raise _ => False
  end /\
  this (h_choke (snd (find_solution (C37_physics C43_service) C40_section [C40_target] C37_in C40_fresh)) 4%nat) =
  this (h_choke C40_fresh 4%nat).
Proof.
  assert (N : NoDup (map fst C40_handlers)) by (vm_compute; repeat constructor; cbn; lia).
  assert (W : wired C40_section /\ paired C40_section /\ (NoDup [3%nat] -> apart C40_handlers -> separate C40_section)).
  { eapply (C40_assembled 0%nat (snd C40_parts) C40_handlers [(0%nat, C37_chart)] [3%nat] 10%nat [C37_chart] DownstreamChoke (Some 5%nat)
      C40_finder (fun x _ => x)).
    - exact N.
    - exists [0%nat]. vm_compute. tauto.
    - intros l [<-|[]]. exists 1%nat, 2%nat. vm_compute. tauto.
    - intros k [= <-]. exists 4%nat. vm_compute. tauto.
    - reflexivity. }
  split; [apply W|]. split.
  { apply W; [repeat constructor; intros []|]. intros i a j b c I J NE. vm_compute in I, J.
    repeat (destruct I as [I|I]; [injection I as <- <-|]); try contradiction;
    repeat (destruct J as [J|J]; [injection J as <- <-|]); try contradiction; try (exfalso; apply NE; reflexivity);
    cbn [handler_cells]; intros X Y; subst;
    repeat match goal with H : _ \/ _ |- _ => destruct H | H : exists _, _ |- _ => destruct H | H : _ /\ _ |- _ => destruct H end; congruence. }
  split; [vm_compute; tauto|]. split; [exact I|].
  split; [vm_compute; split; reflexivity|vm_compute; reflexivity].
Qed.

(** ** C39 Success *)

(** What the root finder must do for the claim: answer with a root, and (where the claim needs it) be asking for that point last.
    Common recirculation and a common fraction of the ranges: the run with the returned configuration reaches the target. *)
Theorem C39_common : forall ph sec loop c, wired sec -> separate sec ->
  sec_control sec = PCCommon loop c ->
  forall target inlet h sol h', accurate (fc_abs_tol target) (sec_finder sec) -> 0 <= fc_abs_tol target ->
  find_solution ph sec [target] inlet h = (Return sol, h') -> success sol = true ->
  exists out h2, run_with ph sec (sol_configuration sol) inlet h' = (Return out, h2) /\ within (fc_abs_tol target) target out.
Proof. exact success_common_proof. Qed.
Print Assumptions C39_common.
Theorem C39_rate : forall ph sec loops cs, wired sec -> separate sec -> paired sec ->
  sec_control sec = PCRate loops cs ->
  forall target inlet h sol h', accurate (fc_abs_tol target) (sec_finder sec) -> 0 <= fc_abs_tol target ->
  find_solution ph sec [target] inlet h = (Return sol, h') -> success sol = true ->
  exists out h2, run_with ph sec (sol_configuration sol) inlet h' = (Return out, h2) /\ within (fc_abs_tol target) target out.
Proof. exact success_rate_proof. Qed.
Print Assumptions C39_rate.
(** A choke behind the compressors: no root finder is involved; the run can only fail where the choke's own fluid is calculated. *)
Theorem C39_downstream : forall ph sec k u before, wired sec -> separate sec -> consistent_service (ph_service ph) ->
  sec_control sec = PCDownstream k ->
  dict_get Nat.eqb k (r_handlers (sec_runner sec)) = Some (ChokeHandler u) ->
  r_units (sec_runner sec) = before ++ [(u, Choke)] -> ~ In u (map fst before) ->
  forall target inlet h sol h', 0 <= fc_abs_tol target ->
  find_solution ph sec [target] inlet h = (Return sol, h') -> success sol = true ->
  exists o h2, run_with ph sec (sol_configuration sol) inlet h' = (o, h2) /\
    match o with
    | Return out => within (fc_abs_tol target) target out
    | Raise e => exists s, fc_value target < s_pressure s /\ drop_pressure ph (s_pressure s - fc_value target) s = Raise e
    end.
Proof. exact success_downstream_proof. Qed.
Print Assumptions C39_downstream.
(** A choke in front, and a target for each stage. *)
Theorem C39_upstream : forall ph sec k, wired sec -> separate sec -> paired sec ->
  sec_control sec = PCUpstream k ->
  forall target inlet h sol h', accurate (fc_abs_tol target) (sec_finder sec) -> settled (sec_finder sec) -> 0 <= fc_abs_tol target ->
  find_solution ph sec [target] inlet h = (Return sol, h') -> success sol = true ->
  exists out h2, run_with ph sec (sol_configuration sol) inlet h' = (Return out, h2) /\ within (fc_abs_tol target) target out.
Proof. exact success_upstream_proof. Qed.
Print Assumptions C39_upstream.
Theorem C39_pressure : forall ph sec loops cs0 cid ch before after, wired sec -> separate sec -> paired sec ->
  consistent_service (ph_service ph) ->
  sec_control sec = PCPressure loops (cs0 ++ [(cid, ch)]) ->
  r_units (sec_runner sec) = before ++ (cid, Compressor ch) :: after -> ~ In cid (map fst before) ->
  (forall u, In u after -> keeps_pressure (snd u)) ->
  forall target inlet h sol h', accurate (qc 1 1000) (sec_finder sec) -> settled (sec_finder sec) -> 0 <= fc_abs_tol target ->
  power (sec_root sec (fc_value target / s_pressure inlet) (length loops)) (length loops) = fc_value target / s_pressure inlet ->
  find_solution ph sec [target] inlet h = (Return sol, h') -> success sol = true ->
  exists o h2, run_with ph sec (sol_configuration sol) inlet h' = (o, h2) /\
    match o with
    | Return out => within (Qcmax (fc_abs_tol target) (qc 1 1000)) target out
    | Raise e => exists h3 s, propagate_many ph h3 after s = Raise e
    end.
Proof. exact success_pressure_proof. Qed.
Print Assumptions C39_pressure.

(** A compressor that adds 100 - 8 r bar at the rate r, between 1 and 10. *)
Definition C39_chart : chart := mk_chart (fun _ => 1) (fun _ => qz 10) (fun s r => Return (qz 100 - qz 8 * r, qc 1 2)) (qz 10) (qz 20).
Definition C39_physics (sv : service) : physics := mk_physics sv (fun kappa e hd mm z t p => Some (p + hd)).
(** Secant through the ends of the range; the answer is checked. *)
Definition C39_secant (b : boundary) (y0 y1 : Qc) : Qc := b_min b - y0 * (b_max b - b_min b) / (y1 - y0).
Definition C39_finder : root_finder := fun b =>
  Probe (b_min b) (fun y0 => Probe (b_max b) (fun y1 => Probe (C39_secant b y0 y1) (fun y =>
    if Qcleb (Qcabs y) (qc 1 1000) then Found (C39_secant b y0 y1) else Stop DidNotConverge))).
Lemma C39_finder_accurate : accurate (qc 1 1000) C39_finder.
Proof.
  intros b f x l H. cbn [follow C39_finder] in H. destruct (f (b_min b)) as [y0|]; [|discriminate]. destruct (f (b_max b)) as [y1|]; [|discriminate].
  destruct (f (C39_secant b y0 y1)) as [y|] eqn:E; [|discriminate]. destruct (Qcleb (Qcabs y) (qc 1 1000)) eqn:L; cbn [follow] in H; [|discriminate].
  assert (C39_secant b y0 y1 = x) as <- by congruence. exists y. split; [exact E|]. now apply Qcleb_le.
Qed.
Lemma C39_finder_settled : settled C39_finder.
Proof.
  intros b f x l H. cbn [follow C39_finder] in H. destruct (f (b_min b)) as [y0|]; [|discriminate]. destruct (f (b_max b)) as [y1|]; [|discriminate].
  destruct (f (C39_secant b y0 y1)) as [y|] eqn:E; [|discriminate]. destruct (Qcleb (Qcabs y) (qc 1 1000)) eqn:L; cbn [follow] in H; [|discriminate].
  congruence.
Qed.

Definition C39_section_of (units : list unit_) (next : nat) (anti : anti_surge_type) (control : pressure_control_type) (cs : list compressor)
    (loops : list handler_id) (choke : option handler_id) (finder : root_finder) : section :=
  let parts := assemble_section units next anti control in
  match assemble_solver 0%nat (snd parts) (fst parts ++ [(20%nat, VariableSpeedShaft (map fst cs))]) cs loops 20%nat (map snd cs) control choke
          finder (fun x n => qz 2) with
  | Return sec => sec
  | Raise _ => mk_section 0%nat 0%nat (mk_runner [] []) ASNone (PCUpstream 0%nat) (mk_boundary 0 0) finder (fun x n => x)
  end.
Definition C39_one (chart : chart) (anti : anti_surge_type) (control : pressure_control_type) (finder : root_finder) : section :=
  C39_section_of [(0%nat, Compressor chart)] 1%nat anti control [(0%nat, chart)] [3%nat]
    (match control with UpstreamChoke | DownstreamChoke => Some 5%nat | _ => None end) finder.
Definition C39_two (control : pressure_control_type) (finder : root_finder) : section :=
  C39_section_of [(0%nat, Compressor C39_chart); (1%nat, Compressor C39_chart)] 2%nat IndividualASV control
    [(0%nat, C39_chart); (1%nat, C39_chart)] [4%nat; 7%nat] None finder.

Ltac C39_apart :=
  let i := fresh in let a := fresh in let j := fresh in let b := fresh in let c := fresh in
  let I := fresh in let J := fresh in let NE := fresh in let X := fresh in let Y := fresh in
  intros i a j b c I J NE; vm_compute in I, J;
  repeat (destruct I as [I|I]; [injection I as <- <-|]); try contradiction;
  repeat (destruct J as [J|J]; [injection J as <- <-|]); try contradiction; try (exfalso; apply NE; reflexivity);
  cbn [handler_cells]; intros X Y; subst;
  repeat match goal with H : _ \/ _ |- _ => destruct H | H : exists _, _ |- _ => destruct H | H : _ /\ _ |- _ => destruct H end; congruence.

(** Whatever the chart and the finder, these sections are as the theorems ask. *)
Lemma C39_one_sound : forall chart anti control finder, In (anti, control) [(CommonASV, CommonASVControl); (IndividualASV, DownstreamChoke); (IndividualASV, UpstreamChoke)] ->
  wired (C39_one chart anti control finder) /\ paired (C39_one chart anti control finder) /\ separate (C39_one chart anti control finder).
Proof.
  intros chart anti control finder H.
  set (parts := assemble_section [(0%nat, Compressor chart)] 1%nat anti control).
  set (hs := fst parts ++ [(20%nat, VariableSpeedShaft (map fst [(0%nat, chart)]))]).
  assert (N : NoDup (map fst hs)).
  { destruct H as [[= <- <-]|[[= <- <-]|[[= <- <-]|[]]]]; vm_compute; repeat constructor; cbn; lia. }
  assert (A : apart hs) by (destruct H as [[= <- <-]|[[= <- <-]|[[= <- <-]|[]]]]; C39_apart).
  assert (W : wired (C39_one chart anti control finder) /\ paired (C39_one chart anti control finder) /\
              (NoDup [3%nat] -> apart hs -> separate (C39_one chart anti control finder))).
  { eapply (C40_assembled 0%nat (snd parts) hs [(0%nat, chart)] [3%nat] 20%nat [chart] control
      (match control with UpstreamChoke | DownstreamChoke => Some 5%nat | _ => None end) finder (fun x n => qz 2)).
    - exact N.
    - exists [0%nat]. destruct H as [[= <- <-]|[[= <- <-]|[[= <- <-]|[]]]]; vm_compute; tauto.
    - intros l [<-|[]]. exists 1%nat, 2%nat. destruct H as [[= <- <-]|[[= <- <-]|[[= <- <-]|[]]]]; vm_compute; tauto.
    - intros k K. exists 4%nat. destruct H as [[= <- <-]|[[= <- <-]|[[= <- <-]|[]]]]; vm_compute in K; try discriminate K; injection K as <-; vm_compute; tauto.
    - unfold C39_one, C39_section_of. fold parts. cbn [map fst snd]. fold hs. unfold assemble_solver.
      destruct H as [[= <- <-]|[[= <- <-]|[[= <- <-]|[]]]]; cbn [resolve_strategies length Nat.eqb obind speed_boundary ch_min_speed ch_max_speed map fold_left]; reflexivity. }
  destruct W as (W1 & W2 & W3). split; [exact W1|]. split; [exact W2|]. apply W3; [repeat constructor; intros []|exact A].
Qed.

Lemma C39_two_sound : forall control finder, In control [IndividualASVRate; IndividualASVPressure] ->
  wired (C39_two control finder) /\ paired (C39_two control finder) /\ separate (C39_two control finder).
Proof.
  intros control finder H.
  set (cs := [(0%nat, C39_chart); (1%nat, C39_chart)]).
  set (parts := assemble_section [(0%nat, Compressor C39_chart); (1%nat, Compressor C39_chart)] 2%nat IndividualASV control).
  set (hs := fst parts ++ [(20%nat, VariableSpeedShaft (map fst cs))]).
  assert (N : NoDup (map fst hs)) by (destruct H as [<-|[<-|[]]]; vm_compute; repeat constructor; cbn; lia).
  assert (A : apart hs) by (destruct H as [<-|[<-|[]]]; C39_apart).
  assert (W : wired (C39_two control finder) /\ paired (C39_two control finder) /\
              (NoDup [4%nat; 7%nat] -> apart hs -> separate (C39_two control finder))).
  { eapply (C40_assembled 0%nat (snd parts) hs cs [4%nat; 7%nat] 20%nat (map snd cs) control None finder (fun x n => qz 2)).
    - exact N.
    - exists [0%nat; 1%nat]. destruct H as [<-|[<-|[]]]; vm_compute; tauto.
    - intros l [<-|[<-|[]]]; [exists 2%nat, 3%nat|exists 5%nat, 6%nat]; destruct H as [<-|[<-|[]]]; vm_compute; tauto.
    - discriminate.
    - destruct H as [<-|[<-|[]]]; reflexivity. }
  destruct W as (W1 & W2 & W3). split; [exact W1|]. split; [exact W2|]. apply W3; [|exact A].
  constructor; [intros [X|[]]; discriminate X|repeat constructor; intros []].
Qed.

(** What solving and then running the section gives: the pressures of the section as solved first and as run with the answer. *)
Definition C39_solves (ph : physics) (sec : section) (target : float_constraint) (inlet : stream) (ok : outcome stream -> bool) : bool :=
  match find_solution ph sec [target] inlet C40_fresh with
  | (Return sol, h') => success sol && ok (fst (run_with ph sec (sol_configuration sol) inlet h'))
  | _ => false
  end.
Lemma C39_solves_ok : forall ph sec target inlet ok, C39_solves ph sec target inlet ok = true ->
  exists sol h', find_solution ph sec [target] inlet C40_fresh = (Return sol, h') /\ success sol = true /\
    ok (fst (run_with ph sec (sol_configuration sol) inlet h')) = true.
Proof.
  intros ph sec target inlet ok H. unfold C39_solves in H. destruct (find_solution ph sec [target] inlet C40_fresh) as [[sol|e] h']; [|discriminate].
  apply andb_true_iff in H. destruct H as [H1 H2]. exists sol, h'. auto.
Qed.
Definition C39_reaches (p : Qc) (o : outcome stream) : bool :=
  match o with Return s => Qceqb (s_pressure s) p | Raise _ => false end.
Definition C39_target (p : Qc) : float_constraint := mk_constraint p (qc 1 1000).

Example C39_common_case :
  let sec := C39_one C39_chart CommonASV CommonASVControl C39_finder in
  wired sec /\ separate sec /\ sec_control sec = PCCommon 3%nat (0%nat, C39_chart) /\ accurate (fc_abs_tol (C39_target (qz 90))) (sec_finder sec) /\
  exists sol h', find_solution (C39_physics C43_service) sec [C39_target (qz 90)] C37_in C40_fresh = (Return sol, h') /\ success sol = true /\
    C39_reaches (qz 90) (fst (run_with (C39_physics C43_service) sec (sol_configuration sol) C37_in h')) = true.
Proof.
  cbv zeta. destruct (C39_one_sound C39_chart CommonASV CommonASVControl C39_finder) as (A & _ & B); [cbn; tauto|].
  split; [exact A|]. split; [exact B|]. split; [reflexivity|]. split; [exact C39_finder_accurate|]. apply C39_solves_ok. vm_compute. reflexivity.
Qed.
Example C39_downstream_case :
  let sec := C39_one C39_chart IndividualASV DownstreamChoke C39_finder in
  wired sec /\ separate sec /\ consistent_service C43_service /\ sec_control sec = PCDownstream 5%nat /\
  dict_get Nat.eqb 5%nat (r_handlers (sec_runner sec)) = Some (ChokeHandler 4%nat) /\
  r_units (sec_runner sec) = [(1%nat, DirectMixer); (0%nat, Compressor C39_chart); (2%nat, DirectSplitter)] ++ [(4%nat, Choke)] /\
  exists sol h', find_solution (C39_physics C43_service) sec [C39_target (qz 90)] C37_in C40_fresh = (Return sol, h') /\ success sol = true /\
    C39_reaches (qz 90) (fst (run_with (C39_physics C43_service) sec (sol_configuration sol) C37_in h')) = true.
Proof.
  cbv zeta. destruct (C39_one_sound C39_chart IndividualASV DownstreamChoke C39_finder) as (A & _ & B); [cbn; tauto|].
  split; [exact A|]. split; [exact B|]. split; [exact C43_service_consistent|]. split; [reflexivity|]. split; [reflexivity|]. split; [reflexivity|].
  apply C39_solves_ok. vm_compute. reflexivity.
Qed.
Example C39_upstream_case :
  let sec := C39_one C39_chart IndividualASV UpstreamChoke C39_finder in
  wired sec /\ separate sec /\ paired sec /\ sec_control sec = PCUpstream 5%nat /\ accurate (fc_abs_tol (C39_target (qz 90))) (sec_finder sec) /\ settled (sec_finder sec) /\
  exists sol h', find_solution (C39_physics C43_service) sec [C39_target (qz 90)] C37_in C40_fresh = (Return sol, h') /\ success sol = true /\
    C39_reaches (qz 90) (fst (run_with (C39_physics C43_service) sec (sol_configuration sol) C37_in h')) = true.
Proof.
  cbv zeta. destruct (C39_one_sound C39_chart IndividualASV UpstreamChoke C39_finder) as (A & P & B); [cbn; tauto|].
  split; [exact A|]. split; [exact B|]. split; [exact P|]. split; [reflexivity|]. split; [exact C39_finder_accurate|]. split; [exact C39_finder_settled|].
  apply C39_solves_ok. vm_compute. reflexivity.
Qed.
Example C39_stages_case : forall control, In control [IndividualASVRate; IndividualASVPressure] ->
  let sec := C39_two control C39_finder in
  wired sec /\ separate sec /\ paired sec /\ accurate (qc 1 1000) (sec_finder sec) /\ settled (sec_finder sec) /\
  power (sec_root sec (qz 120 / s_pressure C37_in) 2) 2 = qz 120 / s_pressure C37_in /\
  (exists sol h', find_solution (C39_physics C43_service) sec [C39_target (qz 120)] C37_in C40_fresh = (Return sol, h') /\ success sol = true /\
    C39_reaches (qz 120) (fst (run_with (C39_physics C43_service) sec (sol_configuration sol) C37_in h')) = true) /\
  exists before after, r_units (sec_runner sec) = before ++ (1%nat, Compressor C39_chart) :: after /\ ~ In 1%nat (map fst before) /\
    (forall u, In u after -> keeps_pressure (snd u)).
Proof.
  intros control H sec. destruct (C39_two_sound control C39_finder H) as (A & P & B).
  split; [exact A|]. split; [exact B|]. split; [exact P|].
  split; [destruct H as [<-|[<-|[]]]; exact C39_finder_accurate|]. split; [destruct H as [<-|[<-|[]]]; exact C39_finder_settled|].
  split; [destruct H as [<-|[<-|[]]]; apply Qc_is_canon; vm_compute; reflexivity|].
  split; [apply C39_solves_ok; destruct H as [<-|[<-|[]]]; vm_compute; reflexivity|].
  exists [(2%nat, DirectMixer); (0%nat, Compressor C39_chart); (3%nat, DirectSplitter); (5%nat, DirectMixer)], [(6%nat, DirectSplitter)].
  split; [destruct H as [<-|[<-|[]]]; reflexivity|]. split; [cbn; intuition discriminate|]. intros u [<-|[]]. exact I.
Qed.

(** The claim fails when the root finder looks at one more point after the root, as the library's may. *)
Definition C39_looks_on : root_finder := fun b =>
  Probe (b_min b) (fun y0 => Probe (b_max b) (fun y1 => Probe (C39_secant b y0 y1) (fun y =>
    if Qcleb (Qcabs y) (qc 1 1000) then Probe (b_max b) (fun _ => Found (C39_secant b y0 y1)) else Stop DidNotConverge))).
Lemma C39_looks_on_accurate : accurate (qc 1 1000) C39_looks_on.
Proof.
  intros b f x l H. cbn [follow C39_looks_on] in H. destruct (f (b_min b)) as [y0|]; [|discriminate]. destruct (f (b_max b)) as [y1|] eqn:E1; [|discriminate].
  destruct (f (C39_secant b y0 y1)) as [y|] eqn:E; [|discriminate]. destruct (Qcleb (Qcabs y) (qc 1 1000)) eqn:L; cbn [follow] in H; [|discriminate].
  destruct (f (b_max b)); [|discriminate].
  assert (C39_secant b y0 y1 = x) as <- by congruence. exists y. split; [exact E|]. now apply Qcleb_le.
Qed.

(** Gas whose density is its pressure, and a compressor that needs a rate of at least 5. *)
Definition C39_props (m : fluid_model) (p t h : Qc) : properties :=
  mk_properties t p p h 1 (qc 13 10) 1 (average_molar_mass (fm_composition m)) (qc 4 5).
Definition C39_service : service :=
  mk_service (fun m p t => Return (C39_props m p t (qz 2 * t))) (fun m p h g => Return (C39_props m p (h / qz 2) h)) (fun f => Return f) (fun m => qc 4 5).
Lemma C39_service_consistent : consistent_service C39_service.
Proof.
  split; [intros m; vm_compute; reflexivity|]. split.
  - intros m p t props H. cbn in H. injection H as <-. cbn. auto.
  - intros m p h g props H. cbn in H. injection H as <-. cbn. auto.
Qed.
Definition C39_narrow : chart := mk_chart (fun _ => qz 5) (fun _ => qz 10) (fun s r => Return (qz 60, qc 1 2)) (qz 10) (qz 20).
Definition C39_in : stream := mk_stream (mk_fluid (mk_model SRK C43_methane) (C39_props (mk_model SRK C43_methane) (qz 30) (qz 300) (qz 600))) (qz 100).
(** A choke in front: the loop is left as the last point asked for needs it, and the run of the "successful" solution surges. *)
Theorem C39_unsettled_refuted : exists ph sec k target inlet h sol h', wired sec /\ separate sec /\ paired sec /\ consistent_service (ph_service ph) /\
  sec_control sec = PCUpstream k /\ accurate (fc_abs_tol target) (sec_finder sec) /\ 0 <= fc_abs_tol target /\
  find_solution ph sec [target] inlet h = (Return sol, h') /\ success sol = true /\
  fst (run_with ph sec (sol_configuration sol) inlet h') = Raise SurgeError.
Proof.
  destruct (C39_one_sound C39_narrow IndividualASV UpstreamChoke C39_looks_on) as (A & P & B); [cbn; tauto|].
  exists (C39_physics C39_service), (C39_one C39_narrow IndividualASV UpstreamChoke C39_looks_on), 5%nat, (C39_target (qz 85)), C39_in, C40_fresh.
  destruct (C39_solves_ok (C39_physics C39_service) (C39_one C39_narrow IndividualASV UpstreamChoke C39_looks_on) (C39_target (qz 85)) C39_in
    (fun o => match o with Raise SurgeError => true | _ => false end)) as (sol & h' & E & F & G); [vm_compute; reflexivity|].
  exists sol, h'. split; [exact A|]. split; [exact B|]. split; [exact P|]. split; [exact C39_service_consistent|]. split; [reflexivity|].
  split; [exact C39_looks_on_accurate|]. split; [vm_compute; discriminate|]. split; [exact E|]. split; [exact F|].
  destruct (fst (run_with _ _ _ _ h')) as [|[]]; try discriminate G. reflexivity.
Qed.
Print Assumptions C39_unsettled_refuted.
(** A target for each stage: the next stage is solved against the last point asked for, and the run misses the target. *)
Theorem C39_stage_refuted : exists ph sec loops cs target inlet h sol h' out, wired sec /\ separate sec /\ paired sec /\ consistent_service (ph_service ph) /\
  sec_control sec = PCPressure loops cs /\ accurate (fc_abs_tol target) (sec_finder sec) /\
  power (sec_root sec (fc_value target / s_pressure inlet) (length loops)) (length loops) = fc_value target / s_pressure inlet /\
  find_solution ph sec [target] inlet h = (Return sol, h') /\ success sol = true /\
  fst (run_with ph sec (sol_configuration sol) inlet h') = Return out /\ fc_value target + 1 < s_pressure out.
Proof.
  destruct (C39_two_sound IndividualASVPressure C39_looks_on) as (A & P & B); [cbn; tauto|].
  exists (C39_physics C43_service), (C39_two IndividualASVPressure C39_looks_on), [4%nat; 7%nat], [(0%nat, C39_chart); (1%nat, C39_chart)],
    (C39_target (qz 120)), C37_in, C40_fresh.
  destruct (C39_solves_ok (C39_physics C43_service) (C39_two IndividualASVPressure C39_looks_on) (C39_target (qz 120)) C37_in
    (fun o => match o with Return s => Qcltb (qz 120 + 1) (s_pressure s) | Raise _ => false end)) as (sol & h' & E & F & G); [vm_compute; reflexivity|].
  destruct (fst (run_with _ _ _ _ h')) as [out|] eqn:R; [|discriminate G]. apply Qcltb_lt in G.
  exists sol, h', out. split; [exact A|]. split; [exact B|]. split; [exact P|]. split; [exact C43_service_consistent|]. split; [reflexivity|].
  split; [exact C39_looks_on_accurate|]. split; [apply Qc_is_canon; vm_compute; reflexivity|]. split; [exact E|]. split; [exact F|].
  split; [exact R|exact G].
Qed.
Print Assumptions C39_stage_refuted.
(** A root finder that stops within a relative distance of the root, as the one in use does, gives no bound on the pressure. *)
Definition C39_steep : chart := mk_chart (fun _ => 1) (fun _ => qz 8) (fun s r => Return (qz 900 - qz 100 * r, qc 1 2)) (qz 10) (qz 20).
Definition C39_near : root_finder := fun b =>
  Probe (b_min b) (fun y0 => Probe (b_max b) (fun y1 => Probe (C39_secant b y0 y1) (fun y =>
    if Qceqb y 0 then Found (C39_secant b y0 y1 * (1 - qc 9 1000000)) else Stop DidNotConverge))).
Theorem C39_tolerance_refuted : exists ph sec loop c target inlet h sol h' out, wired sec /\ separate sec /\ consistent_service (ph_service ph) /\
  sec_control sec = PCCommon loop c /\ near_root (qc 1 100000) (sec_finder sec) /\
  find_solution ph sec [target] inlet h = (Return sol, h') /\ success sol = true /\
  fst (run_with ph sec (sol_configuration sol) inlet h') = Return out /\ fc_value target + fc_abs_tol target < s_pressure out.
Proof.
  destruct (C39_one_sound C39_steep CommonASV CommonASVControl C39_near) as (A & _ & B); [cbn; tauto|].
  exists (C39_physics C43_service), (C39_one C39_steep CommonASV CommonASVControl C39_near), 3%nat, (0%nat, C39_steep), (C39_target (qz 430)), C37_in, C40_fresh.
  destruct (C39_solves_ok (C39_physics C43_service) (C39_one C39_steep CommonASV CommonASVControl C39_near) (C39_target (qz 430)) C37_in
    (fun o => match o with Return s => Qcltb (qz 430 + qc 1 1000) (s_pressure s) | Raise _ => false end)) as (sol & h' & E & F & G); [vm_compute; reflexivity|].
  destruct (fst (run_with _ _ _ _ h')) as [out|] eqn:R; [|discriminate G]. apply Qcltb_lt in G.
  exists sol, h', out. split; [exact A|]. split; [exact B|]. split; [exact C43_service_consistent|]. split; [reflexivity|]. split.
  { intros b f x l H. cbn [sec_finder C39_one] in H. change (follow (C39_near b) f None = Return (x, l)) in H. cbn [follow C39_near] in H.
    destruct (f (b_min b)) as [y0|]; [|discriminate]. destruct (f (b_max b)) as [y1|]; [|discriminate].
    destruct (f (C39_secant b y0 y1)) as [y|] eqn:Ey; [|discriminate]. destruct (Qceqb y 0) eqn:L; cbn [follow] in H; [|discriminate].
    apply Qceqb_eq in L. subst y. exists (C39_secant b y0 y1). split; [exact Ey|].
    assert (x = C39_secant b y0 y1 * (1 - qc 9 1000000)) as -> by congruence. unfold qc in *. qc_cases; qc_nra. }
  split; [exact E|]. split; [exact F|]. split; [exact R|exact G].
Qed.
Print Assumptions C39_tolerance_refuted.

(** ** C41 Equal pressure ratios *)

Theorem C41_equal_ratio : forall ph nth_root secs target inlet,
  let n := length secs in
  (0 < n)%nat -> s_pressure inlet <> 0 ->
  exists targets,
    multi_shaft_equal_ratio ph nth_root secs [target] inlet = multi_shaft ph secs targets inlet /\
    length targets = n /\
    nth_error targets (n - 1) = Some target /\
    (forall i c, (S i < n)%nat -> nth_error targets i = Some c -> fc_abs_tol c = fc_abs_tol target) /\
    (exists ratio,
       ratio = nth_root (fc_value target / s_pressure inlet) n /\
       (forall c, (1 < n)%nat -> nth_error targets 0 = Some c -> fc_value c = s_pressure inlet * ratio) /\
       (forall i c c', (S (S i) < n)%nat -> nth_error targets i = Some c -> nth_error targets (S i) = Some c' ->
          fc_value c' = fc_value c * ratio) /\
       (power ratio n = fc_value target / s_pressure inlet ->
          forall i c c', (S i < n)%nat -> nth_error targets i = Some c -> nth_error targets (S i) = Some c' ->
            fc_value c' = fc_value c * ratio)).
Proof. exact equal_ratio_proof. Qed.
Print Assumptions C41_equal_ratio.
Theorem C41_errors : forall ph nth_root secs targets inlet h,
  (length targets <> 1%nat -> multi_shaft_equal_ratio ph nth_root secs targets inlet h = (Raise AssertionErr, h)) /\
  (forall target, targets = [target] -> secs = [] ->
     multi_shaft_equal_ratio ph nth_root secs targets inlet h = (Return (mk_solution [] None), h)) /\
  (forall target, targets = [target] -> secs <> [] -> s_pressure inlet = 0 ->
     multi_shaft_equal_ratio ph nth_root secs targets inlet h = (Raise ZeroDivisionErr, h)).
Proof. exact equal_ratio_errors_proof. Qed.
Print Assumptions C41_errors.
Example C41_case : (0 < length [C40_section; C40_section; C40_section])%nat /\ s_pressure C37_in <> 0 /\
  power (qz 2) 3 = fc_value (mk_constraint (qz 240) (qc 1 100)) / s_pressure C37_in /\
  map (fun c => this (fc_value c)) (equal_ratio_targets 3 (qz 2) (mk_constraint (qz 240) (qc 1 100)) (s_pressure C37_in)) =
  map (fun x => this (qz x)) [60; 120; 240]%Z.
Proof. split; [cbn; lia|]. split; [vm_compute; discriminate|]. split; [apply Qc_is_canon; vm_compute; reflexivity|vm_compute; reflexivity]. Qed.

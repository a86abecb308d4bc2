(** The properties of the sampled compressor: a table over one variable (C89) and over two (C90), every period on its own (C91), power and
    validity (C92) and the largest rate (C93).

    Every theorem is closed by the proof in the [Sampled_Proofs] files. *)
From Coq Require Import List Bool ZArith Lia.
From Verif Require Import QcTac Base Num Interp_Model Interp_Spec Sampled_Model Sampled_Spec Sampled_Proofs5 Sampled_Proofs6 Sampled_Proofs7 Sampled_Proofs8 Sampled_Proofs9.
Import ListNotations.
Local Open Scope Qc_scope.

(** ** Concrete cases.  A case is one in which the table [s] is accepted, the variables [vs] vary, and the request of period [k] is evaluated,
    is not off and is within the constant columns. *)
Definition C89_ready (s : samples) (rate ps pd : option (list Qc)) (k : nat) (vs : list variable) : Prop :=
  exists m res u, make_sampled triangles s = Ok m /\ evaluate_sampled m rate ps pd = Ok res /\ nth_error (sr_usage res) k = Some u /\
    only_vary s vs /\ running rate k /\ within_constants s rate ps pd k.
Definition C89_check (s : samples) (rate ps pd : option (list Qc)) (k : nat) (vs : list variable) : bool :=
  match make_sampled triangles s with
  | Ok m =>
      match evaluate_sampled m rate ps pd with
      | Ok res => (if list_eq_dec (fun a b : variable => ltac:(decide equality)) (varying_variables s) vs then true else false) &&
          match nth_error (sr_usage res) k with Some _ => true | None => false end &&
          match value_at rate k with Some r => Qcltb tiny r | None => true end &&
          conditions m (shifted (value_at rate k)) (value_at ps k) (value_at pd k)
      | Err _ => false
      end
  | Err _ => false
  end.
Lemma C89_checked : forall s rate ps pd k vs, C89_check s rate ps pd k vs = true -> C89_ready s rate ps pd k vs.
Proof.
  intros s rate ps pd k vs H. unfold C89_check in H. destruct (make_sampled triangles s) as [m|] eqn:Em; [|discriminate].
  destruct (evaluate_sampled m rate ps pd) as [res|] eqn:Er; [|discriminate]. rewrite !andb_true_iff in H. destruct H as [[[H1 H2] H3] H4].
  destruct (nth_error (sr_usage res) k) as [u|] eqn:Eu; [|discriminate].
  destruct (list_eq_dec _ (varying_variables s) vs) as [Ev|]; [|discriminate]. exists m, res, u. repeat split; auto; try (intros Hv).
  - apply (varying_ok s v); [now apply (make_sampled_inv triangles s m)|congruence].
  - rewrite <- Ev. apply (varying_ok s v); [now apply (make_sampled_inv triangles s m)|exact Hv].
  - intros Hq. apply value_at_requested in Hq. rewrite Hq in H3. now apply Qcltb_lt.
  - assert (running rate k) as R by (intros r Hq; apply value_at_requested in Hq; rewrite Hq in H3; now apply Qcltb_lt).
    revert Hv. apply (conditions_within triangles s m rate ps pd k Em R). exact H4.
  - assert (running rate k) as R by (intros r Hq; apply value_at_requested in Hq; rewrite Hq in H3; now apply Qcltb_lt).
    apply (conditions_within triangles s m rate ps pd k Em R). exact H4.
  - assert (running rate k) as R by (intros r Hq; apply value_at_requested in Hq; rewrite Hq in H3; now apply Qcltb_lt).
    apply (conditions_within triangles s m rate ps pd k Em R). exact H4.
Qed.
Definition C89_usage (s : samples) (rate ps pd : option (list Qc)) : option (list num) :=
  match make_sampled triangles s with
  | Ok m => match evaluate_sampled m rate ps pd with Ok res => Some (sr_usage res) | Err _ => None end
  | Err _ => None
  end.

(** rates 1, 4 and 2, at a suction pressure of 5 *)
Definition C89_samples : samples :=
  mkSamples [qz 10; qz 40; qz 20] POWER (Some [qz 1; qz 4; qz 2]) (Some [qz 5; qz 5; qz 5]) None None.
Definition C89_rates : option (list Qc) := Some [qz 0; qz 3 + tiny; qz 3 + tiny; qz 5; qc 1 2].
Definition C89_suction : option (list Qc) := Some [qz 5; qz 5; qz 4; qz 5; qz 6].

(** * C89: one variable *)
Theorem C89_off : forall g s m rate ps pd res k, make_sampled g s = Ok m -> evaluate_sampled m rate ps pd = Ok res ->
  off rate k -> nth_error (sr_usage res) k = Some (Some 0).
Proof. exact off_uses_nothing. Qed.
Print Assumptions C89_off.
Example C89_case_off : off C89_rates 0.
Proof. exists (qz 0). split; [exists [qz 0; qz 3 + tiny; qz 3 + tiny; qz 5; qc 1 2]; split; reflexivity|]. vm_compute. discriminate. Qed.

Theorem C89_interpolates : forall g s m rate ps pd res k u v xs,
  make_sampled g s = Ok m -> evaluate_sampled m rate ps pd = Ok res -> nth_error (sr_usage res) k = Some u ->
  only_vary s [v] -> column s v xs -> running rate k -> within_constants s rate ps pd k ->
  exists x, requested (series v rate ps pd) k x /\ answer_1d v (combine xs (sm_usage s)) (looked_up v x) u.
Proof. exact one_variable. Qed.
Print Assumptions C89_interpolates.
Example C89_case : C89_ready C89_samples C89_rates C89_suction None 1 [RATE] /\ C89_ready C89_samples C89_rates C89_suction None 4 [RATE] /\
  column C89_samples RATE [qz 1; qz 4; qz 2].
Proof. split; [|split]; [apply C89_checked; vm_compute; reflexivity|apply C89_checked; vm_compute; reflexivity|reflexivity]. Qed.
Example C89_case_values : C89_usage C89_samples C89_rates C89_suction None =
  Some [Some (qz 0); Some (qz 30); None; None; Some (qz 10)].
Proof. vm_compute. reflexivity. Qed.

Theorem C89_outside : forall g s m rate ps pd res k u, make_sampled g s = Ok m -> evaluate_sampled m rate ps pd = Ok res ->
  nth_error (sr_usage res) k = Some u -> running rate k -> ~ within_constants s rate ps pd k -> u = None.
Proof. exact outside_constants. Qed.
Print Assumptions C89_outside.
Example C89_case_outside : running C89_rates 2 /\ ~ within_constants C89_samples C89_rates C89_suction None 2.
Proof.
  split.
  - intros r (l & E & H). injection E as <-. cbn in H. injection H as <-. reflexivity.
  - intros (_ & H & _). specialize (H (qz 5) (qz 4)). assert (qz 5 <= qz 4) as Q; [|apply Q; vm_compute; reflexivity]. apply H.
    + exists [qz 5; qz 5; qz 5]. split; [reflexivity|]. split; [discriminate|]. intros x [<-|[<-|[<-|[]]]]; reflexivity.
    + exists [qz 5; qz 5; qz 4; qz 5; qz 6]. split; reflexivity.
Qed.

Theorem C89_accepted : forall g s v xs, acceptable s -> only_vary s [v] -> column s v xs ->
  (NoDup xs <-> exists m, make_sampled g s = Ok m) /\ (~ NoDup xs <-> make_sampled g s = Err TypeError).
Proof. exact accepted_1d. Qed.
Print Assumptions C89_accepted.
Example C89_case_accepted : acceptable C89_samples /\ NoDup [qz 1; qz 4; qz 2] /\
  acceptable (mkSamples [qz 10; qz 40; qz 20] POWER (Some [qz 1; qz 4; qz 1]) None None None) /\ ~ NoDup [qz 1; qz 4; qz 1].
Proof.
  split; [apply acceptable_ok; vm_compute; reflexivity|]. split; [|split; [apply acceptable_ok; vm_compute; reflexivity|]].
  - repeat constructor; cbn; intros H; repeat destruct H as [H|H]; try discriminate H; destruct H.
  - intros H. inversion H as [|? ? N _]. apply N. cbn. auto.
Qed.

Theorem C89_refused : forall g s, ~ acceptable s -> make_sampled g s = Err ValidationError.
Proof. exact make_sampled_refuses. Qed.
Print Assumptions C89_refused.
Example C89_case_refused : ~ acceptable (mkSamples [qz 10; qz 40] POWER (Some [qz 1; qz 4; qz 2]) None None None).
Proof. intros H. apply acceptable_ok in H. revert H. vm_compute. discriminate. Qed.

(** A table in which no variable varies -- in particular one with a single row -- is acceptable, but is not supported. *)
Theorem C89_constant_refuted : forall g s, acceptable s -> only_vary s [] -> make_sampled g s = Err NotImplementedErr.
Proof. exact constant_table. Qed.
Print Assumptions C89_constant_refuted.
Example C89_case_constant : acceptable (mkSamples [qz 10] POWER (Some [qz 1]) (Some [qz 5]) None None) /\
  only_vary (mkSamples [qz 10] POWER (Some [qz 1]) (Some [qz 5]) None None) [].
Proof.
  split; [apply acceptable_ok; vm_compute; reflexivity|]. intros v. split; [intros []|]. intros (l & x & y & E & Hx & Hy & N). apply N.
  destruct v; cbn in E; [| |discriminate]; injection E as <-; destruct Hx as [<-|[]], Hy as [<-|[]]; reflexivity.
Qed.

(** * C90: two variables *)
Definition C90_rate_pd_samples : samples := mkSamples [qz 1; qz 13; qz 13] POWER (Some (map fst around)) None (Some (map snd around)) None.
Definition C90_rate_ps_samples : samples := mkSamples [qz 1; qz 13; qz 13] POWER (Some (map fst around)) (Some (map snd around)) None None.
Definition C90_ps_pd_samples : samples := mkSamples [qz 1; qz 13; qz 13] POWER None (Some (map fst around)) (Some (map snd around)) None.

Theorem C90_rate_and_discharge : forall g s m rate ps pd res k u xs ys,
  sound_geometry g -> make_sampled g s = Ok m -> evaluate_sampled m rate ps pd = Ok res -> nth_error (sr_usage res) k = Some u ->
  only_vary s [RATE; PD] -> column s RATE xs -> column s PD ys -> centred (combine xs ys) ->
  running rate k -> within_constants s rate ps pd k ->
  exists r p f, requested rate k r /\ requested pd k p /\ g_surface g (combine xs ys) (sm_usage s) = Ok f /\
    answer_2d (in_hull (combine xs ys)) f (r - tiny) p u.
Proof. exact two_rate_pd. Qed.
Print Assumptions C90_rate_and_discharge.
Example C90_case_rate_pd : sound_geometry triangles /\ centred (combine (map fst around) (map snd around)) /\
  C89_ready C90_rate_pd_samples (Some [qz 4; qz 1; qz 9]) None (Some [qz 4; qz 6; qz 9]) 0 [RATE; PD].
Proof. split; [exact triangles_sound|]. split; [exact around_centred|]. apply C89_checked. vm_compute. reflexivity. Qed.
(** inside; too small a rate for the discharge pressure; too large a rate for it *)
Example C90_case_rate_pd_values : C89_usage C90_rate_pd_samples (Some [qz 4 + tiny; qz 1 + tiny; qz 9 + tiny]) None (Some [qz 4; qz 6; qz 9]) =
  Some [Some (qz 9); Some (qc 41 5); None].
Proof. vm_compute. reflexivity. Qed.

Theorem C90_rate_and_suction : forall g s m rate ps pd res k u xs ys,
  sound_geometry g -> make_sampled g s = Ok m -> evaluate_sampled m rate ps pd = Ok res -> nth_error (sr_usage res) k = Some u ->
  only_vary s [RATE; PS] -> column s RATE xs -> column s PS ys -> centred (combine xs ys) ->
  running rate k -> within_constants s rate ps pd k ->
  exists r p f, requested rate k r /\ requested ps k p /\ g_surface g (combine xs ys) (sm_usage s) = Ok f /\
    answer_2d (fun r' q => in_hull (combine xs ys) r' (- q)) (fun r' q => f r' (- q)) (r - tiny) (- p) u.
Proof. exact two_rate_ps. Qed.
Print Assumptions C90_rate_and_suction.
Example C90_case_rate_ps : C89_ready C90_rate_ps_samples (Some [qz 4; qz 1; qz 9]) (Some [qz 4; qz 6; qz 1]) None 0 [RATE; PS].
Proof. apply C89_checked. vm_compute. reflexivity. Qed.
Example C90_case_rate_ps_values : C89_usage C90_rate_ps_samples (Some [qz 4 + tiny; qz 1 + tiny; qz 9 + tiny; qz 1 + tiny]) (Some [qz 4; qz 6; qz 1; qz 20]) None =
  Some [Some (qz 9); Some (qc 41 5); None; Some (qz 13)].
Proof. vm_compute. reflexivity. Qed.

Theorem C90_suction_and_discharge : forall g s m rate ps pd res k u xs ys,
  sound_geometry g -> make_sampled g s = Ok m -> evaluate_sampled m rate ps pd = Ok res -> nth_error (sr_usage res) k = Some u ->
  only_vary s [PS; PD] -> column s PS xs -> column s PD ys -> centred (combine xs ys) ->
  running rate k -> within_constants s rate ps pd k ->
  exists p d f, requested ps k p /\ requested pd k d /\ g_surface g (combine xs ys) (sm_usage s) = Ok f /\
    answer_2d (fun d' q => in_hull (combine xs ys) (- q) d') (fun d' q => f (- q) d') d (- p) u.
Proof. exact two_ps_pd. Qed.
Print Assumptions C90_suction_and_discharge.
Example C90_case_ps_pd : C89_ready C90_ps_pd_samples None (Some [qz 4; qz 20; qz 1]) (Some [qz 4; qz 1; qz 6]) 0 [PS; PD].
Proof. apply C89_checked. vm_compute. reflexivity. Qed.
Example C90_case_ps_pd_values : C89_usage C90_ps_pd_samples None (Some [qz 4; qz 20; qz 1]) (Some [qz 4; qz 1; qz 6]) =
  Some [Some (qz 9); Some (qz 13); None].
Proof. vm_compute. reflexivity. Qed.

(** Without the condition on the centre a request inside the table is answered with the value at another point. *)
Theorem C90_centre_refuted : exists g s m xs ys f r p e,
  sound_geometry g /\ make_sampled g s = Ok m /\ only_vary s [RATE; PD] /\ column s RATE xs /\ column s PD ys /\
  g_surface g (combine xs ys) (sm_usage s) = Ok f /\ tiny < r /\ in_hull (combine xs ys) (r - tiny) p /\
  (exists res, evaluate_sampled m (Some [r]) None (Some [p]) = Ok res /\ sr_usage res = [Some e]) /\
  f (r - tiny) p <> Some e /\ f (qz 9) (qz 1) = Some e.
Proof. exact right_triangle_refuted. Qed.
Print Assumptions C90_centre_refuted.
(** A table with three different points that do not lie on a line is not always accepted. *)
Theorem C90_accepted_refuted : exists g s xs ys, sound_geometry g /\ acceptable s /\ only_vary s [RATE; PD] /\
  column s RATE xs /\ column s PD ys /\
  (exists h, g_hull g (combine xs ys) = Ok h) /\ (exists f, g_surface g (combine xs ys) (sm_usage s) = Ok f) /\
  make_sampled g s = Err IndexError.
Proof. exact leaning_triangle_refuted. Qed.
Print Assumptions C90_accepted_refuted.

(** * C91: every period on its own *)
Theorem C91_alone : forall m rate ps pd res k u, evaluate_sampled m rate ps pd = Ok res -> nth_error (sr_usage res) k = Some u ->
  exists res' b, evaluate_sampled m (alone rate k) (alone ps k) (alone pd k) = Ok res' /\ sr_usage res' = [u] /\
    nth_error (sr_valid res) k = Some b /\ sr_valid res' = [b] /\
    (forall l, sr_power res = Some l -> exists w, nth_error l k = Some w /\ sr_power res' = Some [w]) /\
    (sr_power res = None -> sr_power res' = None).
Proof. exact periods_alone. Qed.
Print Assumptions C91_alone.
Theorem C91_lengths : forall m rate ps pd res, evaluate_sampled m rate ps pd = Ok res ->
  (rate <> None \/ ps <> None \/ pd <> None) /\
  (forall l, (rate = Some l \/ ps = Some l \/ pd = Some l) -> List.length l = List.length (sr_usage res)) /\
  List.length (sr_valid res) = List.length (sr_usage res) /\
  (forall l, sr_power res = Some l -> List.length l = List.length (sr_usage res)).
Proof. exact periods_length. Qed.
Print Assumptions C91_lengths.
Theorem C91_reported_rate : forall m rate ps pd res k, evaluate_sampled m rate ps pd = Ok res ->
  (forall r, requested rate k r -> 0 < r -> nth_error (sr_rate res) k = Some (Some (r - tiny))) /\
  (forall r, requested rate k r -> r <= 0 -> nth_error (sr_rate res) k = Some (Some r)) /\
  (rate = None -> forall u, nth_error (sr_usage res) k = Some u -> nth_error (sr_rate res) k = Some None).
Proof. exact reported_rate. Qed.
Print Assumptions C91_reported_rate.
Definition C91_result (s : samples) (rate ps pd : option (list Qc)) : option (list num * option (list num) * list bool) :=
  match make_sampled triangles s with
  | Ok m => match evaluate_sampled m rate ps pd with Ok res => Some (sr_usage res, sr_power res, sr_valid res) | Err _ => None end
  | Err _ => None
  end.
Example C91_case : C91_result C89_samples C89_rates C89_suction None =
    Some ([Some (qz 0); Some (qz 30); None; None; Some (qz 10)], Some [Some (qz 0); Some (qz 30); None; None; Some (qz 10)], [true; true; false; false; true]) /\
  C91_result C89_samples (alone C89_rates 1) (alone C89_suction 1) None = Some ([Some (qz 30)], Some [Some (qz 30)], [true]).
Proof. vm_compute. split; reflexivity. Qed.

(** * C92: power and validity *)
Theorem C92_electric : forall g s m rate ps pd res k u, make_sampled g s = Ok m -> evaluate_sampled m rate ps pd = Ok res ->
  sm_type s = POWER -> nth_error (sr_usage res) k = Some u ->
  sr_power res = Some (sr_usage res) /\ (nth_error (sr_valid res) k = Some true <-> u <> None).
Proof. exact electric. Qed.
Print Assumptions C92_electric.
Example C92_case_electric : C91_result C89_samples (Some [qz 2 + tiny; qz 6]) (Some [qz 5; qz 5]) None =
  Some ([Some (qz 20); None], Some [Some (qz 20); None], [true; false]).
Proof. vm_compute. reflexivity. Qed.
Theorem C92_fuel_alone : forall g s m rate ps pd res k u, make_sampled g s = Ok m -> evaluate_sampled m rate ps pd = Ok res ->
  sm_type s = FUEL -> (sm_power s = None \/ sm_power s = Some []) -> nth_error (sr_usage res) k = Some u ->
  sr_power res = None /\ (nth_error (sr_valid res) k = Some true <-> u <> None).
Proof. exact fuel_alone. Qed.
Print Assumptions C92_fuel_alone.
Example C92_case_fuel_alone : C91_result (mkSamples [qz 10; qz 40; qz 20] FUEL (Some [qz 1; qz 4; qz 2]) None None None) (Some [qz 2 + tiny; qz 6]) None None =
  Some ([Some (qz 20); None], None, [true; false]).
Proof. vm_compute. reflexivity. Qed.
Theorem C92_fuel_and_power : forall g s m rate ps pd res k u power, make_sampled g s = Ok m -> evaluate_sampled m rate ps pd = Ok res ->
  sm_type s = FUEL -> sm_power s = Some power -> NoDup (sm_usage s) -> nth_error (sr_usage res) k = Some u ->
  exists l w, sr_power res = Some l /\ nth_error l k = Some w /\
    (nth_error (sr_valid res) k = Some true <-> u <> None /\ w <> None) /\
    (u = None -> w = None) /\
    (forall x, u = Some x -> in_range (combine (sm_usage s) power) x -> exists y, interpolates (combine (sm_usage s) power) x y /\ w = Some y) /\
    (forall x, u = Some x -> (forall a, In a (sm_usage s) -> x < a) -> w = Some 0) /\
    (forall x, u = Some x -> (forall a, In a (sm_usage s) -> a < x) -> w = None).
Proof. exact fuel_and_power. Qed.
Print Assumptions C92_fuel_and_power.
Example C92_case_fuel_and_power : NoDup [qz 10; qz 40; qz 20] /\
  C91_result (mkSamples [qz 10; qz 40; qz 20] FUEL (Some [qz 1; qz 4; qz 2]) None None (Some [qz 3; qz 9; qz 5])) (Some [qz 3 + tiny; qz 0; qz 6]) None None =
  Some ([Some (qz 30); Some (qz 0); None], Some [Some (qz 7); Some (qz 0); None], [true; true; false]).
Proof.
  split; [|vm_compute; reflexivity]. repeat constructor; cbn; intros H; repeat destruct H as [H|H]; try discriminate H; destruct H.
Qed.

(** * C93: the largest rate *)
Definition C93_max (s : samples) (sp : option (list Qc)) : option (list num) :=
  match make_sampled triangles s with
  | Ok m => match get_max_standard_rate m sp with Ok l => Some l | Err _ => None end
  | Err _ => None
  end.
Theorem C93_no_rate : forall g s m sp, make_sampled g s = Ok m -> sm_rate s = None ->
  get_max_standard_rate m sp = Ok (repeat None (match sp with Some l => List.length l | None => 1%nat end)).
Proof. exact max_rate_none. Qed.
Print Assumptions C93_no_rate.
Example C93_case_no_rate : C93_max C90_ps_pd_samples (Some [qz 1; qz 2]) = Some [None; None].
Proof. vm_compute. reflexivity. Qed.
Theorem C93_table : forall g s m sp xs, make_sampled g s = Ok m -> only_vary s [RATE] -> column s RATE xs ->
  exists x, is_largest xs x /\ get_max_standard_rate m sp = Ok (repeat (Some x) (match sp with Some l => List.length l | None => 1%nat end)).
Proof. exact max_rate_one. Qed.
Print Assumptions C93_table.
Example C93_case_table : C93_max C89_samples (Some [qz 1; qz 2]) = Some [Some (qz 4); Some (qz 4)].
Proof. vm_compute. reflexivity. Qed.
Theorem C93_constant : forall g s m sp c, make_sampled g s = Ok m -> column_is (sm_rate s) c ->
  get_max_standard_rate m sp = Ok (repeat (Some c) (match sp with Some l => List.length l | None => 1%nat end)).
Proof. exact max_rate_constant. Qed.
Print Assumptions C93_constant.
Example C93_case_constant : column_is (Some [qz 7; qz 7; qz 7]) (qz 7) /\
  C93_max (mkSamples [qz 1; qz 13; qz 13] POWER (Some [qz 7; qz 7; qz 7]) (Some (map fst around)) (Some (map snd around)) None) None = Some [Some (qz 7)].
Proof. split; [|vm_compute; reflexivity]. exists [qz 7; qz 7; qz 7]. split; [reflexivity|]. split; [discriminate|]. intros x [<-|[<-|[<-|[]]]]; reflexivity. Qed.
Theorem C93_delivered : forall g s m sp rs rate ps pd res k u r R,
  make_sampled g s = Ok m -> only_vary s [RATE] -> get_max_standard_rate m sp = Ok rs -> In (Some R) rs ->
  evaluate_sampled m rate ps pd = Ok res -> nth_error (sr_usage res) k = Some u ->
  requested rate k r -> tiny < r -> within_constants s rate ps pd k ->
  (u <> None <-> r - tiny <= R).
Proof. exact max_rate_delivered. Qed.
Print Assumptions C93_delivered.
Example C93_case_delivered : C89_usage C89_samples (Some [qz 4; qz 4 + tiny; qz 4 + tiny + tiny]) (Some [qz 5; qz 5; qz 5]) None <> None /\
  option_map (map is_number) (C89_usage C89_samples (Some [qz 4; qz 4 + tiny; qz 4 + tiny + tiny]) (Some [qz 5; qz 5; qz 5]) None) = Some [true; true; false].
Proof. vm_compute. split; [discriminate|reflexivity]. Qed.
(** With a rate that varies together with a pressure the largest rate cannot be asked for. *)
Theorem C93_two_refuted : forall g s m sp, make_sampled g s = Ok m -> column_varies (sm_rate s) -> ~ only_vary s [RATE] ->
  get_max_standard_rate m sp = Err TypeError.
Proof. exact max_rate_two. Qed.
Print Assumptions C93_two_refuted.
Example C93_case_two : column_varies (sm_rate C90_rate_pd_samples) /\ ~ only_vary C90_rate_pd_samples [RATE] /\
  match make_sampled triangles C90_rate_pd_samples with Ok _ => True | Err _ => False end.
Proof.
  split; [|split].
  - exists (map fst around), (qz 0), (qz 10). split; [reflexivity|]. split; [cbn; auto|]. split; [cbn; auto|discriminate].
  - intros H. destruct (proj2 (H PD)) as [Q|[]]; [|discriminate Q]. exists (map snd around), (qz 0), (qz 10). split; [reflexivity|]. split; [cbn; auto|]. split; [cbn; auto|discriminate].
  - vm_compute. exact I.
Qed.

(** C34, C35, C36: distribution of streams over consumers. *)
From Coq Require Import List Bool ZArith Lia Permutation PeanoNat String.
From Verif Require Import System_Proofs2 Rates_Proofs QcTac Num Base BaseLemmas Search_Model Stream_Model Stream_Spec Stream_Proofs Stream_Props
  Graph_Model Graph_Spec Graph_Proofs Graph_Proofs2 Graph_Proofs3 Distribution_Model Distribution_Spec Distribution_Proofs Distribution_Proofs2.
Import ListNotations.
Local Open Scope list_scope.
Local Open Scope Qc_scope.

(** C34: the distributed standard rates sum to the incoming rate times the sum of the fractions; every stream has the fluid,
    pressure and temperature of the inlet. *)
Theorem C34_sum : forall sv inlet items fractions overflows d streams,
  consistent_service sv -> NoDup (map fst items) -> length fractions = length items ->
  new_distribution inlet items fractions overflows = Return d ->
  get_streams sv d = Return streams ->
  length streams = length items /\
  qsum (map standard_rate streams) = standard_rate inlet * qsum fractions /\
  Forall (fun s => s_model s = s_model inlet /\ s_pressure s = s_pressure inlet /\ s_temperature s = s_temperature inlet /\ 0 <= standard_rate s) streams.
Proof. exact distribution_sum_proof. Qed.
Print Assumptions C34_sum.

(** C34: item by item: a share, plus what is passed on to the item, minus what it passes on. *)
Theorem C34_balance : forall sv inlet items fractions overflows d streams,
  NoDup (map fst items) -> length fractions = length items ->
  new_distribution inlet items fractions overflows = Return d ->
  get_streams sv d = Return streams ->
  exists order current excess, topological_sort (d_graph d) = Ok order /\ balanced sv d order streams current excess.
Proof. exact balanced_proof. Qed.
Print Assumptions C34_balance.

(** C34: overflow declarations are refused exactly when they are cyclic. *)
Theorem C34_constructor : forall inlet items fractions overflows,
  match new_distribution inlet items fractions overflows with
  | Return d => d_inlet d = inlet /\ d_items d = items /\ d_overflows d = overflows /\
                d_rates d = map (fun fraction => standard_rate inlet * fraction) fractions /\
                get_number_of_streams d = length fractions /\ forall a, ~ leads_to overflows a a
  | Raise e => e = ValidationErr /\ exists a, leads_to overflows a a
  end.
Proof. exact constructor_proof. Qed.
Print Assumptions C34_constructor.

(** C34: with shares and excess rates in range the distribution succeeds. *)
Theorem C34_succeeds : forall sv inlet items fractions overflows props,
  consistent_service sv -> NoDup (map fst items) -> List.length fractions = List.length items ->
  flash_pt sv (s_model inlet) (s_pressure inlet) (s_temperature inlet) = Return props ->
  0 <= standard_rate inlet -> (forall x, In x fractions -> 0 <= x) ->
  (forall k f, In (k, f) items -> proper_capacity f) ->
  (forall a b, In (a, b) overflows -> In a (map fst items) /\ In b (map fst items)) ->
  (forall a, ~ leads_to overflows a a) ->
  exists d streams, new_distribution inlet items fractions overflows = Return d /\ get_streams sv d = Return streams.
Proof. exact distribution_total_proof. Qed.
Print Assumptions C34_succeeds.

(** C35: without excess the shares are dealt out in topological order of the overflow graph. *)
Theorem C35_shares : forall sv inlet items fractions overflows d streams order,
  consistent_service sv -> NoDup (map fst items) -> List.length fractions = List.length items -> no_excess items ->
  new_distribution inlet items fractions overflows = Return d ->
  get_streams sv d = Return streams -> topological_sort (d_graph d) = Ok order ->
  Permutation order (map fst items) /\
  forall i j k s fraction, nth_error (map fst items) i = Some k -> nth_error streams i = Some s ->
    nth_error order j = Some k -> nth_error fractions j = Some fraction ->
    standard_rate s = standard_rate inlet * fraction.
Proof. exact no_excess_shares. Qed.
Print Assumptions C35_shares.

(** C35: every item gets its own fraction when no overflow is declared or every overflow goes to the item declared last. *)
Theorem C35_own_share : forall sv inlet items last overflows fractions d streams,
  consistent_service sv -> NoDup (map fst (items ++ [last])) -> List.length fractions = List.length (items ++ [last]) ->
  no_excess (items ++ [last]) ->
  (forall a b, In (a, b) overflows -> In a (map fst items) /\ b = fst last) ->
  new_distribution inlet (items ++ [last]) fractions overflows = Return d ->
  get_streams sv d = Return streams ->
  map standard_rate streams = map (fun fraction => standard_rate inlet * fraction) fractions.
Proof. exact own_share_proof. Qed.
Print Assumptions C35_own_share.

(** C35: every item gets its own fraction when the fractions are equal. *)
Theorem C35_equal_shares : forall sv inlet items fractions overflows d streams fraction,
  consistent_service sv -> NoDup (map fst items) -> List.length fractions = List.length items -> no_excess items ->
  (forall x, In x fractions -> x = fraction) ->
  new_distribution inlet items fractions overflows = Return d ->
  get_streams sv d = Return streams ->
  map standard_rate streams = map (fun fraction => standard_rate inlet * fraction) fractions.
Proof. exact equal_shares_proof. Qed.
Print Assumptions C35_equal_shares.

(** C36: the first acceptable distribution, otherwise the last one; when a call raises, all distributions before it were
    refused. *)
Theorem C36_priorities : forall dists items,
  match priorities_get_streams dists items with
  | Return out =>
      exists i, nth_error dists i = Some (Return out) /\
        (forall j, (j < i)%nat -> exists streams, nth_error dists j = Some (Return streams) /\ refused items streams) /\
        (accepted items out \/ (refused items out /\ S i = List.length dists))
  | Raise e =>
      (dists = [] /\ e = AssertionErr) \/
      exists i, (forall j, (j < i)%nat -> exists streams, nth_error dists j = Some (Return streams) /\ refused items streams) /\
        (nth_error dists i = Some (Raise e) \/
         exists streams, nth_error dists i = Some (Return streams) /\
           exists n, (forall j item s, (j < n)%nat -> nth_error items j = Some item -> nth_error streams j = Some s -> item s = Return true) /\
           ((exists item s, nth_error items n = Some item /\ nth_error streams n = Some s /\ item s = Raise e) \/
            (e = ValueErr /\ n = Nat.min (List.length items) (List.length streams) /\ List.length items <> List.length streams)))
  end.
Proof. exact priorities_proof. Qed.
Print Assumptions C36_priorities.

(** C36: a refused distribution is not an acceptable one. *)
Theorem C36_refused : forall items streams, refused items streams -> ~ accepted items streams.
Proof. exact refused_not_accepted_proof. Qed.
Print Assumptions C36_refused.

Definition C34_A := NStr "A". Definition C34_B := NStr "B". Definition C34_C := NStr "C".
Definition C34_inlet : stream := C43_stream C43_methane (qz 30) (qz 300) (qz 40).   (* 1200 Sm3/day *)
(** capacity [c]: what exceeds it is excess *)
Definition C34_capacity (c : Qc) : excess_function := fun s => Return (Qcmax 0 (standard_rate s - c)).
Lemma C34_capacity_proper : forall c, 0 <= c -> proper_capacity (C34_capacity c).
Proof.
  intros c Hc s Hs. eexists. split; [reflexivity|]. unfold Qcmax. destruct (Qcleb 0 (standard_rate s - c)) eqn:E.
  - apply Qcleb_le in E. split; qc_lra.
  - split; qc_lra.
Qed.
Definition C34_items : list (node_id * excess_function) :=
  [(C34_A, C34_capacity (qz 300)); (C34_B, C34_capacity (qz 400)); (C34_C, C34_capacity (qz 10000))].
(** The distributed rates, for computation. *)
Definition C34_rates (items : list (node_id * excess_function)) (fractions : list Qc) (overflows : list overflow) : option (list Q) :=
  match new_distribution C34_inlet items fractions overflows with
  | Return d => match get_streams C43_service d with Return streams => Some (map (fun s => this (standard_rate s)) streams) | Raise _ => None end
  | Raise _ => None
  end.
Lemma C34_rates_of : forall items fractions overflows r, C34_rates items fractions overflows = Some r ->
  exists d streams, new_distribution C34_inlet items fractions overflows = Return d /\ get_streams C43_service d = Return streams /\
    map (fun s => this (standard_rate s)) streams = r.
Proof.
  intros items fractions overflows r H. unfold C34_rates in H.
  destruct (new_distribution C34_inlet items fractions overflows) as [d|] eqn:E; [|discriminate].
  destruct (get_streams C43_service d) as [ss|] eqn:E2; [|discriminate]. injection H as <-. exists d, ss. auto.
Qed.
Example C34_case : NoDup (map fst C34_items) /\ exists d streams,
  new_distribution C34_inlet C34_items [qc 1 2; qc 1 3; qc 1 6] [(C34_A, C34_B); (C34_B, C34_C)] = Return d /\
  get_streams C43_service d = Return streams /\
  map (fun s => this (standard_rate s)) streams = map (fun q => this q) [qz 300; qz 400; qz 500].
Proof.
  split; [repeat constructor; cbn; intuition discriminate|]. apply C34_rates_of. vm_compute. reflexivity.
Qed.
Example C34_case_cycle : new_distribution C34_inlet C34_items [qc 1 2; qc 1 3; qc 1 6] [(C34_A, C34_B); (C34_B, C34_A)] = Raise ValidationErr.
Proof.
  pose proof (C34_constructor C34_inlet C34_items [qc 1 2; qc 1 3; qc 1 6] [(C34_A, C34_B); (C34_B, C34_A)]) as H.
  destruct (new_distribution _ _ _ _) as [d|e]; [|destruct H as [-> _]; reflexivity].
  exfalso. destruct H as [_ [_ [_ [_ [_ H]]]]]. apply (H C34_A). eapply leads_more; [apply leads_one; left; reflexivity|right; left; reflexivity].
Qed.

(** C35: false in general.  A overflows to B and nobody has an excess: B and C get each other's fraction. *)
Definition C35_none : list (node_id * excess_function) := [(C34_A, fun _ => Return 0); (C34_B, fun _ => Return 0); (C34_C, fun _ => Return 0)].
Lemma C35_none_no_excess : no_excess C35_none.
Proof.
  intros k f s e Hin H. cbn in Hin. destruct Hin as [Hin|[Hin|[Hin|[]]]]; injection Hin; intros Hf _; rewrite <- Hf in H; injection H; intros E; symmetry; exact E.
Qed.
Theorem C35_own_share_refuted : exists items fractions overflows d streams,
  consistent_service C43_service /\ NoDup (map fst items) /\ List.length fractions = List.length items /\ no_excess items /\
  new_distribution C34_inlet items fractions overflows = Return d /\
  get_streams C43_service d = Return streams /\
  map standard_rate streams <> map (fun x => standard_rate C34_inlet * x) fractions.
Proof.
  exists C35_none, [qc 1 2; qc 1 3; qc 1 6], [(C34_A, C34_B)].
  destruct (C34_rates_of C35_none [qc 1 2; qc 1 3; qc 1 6] [(C34_A, C34_B)] (map (fun q => this q) [qz 600; qz 200; qz 400])) as [d [streams [H1 [H2 H3]]]];
    [vm_compute; reflexivity|].
  exists d, streams. split; [exact C43_service_consistent|]. split; [repeat constructor; cbn; intuition discriminate|]. split; [reflexivity|].
  split; [exact C35_none_no_excess|]. split; [assumption|]. split; [assumption|]. intros E.
  apply (f_equal (map (fun q => this q))) in E. rewrite map_map, H3 in E. vm_compute in E. discriminate.
Qed.
Print Assumptions C35_own_share_refuted.

Example C35_case : no_excess C35_none /\ exists d streams,
  new_distribution C34_inlet C35_none [qc 1 2; qc 1 3; qc 1 6] [(C34_A, C34_C); (C34_B, C34_C)] = Return d /\
  get_streams C43_service d = Return streams /\ map (fun s => this (standard_rate s)) streams = map (fun q => this q) [qz 600; qz 400; qz 200].
Proof. split; [exact C35_none_no_excess|]. apply C34_rates_of. vm_compute; reflexivity. Qed.

Definition C36_low := C43_stream C43_methane (qz 30) (qz 300) 1.
Definition C36_high := C43_stream C43_methane (qz 30) (qz 300) (qz 100).
Definition C36_small : validity := fun s => Return (Qcleb (s_mass_rate s) (qz 10)).
Example C36_case :
  priorities_get_streams [Return [C36_high; C36_low]; Return [C36_low; C36_low]; Return [C36_high; C36_high]] [C36_small; C36_small] = Return [C36_low; C36_low] /\
  priorities_get_streams [Return [C36_high; C36_low]; Return [C36_low; C36_high]] [C36_small; C36_small] = Return [C36_low; C36_high].
Proof.
  assert (El : C36_small C36_low = Return true) by (unfold C36_small; f_equal; vm_compute; reflexivity).
  assert (Eh : C36_small C36_high = Return false) by (unfold C36_small; f_equal; vm_compute; reflexivity).
  unfold priorities_get_streams, find_first_valid. cbn [first_valid_loop obind all_items_valid].
  repeat (rewrite ?El, ?Eh; cbn [obind]). split; reflexivity.
Qed.

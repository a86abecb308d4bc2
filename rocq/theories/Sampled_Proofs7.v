(** The sampled compressor: one period at a time, fuel and power, validity, and the largest rate. *)
From Coq Require Import PeanoNat.
From Verif Require Import QcTac Base BaseLemmas Num Interp_Model Interp_Spec Interp_Proofs Sampled_Model Sampled_Spec Sampled_Proofs Sampled_Proofs5 Sampled_Proofs6.
Local Open Scope list_scope.
Local Open Scope Qc_scope.

Definition singly (x : option Qc) : option (list Qc) := option_map (fun x => [x]) x.

Lemma core_single_point : forall c r p d u, core_point c r p d u ->
  core_evaluate c (match r with Some x => [x] | None => [] end) (match p with Some x => [x] | None => [] end)
    (match d with Some x => [x] | None => [] end) = Ok [u].
Proof.
  intros c r p d u H. destruct c as [m|m|m|m|f]; cbn [core_point core_evaluate] in *.
  - destruct H as (x & E & ->). destruct (d1_variable m); rewrite E; reflexivity.
  - destruct H as (x & y & -> & -> & ->). reflexivity.
  - destruct H as (x & y & -> & -> & ->). reflexivity.
  - destruct H as (x & y & -> & -> & ->). reflexivity.
  - destruct H as (x & y & z & -> & -> & -> & ->). reflexivity.
Qed.

Lemma single_usage : forall m r p d u, (r <> None \/ p <> None \/ d <> None) ->
  (forall x, shifted r = Some x -> x <= 0 -> u = Some 0) ->
  (conditions m (shifted r) p d = true -> core_point (sa_core m) (shifted r) p d u) ->
  (conditions m (shifted r) p d = false -> (forall x, shifted r = Some x -> 0 < x) -> u = None) ->
  interpolated_values m (singly r) (singly p) (singly d) = Ok [u].
Proof.
  intros m r p d u Hg H0 H1 H2. unfold interpolated_values.
  set (b := conditions m (shifted r) p d) in *.
  assert (match singly r with Some l => Some (map shift_rate l) | None => None end = singly (shifted r)) as -> by (destruct r; reflexivity).
  assert (match singly (shifted r), singly p, singly d with
          | Some l, _, _ | None, Some l, _ | None, None, Some l => Ok (List.length l) | None, None, None => Err ValueError end = Ok 1%nat) as ->.
  { destruct r; [reflexivity|]. destruct p; [reflexivity|]. destruct d; [reflexivity|]. exfalso. intuition congruence. }
  cbn [bind repeat]. cbv zeta.
  assert (forall ok s, condition 1 ok (singly s) = Ok [met ok s]) as HC by (intros ok [x|]; reflexivity).
  rewrite !HC. 
  set (base := match shifted r with Some x => if Qcleb x 0 then Some 0 else None | None => None end : num).
  assert (match singly (shifted r) with
          | Some l => assign [None : num] (indices_of (map (fun r => Qcleb r 0) l)) (map (fun _ => Some 0) (indices_of (map (fun r => Qcleb r 0) l)))
          | None => Ok [None] end = Ok [base]) as ->.
  { unfold base. destruct (shifted r) as [x|]; [|reflexivity]. cbn [singly option_map map]. destruct (Qcleb x 0); reflexivity. }
  cbn [bind]. assert (conjunction (conjunction (conjunction [met (Qcltb 0) (shifted r)] [met (at_most (sa_rate m)) (shifted r)])
     [met (at_least (sa_ps m)) p]) [met (at_most (sa_pd m)) d] = [b]) as -> by reflexivity.
  assert (forall s, given_or_nil (singly s) (indices_of [b]) = Ok (if b then match s with Some x => [x] | None => [] end else [])) as HG.
  { intros [x|]; destruct b; reflexivity. }
  rewrite !HG. cbn [bind]. destruct b eqn:Eb.
  - rewrite (core_single_point _ _ _ _ _ (H1 eq_refl)). cbn. reflexivity.
  - assert (exists us, core_evaluate (sa_core m) [] [] [] = Ok us /\ us = []) as (us & -> & ->).
    { destruct (sa_core m) as [c|c|c|c|f]; cbn; [destruct (d1_variable c)|..]; eexists; split; reflexivity. }
    cbn. unfold base. destruct (shifted r) as [x|] eqn:Er.
    + destruct (Qcleb x 0) eqn:Q.
      * apply Qcleb_le in Q. now rewrite (H0 x eq_refl Q).
      * apply Qcleb_gt in Q. rewrite (H2 eq_refl); [reflexivity|]. intros y E. now injection E as <-.
    + rewrite (H2 eq_refl); [reflexivity|]. intros y E. discriminate.
Qed.

Lemma alone_singly : forall s k (us : list num) u, (forall l, s = Some l -> List.length l = List.length us) -> nth_error us k = Some u ->
  alone s k = singly (value_at s k).
Proof.
  intros [l|] k us u HL Hu; [|reflexivity]. cbn. destruct (nth_error l k) as [x|] eqn:E; [reflexivity|].
  apply nth_error_None in E. rewrite (HL l eq_refl) in E. apply nth_error_None in E. congruence.
Qed.

(** The k-th entry of the result is what the k-th period alone gives. *)
Theorem periods_alone : forall m rate ps pd res k u, evaluate_sampled m rate ps pd = Ok res -> nth_error (sr_usage res) k = Some u ->
  exists res' b, evaluate_sampled m (alone rate k) (alone ps k) (alone pd k) = Ok res' /\ sr_usage res' = [u] /\
    nth_error (sr_valid res) k = Some b /\ sr_valid res' = [b] /\
    (forall l, sr_power res = Some l -> exists w, nth_error l k = Some w /\ sr_power res' = Some [w]) /\
    (sr_power res = None -> sr_power res' = None).
Proof.
  intros m rate ps pd res k u He Hu. pose proof (evaluate_inv m rate ps pd res He) as Hi.
  destruct (period_usage m rate ps pd _ Hi) as (G & HL & HP). destruct (HP k u Hu) as (H0 & H1 & H2).
  assert (forall s, In s [rate; ps; pd] -> alone s k = singly (value_at s k)) as HA.
  { intros s Hs. apply (alone_singly s k (sr_usage res) u); [|exact Hu]. intros l E. exact (HL s l Hs E). }
  rewrite !HA by (cbn; auto).
  assert (forall s, In s [rate; ps; pd] -> s <> None -> value_at s k <> None) as Hn.
  { intros [l|] Hs N; [|congruence]. cbn. intros Q. apply nth_error_None in Q. rewrite (HL (Some l) l Hs eq_refl) in Q. apply nth_error_None in Q. congruence. }
  assert (interpolated_values m (singly (value_at rate k)) (singly (value_at ps k)) (singly (value_at pd k)) = Ok [u]) as Hs.
  { apply single_usage; auto. destruct G as [G|[G|G]]; [left|right; left|right; right]; apply Hn; cbn; auto. }
  unfold evaluate_sampled in He |- *. rewrite Hi in He. rewrite Hs. cbn [bind] in *.
  destruct (fuel_to_power (sa_samples m)) as [t|]; [|discriminate]. cbn [bind] in *. injection He as He.
  assert (sr_power res = match sm_type (sa_samples m) with POWER => Some (sr_usage res)
    | FUEL => match t with Some f => Some (map (interpolate_1d f) (sr_usage res)) | None => None end end) as Ep by (rewrite <- He; reflexivity).
  assert (sr_valid res = match (match t with Some f => Some (map (interpolate_1d f) (sr_usage res)) | None => None end) with
    | Some load => map2 (fun u l => is_number u && negb (negb (is_number l))) (sr_usage res) load | None => map is_number (sr_usage res) end) as Ev by (rewrite <- He; reflexivity).
  clear He. exists (mkSampledResult [u]
    (match sm_type (sa_samples m) with POWER => Some [u] | FUEL => match t with Some f => Some [interpolate_1d f u] | None => None end end)
    (match t with Some f => [is_number u && negb (negb (is_number (interpolate_1d f u)))] | None => [is_number u] end)
    (match singly (value_at rate k) with Some l => map (fun r => Some (shift_rate r)) l | None => [None] end)).
  exists (match t with Some f => is_number u && negb (negb (is_number (interpolate_1d f u))) | None => is_number u end).
  split; [destruct t; reflexivity|]. cbn [sr_usage sr_valid sr_power]. split; [reflexivity|]. split; [|split; [destruct t; reflexivity|split]].
  - rewrite Ev. destruct t as [f|]; [rewrite nth_error_map2, nth_error_map, Hu; reflexivity|rewrite nth_error_map, Hu; reflexivity].
  - rewrite Ep. destruct (sm_type (sa_samples m)).
    + intros l E. injection E as <-. exists u. auto.
    + destruct t as [f|]; [|discriminate]. intros l E. injection E as <-. exists (interpolate_1d f u). rewrite nth_error_map, Hu. auto.
  - rewrite Ep. destruct (sm_type (sa_samples m)); [discriminate|destruct t; [discriminate|reflexivity]].
Qed.

(** Every series that is given has one value per period, and so has the result. *)
Theorem periods_length : forall m rate ps pd res, evaluate_sampled m rate ps pd = Ok res ->
  (rate <> None \/ ps <> None \/ pd <> None) /\
  (forall l, (rate = Some l \/ ps = Some l \/ pd = Some l) -> List.length l = List.length (sr_usage res)) /\
  List.length (sr_valid res) = List.length (sr_usage res) /\
  (forall l, sr_power res = Some l -> List.length l = List.length (sr_usage res)).
Proof.
  intros m rate ps pd res He. pose proof (evaluate_inv m rate ps pd res He) as Hi.
  destruct (period_usage m rate ps pd _ Hi) as (G & HL & _). split; [exact G|]. split.
  { intros l [-> | [-> | ->]]; apply (HL (Some l)); cbn; auto. }
  unfold evaluate_sampled in He. rewrite Hi in He. cbn [bind] in He. destruct (fuel_to_power (sa_samples m)) as [t|]; [|discriminate]. cbn [bind] in He.
  assert (sr_power res = match sm_type (sa_samples m) with POWER => Some (sr_usage res)
    | FUEL => match t with Some f => Some (map (interpolate_1d f) (sr_usage res)) | None => None end end) as -> by (injection He as He; rewrite <- He; reflexivity).
  assert (sr_valid res = match (match t with Some f => Some (map (interpolate_1d f) (sr_usage res)) | None => None end) with
    | Some load => map2 (fun u l => is_number u && negb (negb (is_number l))) (sr_usage res) load | None => map is_number (sr_usage res) end) as -> by (injection He as He; rewrite <- He; reflexivity).
  clear. split.
  - destruct t as [f|]; [|apply map_length]. rewrite map2_length, map_length. apply Nat.min_id.
  - destruct (sm_type (sa_samples m)); [intros l E; now injection E as <-|destruct t as [f|]; [|discriminate]; intros l E; injection E as <-; apply map_length].
Qed.

(** ** Power and validity *)
Theorem electric : forall g s m rate ps pd res k u, make_sampled g s = Ok m -> evaluate_sampled m rate ps pd = Ok res ->
  sm_type s = POWER -> nth_error (sr_usage res) k = Some u ->
  sr_power res = Some (sr_usage res) /\ (nth_error (sr_valid res) k = Some true <-> u <> None).
Proof.
  intros g s m rate ps pd res k u Hm He Ht Hu. destruct (make_sampled_inv g s m Hm) as (_ & _ & Es & _).
  pose proof (evaluate_inv _ _ _ _ _ He) as Hi. unfold evaluate_sampled in He. rewrite Hi in He. cbn [bind] in He. rewrite Es in He.
  unfold fuel_to_power, fuel_values in He. rewrite Ht in He. cbn [bind] in He. injection He as He.
  assert (sr_power res = Some (sr_usage res)) as -> by (rewrite <- He; reflexivity).
  assert (sr_valid res = map is_number (sr_usage res)) as -> by (rewrite <- He; reflexivity).
  split; [reflexivity|]. rewrite nth_error_map, Hu. destruct u; cbn; split; congruence.
Qed.
Theorem fuel_alone : forall g s m rate ps pd res k u, make_sampled g s = Ok m -> evaluate_sampled m rate ps pd = Ok res ->
  sm_type s = FUEL -> (sm_power s = None \/ sm_power s = Some []) -> nth_error (sr_usage res) k = Some u ->
  sr_power res = None /\ (nth_error (sr_valid res) k = Some true <-> u <> None).
Proof.
  intros g s m rate ps pd res k u Hm He Ht Hp Hu. destruct (make_sampled_inv g s m Hm) as (_ & _ & Es & _).
  pose proof (evaluate_inv _ _ _ _ _ He) as Hi. unfold evaluate_sampled in He. rewrite Hi in He. cbn [bind] in He. rewrite Es in He.
  unfold fuel_to_power, fuel_values in He. rewrite Ht in He.
  assert (empty_or_none (sm_power s) = true) as Ee by (destruct Hp as [-> | ->]; reflexivity). rewrite Ee in He.
  cbn [bind] in He. injection He as He.
  assert (sr_power res = None) as -> by (rewrite <- He; reflexivity).
  assert (sr_valid res = map is_number (sr_usage res)) as -> by (rewrite <- He; reflexivity).
  split; [reflexivity|]. rewrite nth_error_map, Hu. destruct u; cbn; split; congruence.
Qed.
(** With power values for the fuel the power is interpolated between them; no power for less fuel than in the table
    (none, when it is off) and no answer for more. *)
Theorem fuel_and_power : forall g s m rate ps pd res k u power, make_sampled g s = Ok m -> evaluate_sampled m rate ps pd = Ok res ->
  sm_type s = FUEL -> sm_power s = Some power -> NoDup (sm_usage s) -> nth_error (sr_usage res) k = Some u ->
  exists l w, sr_power res = Some l /\ nth_error l k = Some w /\
    (nth_error (sr_valid res) k = Some true <-> u <> None /\ w <> None) /\
    (u = None -> w = None) /\
    (forall x, u = Some x -> in_range (combine (sm_usage s) power) x -> exists y, interpolates (combine (sm_usage s) power) x y /\ w = Some y) /\
    (forall x, u = Some x -> (forall a, In a (sm_usage s) -> x < a) -> w = Some 0) /\
    (forall x, u = Some x -> (forall a, In a (sm_usage s) -> a < x) -> w = None).
Proof.
  intros g s m rate ps pd res k u power Hm He Ht Hp Hnd Hu. destruct (make_sampled_inv g s m Hm) as (A & _ & Es & _).
  pose proof (evaluate_inv _ _ _ _ _ He) as Hi. unfold evaluate_sampled in He. rewrite Hi in He. cbn [bind] in He. rewrite Es in He.
  assert (List.length power = List.length (sm_usage s)) as EL by (destruct A as (_ & HL & _); apply (HL (Some power)); [rewrite <- Hp; cbn; auto|reflexivity]).
  assert (sm_usage s <> []) as Hne.
  { destruct A as ((v & l & E & N) & HL & _). intros Q. rewrite Q in HL.
    assert (In (sm_column s v) [sm_rate s; sm_ps s; sm_pd s; sm_power s]) as Hin by (destruct v; cbn; auto).
    specialize (HL _ Hin l E). destruct l; [congruence|discriminate]. }
  unfold fuel_to_power, fuel_values in He. rewrite Ht, Hp in He. destruct power as [|p0 power]; [destruct (sm_usage s); [congruence|discriminate]|].
  cbn [empty_or_none] in He. rewrite EL, Nat.eqb_refl in He.
  destruct (make_interpolator (sm_usage s) (p0 :: power) (Some 0) None) as [f|] eqn:Ef; [|discriminate]. cbn [bind] in He. injection He as He.
  assert (sr_power res = Some (map (interpolate_1d f) (sr_usage res))) as -> by (rewrite <- He; reflexivity).
  assert (sr_valid res = map2 (fun u l => is_number u && negb (negb (is_number l))) (sr_usage res) (map (interpolate_1d f) (sr_usage res))) as -> by (rewrite <- He; reflexivity).
  clear He. destruct (interpolation_proof _ _ _ _ _ Hnd Ef) as (_ & IR & IB & IA & IN). exists (map (interpolate_1d f) (sr_usage res)), (interpolate_1d f u).
  rewrite nth_error_map2, nth_error_map, Hu. cbn [option_map].
  assert (forall a e, In (a, e) (combine (sm_usage s) (p0 :: power)) -> In a (sm_usage s)) as HI by (intros a e; apply in_combine_l).
  split; [reflexivity|]. split; [reflexivity|]. split; [|split; [|split; [|split]]].
  - rewrite negb_involutive. destruct u as [q|]; [|rewrite IN; cbn [is_number andb]; split; [discriminate|intros [Q _]; congruence]].
    destruct (interpolate_1d f (Some q)); cbn [is_number andb]; split; [intros _; split; discriminate|reflexivity|discriminate|intros [_ Q]; congruence].
  - intros ->. exact IN.
  - intros x -> Hx. now apply IR.
  - intros x -> Hx. apply IB. intros a e Ha. apply Hx. exact (HI a e Ha).
  - intros x -> Hx. apply IA. intros a e Ha. apply Hx. exact (HI a e Ha).
Qed.

(** ** The largest rate *)
Definition periods_of (sp : option (list Qc)) : nat := match sp with Some l => List.length l | None => 1%nat end.
Theorem max_rate_none : forall g s m sp, make_sampled g s = Ok m -> sm_rate s = None ->
  get_max_standard_rate m sp = Ok (repeat None (match sp with Some l => List.length l | None => 1%nat end)).
Proof.
  intros g s m sp Hm Hr. destruct (make_sampled_inv g s m Hm) as (_ & _ & Es & _). unfold get_max_standard_rate. rewrite Es, Hr. reflexivity.
Qed.
Theorem max_rate_one : forall g s m sp xs, make_sampled g s = Ok m -> only_vary s [RATE] -> column s RATE xs ->
  exists x, is_largest xs x /\ get_max_standard_rate m sp = Ok (repeat (Some x) (match sp with Some l => List.length l | None => 1%nat end)).
Proof.
  intros g s m sp xs Hm Hv Hc. destruct (make_sampled_inv g s m Hm) as (_ & _ & Es & _).
  destruct (core_single g s m RATE xs Hm Hv Hc) as (d & Ed & EL & Ne & E1).
  destruct (make_1d_answer RATE xs _ d EL Ne E1) as (_ & Ev & _ & HM & _). destruct (HM eq_refl) as (x & Ex & Hx).
  exists x. split; [exact Hx|]. unfold get_max_standard_rate. rewrite Es. unfold column in Hc. cbn [sm_column] in Hc. rewrite Hc, Ed, Ev, Ex. reflexivity.
Qed.
Theorem max_rate_constant : forall g s m sp c, make_sampled g s = Ok m -> column_is (sm_rate s) c ->
  get_max_standard_rate m sp = Ok (repeat (Some c) (match sp with Some l => List.length l | None => 1%nat end)).
Proof.
  intros g s m sp c Hm Hc. destruct (make_sampled_inv g s m Hm) as (A & Ec & Es & Er & _).
  assert (constant_value s RATE = Some c) as Cv by now apply (constant_value_ok s RATE c).
  assert (exists l, sm_rate s = Some l) as (l & El) by (destruct Hc as (l & E & _); eauto).
  assert (~ column_varies (sm_rate s)) as Nv.
  { intros (l' & x & y & E & Hx & Hy & N). destruct Hc as (l0 & E0 & _ & Hall). rewrite E in E0. injection E0 as <-. apply N. rewrite (Hall x Hx), (Hall y Hy). reflexivity. }
  unfold get_max_standard_rate. rewrite Es, El. destruct (sa_core m) as [d|d|d|d|f] eqn:Ed.
  - unfold make_core in Ec. destruct (varying_list s A) as (r & p & q & Evs & Hr & _). rewrite Evs in Ec.
    destruct r; [exfalso; apply Nv; now apply Hr|].
    assert (d1_variable d <> RATE) as Hd.
    { assert (forall v xs ys e, make_1d v xs ys = Ok e -> d1_variable e = v) as K.
      { intros v xs ys e. unfold make_1d. destruct (extrapolation_values _ _); [|discriminate]. cbn [bind]. destruct (last_of _); [|discriminate]. cbn [bind].
        destruct (Nat.eqb _ _); [|discriminate]. destruct (make_interpolator _ _ _ _); [|discriminate]. cbn [bind]. intros Q. injection Q as <-. reflexivity. }
      destruct p, q; cbn [filter] in Ec; try discriminate.
      - destruct (make_ps_pd _ _ _); discriminate.
      - destruct (make_1d PS _ _) as [e|] eqn:E1; [|discriminate]. injection Ec as <-. rewrite (K _ _ _ _ E1). discriminate.
      - destruct (make_1d PD _ _) as [e|] eqn:E1; [|discriminate]. injection Ec as <-. rewrite (K _ _ _ _ E1). discriminate. }
    destruct (d1_variable d); [congruence| |]; rewrite Er, Cv; reflexivity.
  - exfalso. unfold make_core in Ec. destruct (varying_list s A) as (r & p & q & Evs & Hr & _). rewrite Evs in Ec. destruct r; [apply Nv; now apply Hr|].
    destruct p, q; cbn [filter] in Ec; try discriminate; [destruct (make_ps_pd _ _ _); discriminate|destruct (make_1d _ _ _); discriminate|destruct (make_1d _ _ _); discriminate].
  - exfalso. unfold make_core in Ec. destruct (varying_list s A) as (r & p & q & Evs & Hr & _). rewrite Evs in Ec. destruct r; [apply Nv; now apply Hr|].
    destruct p, q; cbn [filter] in Ec; try discriminate; [destruct (make_ps_pd _ _ _); discriminate|destruct (make_1d _ _ _); discriminate|destruct (make_1d _ _ _); discriminate].
  - rewrite Er, Cv. reflexivity.
  - exfalso. unfold make_core in Ec. destruct (varying_list s A) as (r & p & q & Evs & Hr & _). rewrite Evs in Ec. destruct r; [apply Nv; now apply Hr|].
    destruct p, q; cbn [filter] in Ec; try discriminate; [destruct (make_ps_pd _ _ _); discriminate|destruct (make_1d _ _ _); discriminate|destruct (make_1d _ _ _); discriminate].
Qed.
(** Nothing above the largest rate can be delivered, and with a table over the rate everything up to it can. *)
Theorem max_rate_delivered : forall g s m sp rs rate ps pd res k u r R,
  make_sampled g s = Ok m -> only_vary s [RATE] -> get_max_standard_rate m sp = Ok rs -> In (Some R) rs ->
  evaluate_sampled m rate ps pd = Ok res -> nth_error (sr_usage res) k = Some u ->
  requested rate k r -> tiny < r -> within_constants s rate ps pd k ->
  (u <> None <-> r - tiny <= R).
Proof.
  intros g s m sp rs rate ps pd res k u r R Hm Hv Hg HR He Hu Hq Lr Hw.
  assert (column_varies (sm_rate s)) as Cv by (apply (Hv RATE); now left). destruct Cv as (xs & a & b & Ex & _).
  destruct (max_rate_one g s m sp xs Hm Hv Ex) as (x & (Hx1 & Hx2) & E). rewrite E in Hg. injection Hg as <-. apply repeat_spec in HR. injection HR as ->.
  assert (running rate k) as Hr.
  { intros r' Hq'. destruct Hq as (l & E1 & E2), Hq' as (l' & E1' & E2'). assert (l' = l) as -> by congruence. assert (r' = r) as -> by congruence. exact Lr. }
  destruct (one_variable g s m rate ps pd res k u RATE xs Hm He Hu Hv Ex Hr Hw) as (r' & Hq' & H1 & H2 & H3).
  assert (r' = r) as -> by (destruct Hq as (l & E1 & E2), Hq' as (l' & E1' & E2'); cbn [series] in E1'; assert (l' = l) as -> by congruence; congruence).
  cbn [looked_up] in *. destruct (make_sampled_inv g s m Hm) as (A & _).
  assert (List.length xs = List.length (sm_usage s)) as EL by (destruct A as (_ & HL & _); apply (HL (sm_rate s)); [cbn; auto|exact Ex]).
  assert (forall y, In y xs -> exists e, In (y, e) (combine xs (sm_usage s))) as HI.
  { clear - EL. revert EL. generalize (sm_usage s). induction xs as [|z xs IH]; intros [|e us] EL y Hy; cbn in *; try discriminate; [contradiction|].
    destruct Hy as [->|Hy]; [exists e; now left|]. destruct (IH us (eq_add_S _ _ EL) y Hy) as (e' & He'). exists e'. now right. }
  split.
  - intros Hn. apply Qcnot_lt_le. intros L. apply Hn. apply H3. intros y e Hy. apply in_combine_l in Hy. apply Hx2 in Hy. eapply Qcle_lt_trans; eauto.
  - intros L.
    destruct (Forall_Exists_dec (fun p : Qc * Qc => r - tiny < fst p)
     (fun p => match Qclt_le_dec (r - tiny) (fst p) with left H => left H | right H => right (Qcle_not_lt _ _ H) end) (combine xs (sm_usage s))) as [Hall|Hex].
    + rewrite Forall_forall in Hall. destruct H2 as (y & e & _ & _ & ->); [|discriminate]. intros y e Hy. exact (Hall (y, e) Hy).
    + apply Exists_exists in Hex as ([y e] & Hy & N). cbn [fst] in N. destruct H1 as (e' & _ & ->); [|discriminate]. split.
      * exists y, e. split; [exact Hy|]. now apply Qcnot_lt_le.
      * destruct (HI x Hx1) as (e2 & He2). exists x, e2. auto.
Qed.

(** The maximum rates of several periods (C84), splitters (C78) and the rates of the two parts of a train (C89). *)
From Coq Require Import List Bool ZArith Lia.
From Verif Require Import QcTac Base Num Search_Model Stream_Model Stream_Spec Flash_Model Process_Model Process_Spec Process_Proofs Train_Model Train_Spec Train_Proofs Train_Proofs2 Train_Proofs3 Train_Proofs4 Train_Proofs5 Train_Proofs6 Train_Proofs7 Train_Proofs8 Train_Proofs9 Train_Proofs10 Train_Proofs11 Train_Proofs12.
Import ListNotations.
Local Open Scope Qc_scope.

Lemma forall2_impl : forall A B (R S : A -> B -> Prop) l l', (forall a b, R a b -> S a b) -> Forall2 R l l' -> Forall2 S l l'.
Proof. intros A B R S l l' H F. induction F; constructor; auto. Qed.

(** ** Maximum rates *)


Lemma inv_set_to_max_rate : forall f e t c, (forall i, proper_mode (f i)) -> unlimited t ->
  inv (set_to (tn_stages t) f) (max_rate e t c) (fun _ => True).
Proof.
  intros f e t c P [U1 U2]. unfold max_rate. set (I := set_to (tn_stages t) f).
  eapply inv_bind with (R := fun _ => True); [now apply inv_lift|]. intros model _.
  eapply inv_bind with (R := fun _ => True); [now apply inv_lift|]. intros first _.
  eapply inv_bind with (R := fun _ => True); [now apply inv_lift|]. intros fl _. cbv zeta.
  eapply inv_bind with (R := fun _ => True); [now apply inv_lift|]. intros fastest _.
  eapply inv_bind with (R := fun _ => True); [now apply inv_lift|]. intros slowest _.
  assert (AtMass : forall m, inv I (let* c' := lift (with_rate c (mass_rate_to_standard_rate (e_service e) model m)) in calculate_train e t c') (fun _ => True)).
  { intros m. eapply inv_bind with (R := fun _ => True); [now apply inv_lift|]. intros c' _. eapply inv_true, inv_set_to_calculate; [apply incl_refl|exact P]. }
  assert (Result : forall v m, inv I (set_train_speed t v ;;*
     (let* c' := lift (with_rate c (mass_rate_to_standard_rate (e_service e) model m)) in calculate_train e t c')) (fun _ => True)).
  { intros v m. eapply inv_bind; [apply inv_set_to_speed|]. intros _ _. apply AtMass. }
  assert (Within : forall v m, inv I (let* r := set_train_speed t v ;;*
     (let* c' := lift (with_rate c (mass_rate_to_standard_rate (e_service e) model m)) in calculate_train e t c') in ret (tr_within r)) (fun _ => True)).
  { intros v m. eapply inv_bind; [apply Result|]. intros r _. now apply inv_ret. }
  eapply inv_bind; [apply Result|]. intros r_min _. eapply inv_bind; [apply Result|]. intros r_max _. eapply inv_bind; [apply Result|]. intros r_slow _.
  destruct (negb (tr_within r_min)); [now apply inv_ret|]. eapply inv_bind with (R := fun _ => True).
  { destruct (negb (tr_within r_max)); [|now apply inv_ret]. eapply inv_bind; [apply inv_maximize; intros m; apply Within|]. intros m _.
    eapply inv_bind; [apply Result|]. intros r _. now apply inv_ret. }
  intros [m_max r_max'] _. eapply inv_bind with (R := fun _ => True).
  - destruct (match c_discharge c with Some p => Qcltb (tr_discharge r_min) p | None => false end); [now apply inv_ret|].
    destruct (match c_discharge c with Some p => Qcleb (tr_discharge r_max') p | None => false end).
    + destruct (c_discharge c) as [p|]; [|apply inv_raise]. eapply inv_bind; [|intros m _; now apply inv_ret].
      apply inv_find_root. intros m. eapply inv_bind; [apply Result|]. intros r _. now apply inv_ret.
    + assert (Rest : inv I
        (let* r_slow := if negb (tr_within r_slow) then
              let* m := maximize_x EPSILON (tc_max_rate (st_chart first) (tc_min_speed (st_chart first)) * p_density (f_properties fl))
                         (fun m => let* r := set_train_speed t slowest ;;*
                            (let* c' := lift (with_rate c (mass_rate_to_standard_rate (e_service e) model m)) in calculate_train e t c') in ret (tr_within r))
                         convergence_tolerance maximum_iterations in
              set_train_speed t slowest ;;*
              (let* c' := lift (with_rate c (mass_rate_to_standard_rate (e_service e) model m)) in calculate_train e t c')
            else ret r_slow in
          match c_discharge c with
          | None => raise OtherProcessError
          | Some p =>
              if Qcleb p (tr_discharge r_max') && Qcleb (tr_discharge r_slow) p then
                let stone_wall v :=
                  let* m := maximize_x (tc_min_rate (st_chart first) v * p_density (f_properties fl)) (tc_max_rate (st_chart first) v * p_density (f_properties fl))
                    (fun m => let* r := set_train_speed t v ;;*
                            (let* c' := lift (with_rate c (mass_rate_to_standard_rate (e_service e) model m)) in calculate_train e t c') in ret (tr_within r)) (qc 1 1000) 20 in
                  (let* c' := lift (with_rate c (mass_rate_to_standard_rate (e_service e) model m)) in calculate_train e t c') in
                let* v := find_root e slowest fastest (fun v => let* r := stone_wall v in ret (tr_discharge r - p))
                            convergence_tolerance maximum_iterations in
                set_train_speed t v ;;*
                (let* r := stone_wall v in
                 match tr_stages r with
                 | [] => raise IndexErr
                 | x :: _ => ret (Some (s_mass_rate (sr_inlet x) * (1 - rate_calculation_tolerance)))
                 end)
              else if Qcltb p (tr_discharge r_slow) then ret None
              else raise OtherProcessError
          end) (fun _ => True)).
      { eapply inv_bind with (R := fun _ => True).
        { destruct (negb (tr_within r_slow)); [|now apply inv_ret]. eapply inv_bind; [apply inv_maximize; intros m; apply Within|]. intros m _. apply Result. }
        intros r_slow' _. destruct (c_discharge c) as [p|]; [|apply inv_raise].
        destruct (Qcleb p (tr_discharge r_max') && Qcleb (tr_discharge r_slow') p).
        - cbv zeta.
          assert (Wall : forall v, inv I (let* m := maximize_x (tc_min_rate (st_chart first) v * p_density (f_properties fl)) (tc_max_rate (st_chart first) v * p_density (f_properties fl))
                    (fun m => let* r := set_train_speed t v ;;*
                            (let* c' := lift (with_rate c (mass_rate_to_standard_rate (e_service e) model m)) in calculate_train e t c') in ret (tr_within r)) (qc 1 1000) 20 in
                  (let* c' := lift (with_rate c (mass_rate_to_standard_rate (e_service e) model m)) in calculate_train e t c')) (fun _ => True)).
          { intros v. eapply inv_bind; [apply inv_maximize; intros m; apply Within|]. intros m _. apply AtMass. }
          eapply inv_bind; [apply inv_find_root; intros v; eapply inv_bind; [apply Wall|]; intros r _; now apply inv_ret|]. intros v _.
          eapply inv_bind; [apply inv_set_to_speed|]. intros _ _. eapply inv_bind; [apply Wall|]. intros r _.
          destruct (tr_stages r); [apply inv_raise|now apply inv_ret].
        - destruct (Qcltb p (tr_discharge r_slow')); [now apply inv_ret|apply inv_raise]. }
      destruct (tn_control t) as [[]|]; try exact Rest; [contradiction|now apply inv_ret].
  - intros mass _. destruct mass as [mass|]; [|now apply inv_ret]. destruct U2 as [-> | ->]; [now apply inv_ret|].
    assert (Z : Qceqb 0 0 = true) by (apply Qceqb_eq; reflexivity). rewrite Z. now apply inv_ret.
Qed.

Definition one_rate (e : environment) (t : train) (p : Qc * Qc) : M tstate (option Qc) :=
  if Qcleb (fst p) 0 || Qcleb (snd p) 0 then ret (Some 0)
  else catch (let* x := max_rate e t (mk_constraints (fst p) (Some (snd p)) None [EPSILON]) in ret (Some x))
             (fun x => if is_ecalc_error x then Some (ret None) else None).
Lemma loop_cons : forall e t p ps, max_rates_loop e t (p :: ps) = (let* rate := one_rate e t p in let* l := max_rates_loop e t ps in ret (rate :: l)).
Proof. intros e t [a b] ps. reflexivity. Qed.

Lemma one_rate_keeps : forall f e t p, (forall i, proper_mode (f i)) -> unlimited t -> inv (set_to (tn_stages t) f) (one_rate e t p) (fun _ => True).
Proof.
  intros f e t p P U. unfold one_rate. destruct (_ || _); [now apply inv_ret|]. apply inv_catch.
  - eapply inv_bind; [apply inv_set_to_max_rate; eauto|]. intros x _. now apply inv_ret.
  - intros x k K. destruct (is_ecalc_error x); [|discriminate]. assert (k = ret None) by congruence. subst. now apply inv_ret.
Qed.
Lemma one_rate_same : forall e t p s1 s2, before (tn_stages t) t s1 s2 -> fst (one_rate e t p s1) = fst (one_rate e t p s2).
Proof.
  intros e t p s1 s2 H. unfold one_rate. destruct (_ || _); [reflexivity|]. unfold catch, bind.
  destruct (rel_max_rate e t (mk_constraints (fst p) (Some (snd p)) None [EPSILON]) s1 s2 H) as [E _].
  destruct (max_rate e t _ s1) as [o1 s1'], (max_rate e t _ s2) as [o2 s2']. cbn [fst] in E. subst o2.
  destruct o1 as [x|x]; [reflexivity|]. destruct (is_ecalc_error x); reflexivity.
Qed.

Lemma max_rates_periods : forall e t ps s l s', max_rates e t ps s = (Return l, s') -> tn_variable t = true -> unlimited t ->
  (forall st, In st (tn_stages t) -> settled (t_mod s (st_id st))) ->
  Forall2 (fun p x => forall s0, (forall st, In st (tn_stages t) -> m_mass (t_mod s0 (st_id st)) = m_mass (t_mod s (st_id st)) /\
      m_fraction (t_mod s0 (st_id st)) = m_fraction (t_mod s (st_id st))) ->
    fst (max_rates e t [p] s0) = Return [x]) ps l.
Proof.
  intros e t ps s l s' H V U St. unfold max_rates in *. destruct (Nat.ltb 1 _); [discriminate|].
  set (g := fun i => if existsb (fun st => Nat.eqb (st_id st) i) (tn_stages t) then mode (t_mod s i) else (None, None)).
  assert (P : forall i, proper_mode (g i)).
  { intros i. unfold g. destruct (existsb _ _) eqn:E; [|now left]. apply existsb_exists in E. destruct E as (st & I & E). apply Nat.eqb_eq in E. subst i. apply St, I. }
  assert (Gs : forall st, In st (tn_stages t) -> g (st_id st) = mode (t_mod s (st_id st))).
  { intros st I. unfold g. assert (X : existsb (fun st0 => Nat.eqb (st_id st0) (st_id st)) (tn_stages t) = true).
    { apply existsb_exists. exists st. split; [exact I|]. apply Nat.eqb_refl. } now rewrite X. }
  assert (J : set_to (tn_stages t) g s) by (intros st I; symmetry; apply Gs, I).
  assert (Main : forall ps s1 l s', set_to (tn_stages t) g s1 -> max_rates_loop e t ps s1 = (Return l, s') ->
     Forall2 (fun p x => forall s0, set_to (tn_stages t) g s0 -> fst (max_rates_loop e t [p] s0) = Return [x]) ps l).
  { clear - V U P. intros ps. induction ps as [|p ps IH]; intros s1 l s' J H.
    - cbn [max_rates_loop] in H. unfold ret in H. assert (l = []) by congruence. subst. constructor.
    - rewrite loop_cons in H. unfold bind at 1 in H. pose proof (one_rate_keeps g e t p P U s1 J) as [J1 _].
      destruct (one_rate e t p s1) as [[x|] s2] eqn:E1; [|discriminate]. cbn [snd] in J1. unfold bind at 1 in H.
      destruct (max_rates_loop e t ps s2) as [[l'|] s3] eqn:E2; [|discriminate]. unfold ret in H. assert (l = x :: l') by congruence. subst l.
      constructor; [|eapply IH; eauto]. intros s0 J0. rewrite loop_cons. unfold bind at 1.
      assert (E : fst (one_rate e t p s0) = Return x).
      { rewrite <- (one_rate_same e t p s1 s0); [now rewrite E1|]. unfold before. rewrite V. intros st I. now rewrite (J st I), (J0 st I). }
      destruct (one_rate e t p s0) as [o s4]. cbn [fst] in E. subst o. reflexivity. }
  specialize (Main ps s l s' J H). eapply forall2_impl; [|exact Main]. cbn beta. intros p x K s0 E0. apply K. intros st I.
  rewrite (Gs st I). destruct (E0 st I). unfold mode. congruence.
Qed.

(** ** Splitters *)

Lemma mapO_all : forall A B (g : A -> outcome B) l l', mapO g l = Return l' -> Forall2 (fun a b => g a = Return b) l l'.
Proof.
  intros A B g l. induction l as [|x l IH]; intros l' H; cbn [mapO] in H.
  - assert (l' = []) by congruence. subst. constructor.
  - destruct (g x) as [y|] eqn:E; [|discriminate]. cbn [obind] in H. destruct (mapO g l) as [m|]; [|discriminate]. cbn [obind] in H.
    assert (l' = y :: m) by congruence. subst. constructor; auto.
Qed.

Lemma split_masses : forall x total l l', Forall2 (fun rate y => new_stream (s_fluid x) (s_mass_rate x * (rate / total)) = Return y) l l' ->
  l' = map (fun rate => mk_stream (s_fluid x) (s_mass_rate x * (rate / total))) l.
Proof.
  intros x total l l' H. induction H as [|a b l l' E H IH]; [reflexivity|]. cbn [map]. apply new_stream_ok in E. destruct E as [-> _]. now rewrite IH.
Qed.
Lemma qsum_cons : forall x l, qsum (x :: l) = x + qsum l.
Proof. reflexivity. Qed.
Lemma qsum_app : forall l1 l2, qsum (l1 ++ l2) = qsum l1 + qsum l2.
Proof. intros l1 l2. induction l1 as [|x l1 IH]; [unfold qsum at 2; cbn [fold_right app]; ring|]. cbn [app]. rewrite !qsum_cons, IH. ring. Qed.
Lemma qsum_scale : forall (f : Qc -> Qc) k l, (forall x, f x = k * x) -> qsum (map f l) = k * qsum l.
Proof. intros f k l F. induction l as [|x l IH]; [unfold qsum; cbn [fold_right map]; ring|]. cbn [map]. rewrite !qsum_cons, IH, F. ring. Qed.

Lemma split_conserves : forall n rates x l, split n (Some rates) x = Return l ->
  length l = S (length rates) /\ Forall (fun y => s_fluid y = s_fluid x) l /\ fold_right Qcplus 0 (map s_mass_rate l) = s_mass_rate x.
Proof.
  intros n rates x l H. unfold split in H. destruct (negb _); [discriminate|]. cbv zeta in H.
  set (last := if Qcltb (standard_rate x - qsum rates) 0 then 0 else standard_rate x - qsum rates) in H. clearbody last.
  destruct (Qceqb (qsum (rates ++ [last])) 0) eqn:Z; [discriminate|]. apply Qceqb_neq in Z. apply mapO_all, split_masses in H. subst l.
  split; [rewrite map_length, app_length; cbn [length]; lia|]. split.
  - apply Forall_forall. intros y Y. apply in_map_iff in Y. destruct Y as (rate & <- & _). reflexivity.
  - rewrite map_map. cbn [s_mass_rate]. change (fold_right Qcplus 0) with qsum. revert Z. set (total := qsum (rates ++ [last])). intros Z.
    rewrite (qsum_scale _ (s_mass_rate x / total)); [fold total; field; exact Z|]. intros q. field. exact Z.
Qed.

Lemma split_honours : forall n rates x l, split n (Some rates) x = Return l -> 0 < s_standard_density x ->
  fold_right Qcplus 0 rates <= standard_rate x ->
  map standard_rate l = rates ++ [standard_rate x - fold_right Qcplus 0 rates].
Proof.
  intros n rates x l H D F. change (fold_right Qcplus 0) with qsum in *. unfold split in H. destruct (negb _); [discriminate|]. cbv zeta in H.
  assert (E : Qcltb (standard_rate x - qsum rates) 0 = false) by (apply Qcltb_ge; qc_lra). rewrite E in H. clear E.
  assert (Tot : qsum (rates ++ [standard_rate x - qsum rates]) = standard_rate x).
  { rewrite qsum_app. unfold qsum at 2. cbn [fold_right]. ring. }
  rewrite Tot in H. destruct (Qceqb (standard_rate x) 0) eqn:Z; [discriminate|]. apply Qceqb_neq in Z. apply mapO_all, split_masses in H. subst l.
  rewrite map_map. rewrite <- (map_id (rates ++ [standard_rate x - qsum rates])) at 2. apply map_ext. intros q.
  unfold standard_rate at 1. cbn [s_mass_rate]. unfold s_standard_density at 1. cbn [s_fluid]. fold (s_standard_density x).
  revert Z. unfold standard_rate. intros Z. assert (s_standard_density x <> 0) by (intros W; rewrite W in D; discriminate).
  assert (s_mass_rate x <> 0). { intros W. apply Z. rewrite W. unfold Qcdiv. ring. }
  field. repeat split; auto; discriminate.
Qed.

(** ** The rates of two parts *)

Lemma ports_kinds : forall stages k, map fst (ports_from k stages) = flat_map stage_ports stages.
Proof.
  intros stages. induction stages as [|st stages IH]; intros k; [reflexivity|]. cbn [ports_from flat_map]. rewrite map_app, IH. f_equal.
  unfold ports_of_stage, stage_ports. rewrite map_app. f_equal.
  - destruct (st_splitter st) as [n|]; [|reflexivity]. generalize (n - 1)%nat. intros m. induction m as [|m IHm]; [reflexivity|]. cbn [repeat map fst]. now rewrite IHm.
  - destruct (st_mixer st) as [n|]; [|reflexivity]. generalize (n - 1)%nat. intros m. induction m as [|m IHm]; [reflexivity|]. cbn [repeat map fst]. now rewrite IHm.
Qed.
Lemma ports_stage : forall stages k p, In p (ports_from k stages) -> (k <= snd p /\ snd p < k + length stages)%nat.
Proof.
  intros stages. induction stages as [|st stages IH]; intros k p H; [destruct H|]. cbn [ports_from] in H. apply in_app_or in H. destruct H as [H|H].
  - unfold ports_of_stage in H. assert (snd p = k); [|cbn [length]; lia]. apply in_app_or in H. destruct H as [H|H].
    + destruct (st_splitter st); [|destruct H]. apply repeat_spec in H. now rewrite H.
    + destruct (st_mixer st); [|destruct H]. apply repeat_spec in H. now rewrite H.
  - apply IH in H. cbn [length]. lia.
Qed.
Lemma ports_append : forall l1 l2 k, ports_from k (l1 ++ l2) = ports_from k l1 ++ ports_from (k + length l1) l2.
Proof.
  intros l1. induction l1 as [|st l1 IH]; intros l2 k; cbn [app ports_from length].
  - now rewrite Nat.add_0_r.
  - rewrite IH, app_assoc. replace (S k + length l1)%nat with (k + S (length l1))%nat by lia. reflexivity.
Qed.

Definition reads (rates : list Qc) (ip : nat * port) : outcome (bool * Qc) := let! r := nth_or IndexErr rates (fst ip) in Return (fst (snd ip), r).
Lemma combine_append : forall A B (a1 a2 : list A) (b1 b2 : list B), length a1 = length b1 -> combine (a1 ++ a2) (b1 ++ b2) = combine a1 b1 ++ combine a2 b2.
Proof.
  intros A B a1. induction a1 as [|x a1 IH]; intros a2 b1 b2 L; destruct b1 as [|y b1]; try discriminate; [reflexivity|].
  cbn [app combine]. f_equal. apply IH. cbn [length] in L. lia.
Qed.
Lemma filter_all : forall A (f : A -> bool) l, (forall x, In x l -> f x = true) -> filter f l = l.
Proof. intros A f l. induction l as [|x l IH]; intros H; [reflexivity|]. cbn [filter]. rewrite (H x (or_introl eq_refl)). f_equal. apply IH. intros y Y. apply H. now right. Qed.
Lemma filter_none : forall A (f : A -> bool) l, (forall x, In x l -> f x = false) -> filter f l = [].
Proof. intros A f l. induction l as [|x l IH]; intros H; [reflexivity|]. cbn [filter]. rewrite (H x (or_introl eq_refl)). apply IH. intros y Y. apply H. now right. Qed.

Lemma reads_ok : forall rates ps a l, mapO (reads rates) (combine (seq a (length ps)) ps) = Return l ->
  map fst l = map fst ps /\ map snd l = firstn (length ps) (skipn a rates).
Proof.
  intros rates ps. induction ps as [|p ps IH]; intros a l H; cbn [length seq combine mapO] in H.
  - assert (l = []) by congruence. subst. split; reflexivity.
  - unfold reads at 1, nth_or in H. cbn [fst snd] in H. destruct (nth_error rates a) as [r|] eqn:E; [|discriminate]. cbn [obind] in H.
    destruct (mapO (reads rates) (combine (seq (S a) (length ps)) ps)) as [l'|] eqn:M; [|discriminate]. cbn [obind] in H.
    assert (l = (fst p, r) :: l') by congruence. subst l. destruct (IH _ _ M) as [I1 I2]. cbn [map fst snd length]. split; [now rewrite I1|].
    rewrite I2. clear - E. revert a E. induction rates as [|x rates IHr]; intros a E; [destruct a; discriminate|].
    destruct a as [|a]; [cbn in E; assert (x = r) by congruence; subst; reflexivity|]. cbn [skipn nth_error] in *. rewrite <- (IHr a E). reflexivity.
Qed.

Lemma rates_first : forall (test : nat -> bool) (p1 p2 : list port) rates, (forall p, In p p1 -> test (snd p) = true) -> (forall p, In p p2 -> test (snd p) = false) ->
  rates_where test (p1 ++ p2) rates = mapO (reads rates) (combine (seq 0 (length p1)) p1).
Proof.
  intros test p1 p2 rates B1 B2. unfold rates_where. rewrite app_length, seq_app, combine_append by (now rewrite seq_length). rewrite filter_app.
  rewrite filter_all by (intros [i x] X; apply B1; eapply in_combine_r; eauto). rewrite filter_none by (intros [i x] X; apply B2; eapply in_combine_r; eauto).
  now rewrite app_nil_r.
Qed.
Lemma rates_second : forall (test : nat -> bool) (p1 p2 : list port) rates, (forall p, In p p1 -> test (snd p) = true) -> (forall p, In p p2 -> test (snd p) = false) ->
  rates_where (fun k => negb (test k)) (p1 ++ p2) rates = mapO (reads rates) (combine (seq (length p1) (length p2)) p2).
Proof.
  intros test p1 p2 rates B1 B2. unfold rates_where. rewrite app_length, seq_app, combine_append by (now rewrite seq_length). rewrite filter_app.
  rewrite filter_none by (intros [i x] X; cbn [snd]; rewrite (B1 x); [reflexivity|eapply in_combine_r; eauto]).
  rewrite filter_all by (intros [i x] X; cbn [snd]; rewrite (B2 x); [reflexivity|eapply in_combine_r; eauto]). reflexivity.
Qed.

Lemma net_is : forall l, net_rate l = net (map fst l) (map snd l).
Proof.
  intros l. unfold net_rate. induction l as [|[b r] l IH]; [reflexivity|]. cbn [map fst snd net]. rewrite qsum_cons, IH. reflexivity.
Qed.
Lemma net_append : forall k1 k2 r1 r2, length k1 = length r1 -> net (k1 ++ k2) (r1 ++ r2) = net k1 r1 + net k2 r2.
Proof.
  intros k1. induction k1 as [|b k1 IH]; intros k2 r1 r2 L; destruct r1 as [|r r1]; try discriminate; cbn [app net]; [ring|].
  rewrite IH by (cbn [length] in L; lia). ring.
Qed.
Lemma net_firstn : forall k r m, (length k <= m)%nat -> net k (firstn m r) = net k r.
Proof.
  intros k. induction k as [|b k IH]; intros r m L; [destruct (firstn m r), r; reflexivity|]. destruct m as [|m]; [cbn [length] in L; lia|].
  destruct r as [|x r]; [reflexivity|]. cbn [firstn net]. rewrite IH by (cbn [length] in L; lia). reflexivity.
Qed.

Lemma split_rates_is : forall stages rates n r1 r2, (1 <= n)%nat -> split_rates (ports stages) rates n = Return (r1, r2) ->
  let k1 := train_ports (firstn n stages) in
  let k2 := flat_map stage_ports (skipn n stages) in
  r1 = firstn (length k1) rates /\ r2 = net k1 r1 :: firstn (length k2) (skipn (length k1) rates) /\
  net (train_ports stages) rates = net (train_ports (skipn n stages)) r2.
Proof.
  intros stages rates n r1 r2 N H k1 k2.
  set (p1 := ((true, 0%nat) : port) :: ports_from 0 (firstn n stages)). set (p2 := ports_from (length (firstn n stages)) (skipn n stages)).
  assert (Ps : ports stages = p1 ++ p2).
  { unfold ports, p1, p2. cbn [app]. f_equal. rewrite <- (firstn_skipn n stages) at 1. rewrite ports_append. reflexivity. }
  assert (B1 : forall p, In p p1 -> Nat.ltb (snd p) n = true).
  { intros p [<-|I]; [cbn [snd]; apply Nat.ltb_lt; lia|]. apply ports_stage in I. apply Nat.ltb_lt. pose proof (firstn_le_length n stages). lia. }
  assert (B2 : forall p, In p p2 -> Nat.ltb (snd p) n = false).
  { intros p I. apply ports_stage in I. apply Nat.ltb_ge. destruct I as [I1 I2]. rewrite skipn_length in I2. rewrite firstn_length in I1, I2. lia. }
  unfold split_rates in H. rewrite Ps in H. rewrite (rates_first (fun k => Nat.ltb k n) p1 p2 rates B1 B2) in H.
  rewrite (rates_second (fun k => Nat.ltb k n) p1 p2 rates B1 B2) in H.
  destruct (mapO (reads rates) (combine (seq 0 (length p1)) p1)) as [l1|] eqn:M1; [|discriminate]. cbn [obind] in H.
  destruct (mapO (reads rates) (combine (seq (length p1) (length p2)) p2)) as [l2|] eqn:M2; [|discriminate]. cbn [obind] in H.
  apply reads_ok in M1. apply reads_ok in M2. destruct M1 as [F1 S1], M2 as [F2 S2]. cbn [skipn] in S1.
  assert (K1 : map fst p1 = k1) by (unfold p1, k1, train_ports; cbn [map fst]; now rewrite ports_kinds).
  assert (K2 : map fst p2 = k2) by (unfold p2, k2; apply ports_kinds).
  assert (L1 : length p1 = length k1) by (rewrite <- K1; now rewrite map_length).
  assert (L2 : length p2 = length k2) by (rewrite <- K2; now rewrite map_length).
  assert (E1 : r1 = map snd l1) by congruence. assert (E2 : r2 = net_rate l1 :: map snd l2) by congruence.
  rewrite net_is, F1, K1 in E2. rewrite <- E1 in E2. rewrite S1, L1 in E1. rewrite S2, L1, L2 in E2.
  split; [exact E1|]. split; [exact E2|].
  assert (Tk : train_ports stages = k1 ++ k2).
  { unfold k1, k2, train_ports. cbn [app]. f_equal. rewrite <- (firstn_skipn n stages) at 1. apply flat_map_app. }
  assert (Len : length k1 = length r1).
  { rewrite E1. assert (length l1 = length p1) by (rewrite <- (map_length fst l1), F1; apply map_length). assert (length (firstn (length p1) rates) = length l1) by (rewrite <- S1; apply map_length).
    rewrite L1 in *. congruence. }
  rewrite E2, Tk. unfold train_ports. cbn [net]. fold k2. rewrite net_firstn by lia.
  rewrite <- (firstn_skipn (length k1) rates) at 1. rewrite <- E1. apply net_append, Len.
Qed.

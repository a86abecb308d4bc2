(** Proofs about temporal variables. *)
From Coq Require Import Ascii String PeanoNat.
From Verif Require Import QcTac Base BaseLemmas Time_Model Time_Spec Time_Proofs Time_Proofs2
  Expr_Model Expr_Spec Expr_Proofs Vars_Model Vars_Spec Vars_Proofs Vars_Proofs2.
Local Open Scope list_scope.
Local Open Scope Z_scope.

Lemma zip_dates_to_periods : forall M (l : list (datetime * M)),
  zip (create_periods (map fst l) false true) (map snd l) = dates_to_periods l /\
  create_periods (map fst l) false true = map fst (dates_to_periods l).
Proof.
  intros M l. assert (create_periods (map fst l) false true = map fst (dates_to_periods l)) as E.
  { destruct l as [|[d m] l]; [reflexivity|]. unfold create_periods. cbn [map app].
    revert d m; induction l as [|[d2 m2] l IH]; intros d m; [reflexivity|].
    cbn [map fst dates_to_periods]. rewrite consecutive_cons2. cbn [app]. f_equal. rewrite last_shift. exact (IH d2 m2). }
  split; [|assumption]. rewrite E. clear E. induction l as [|[d m] l IH]; [reflexivity|].
  cbn [dates_to_periods map fst snd]. unfold zip in *. cbn [combine]. now rewrite IH.
Qed.

Lemma sort_increasing : forall l, increasing l -> sort Z.leb l = l.
Proof.
  intros l H. apply sort_sorted_id. induction l as [|a l IH]; [constructor|].
  destruct (increasing_cons _ _ H) as [H1 H2]. constructor; auto.
  destruct l as [|b l]; constructor. specialize (H2 b (or_introl eq_refl)). lia.
Qed.

Lemma find_map : forall A B (f : A -> B) (P : B -> bool) l, find P (map f l) = option_map f (find (fun x => P (f x)) l).
Proof. induction l as [|x l IH]; cbn; auto. now destruct (P (f x)). Qed.

Lemma find_ext_in : forall A (P Q : A -> bool) l, (forall x, In x l -> P x = Q x) -> find P l = find Q l.
Proof.
  induction l as [|x l IH]; intros H; cbn; auto. rewrite H by now left. destruct (Q x); auto. apply IH; intros; apply H; now right.
Qed.

Section Pow.
  Variable pow : Qc -> Qc -> Qc.
  Variable vars : variables_dict.
  Variable n : nat.

  Definition val (ts : list token) : list Qc := match evaluate pow ts vars n with Ok v => v | Err _ => [] end.

  Lemma evaluate_entries_val : forall l, (forall e, In e l -> exists v, evaluate pow (snd e) vars n = Ok v) ->
    evaluate_entries pow vars n l = Ok (map (fun e => (fst e, val (snd e))) l).
  Proof.
    induction l as [|[p ts] l IH]; intros H; cbn [evaluate_entries map fst snd]; auto.
    destruct (H (p, ts) (or_introl eq_refl)) as [v E]. cbn in E. unfold val at 1. rewrite E. cbn [bind].
    rewrite IH by (intros; apply H; now right). reflexivity.
  Qed.

  Lemma temporal_values_spec : forall vps processed ps i,
    (forall k p, nth_error ps k = Some p ->
       match get_period vps p with
       | None => True
       | Some vp => exists v, dict_get period_eqb vp processed = Some v /\ (i + k < length v)%nat end) ->
    exists vec, temporal_values vps processed i ps = Ok vec /\ length vec = length ps /\
      forall k p, nth_error ps k = Some p ->
        nth_error vec k =
        match get_period vps p with
        | None => Some 0%Qc
        | Some vp => match dict_get period_eqb vp processed with Some v => nth_error v (i + k) | None => Some 0%Qc end
        end.
  Proof.
    intros vps processed; induction ps as [|p ps IH]; intros i H.
    - exists []. cbn. repeat split; auto. intros [|k] p; discriminate.
    - destruct (IH (S i)) as (vec & E & L & Hv).
      { intros k q Hk. specialize (H (S k) q Hk). now rewrite Nat.add_succ_r in H. }
      cbn [temporal_values]. pose proof (H 0%nat p eq_refl) as H0. rewrite Nat.add_0_r in H0.
      assert (exists x, match get_period vps p with
                | None => Ok 0%Qc
                | Some vp => match dict_get period_eqb vp processed with None => Ok 0%Qc | Some v => of_option IndexError (nth_error v i) end
                end = Ok x /\ Some x = match get_period vps p with
        | None => Some 0%Qc
        | Some vp => match dict_get period_eqb vp processed with Some v => nth_error v i | None => Some 0%Qc end end) as (x & Ex & Ex').
      { destruct (get_period vps p) as [vp|]; [|eauto]. destruct H0 as (v & Ev & Lv). rewrite Ev.
        destruct (nth_error v i) as [x|] eqn:Ei; [exists x; auto|]. apply nth_error_None in Ei. lia. }
      rewrite Ex. cbn [bind]. rewrite E. cbn [bind]. exists (x :: vec). split; [reflexivity|]. split; [cbn; congruence|].
      intros [|k] q Hk; cbn in Hk |- *.
      + injection Hk as <-. rewrite Nat.add_0_r. exact Ex'.
      + rewrite (Hv k q Hk). now rewrite Nat.add_succ_r.
  Qed.
End Pow.

Theorem temporal_variable_proof : forall pow vars ps (entries : list (datetime * list token)),
  increasing (map fst entries) -> (forall k, In k (map fst entries) -> k < DT_MAX) ->
  (forall p, In p ps -> nonempty p /\ p_end p <= DT_MAX) ->
  (forall k p, In k (map fst entries) -> In p ps -> ~ (p_start p < k < p_end p)) ->
  (forall ts, In ts (map snd entries) -> exists v, evaluate pow ts vars (length ps) = Ok v /\ length v = length ps) ->
  exists vec, process_variable pow (VTemporal entries) vars ps = Ok vec /\ length vec = length ps /\
    forall k p, nth_error ps k = Some p ->
      (forall ts, latest_model entries (p_start p) ts ->
         exists v, evaluate pow ts vars (length ps) = Ok v /\ nth_error vec k = nth_error v k) /\
      ((forall t, In t (map fst entries) -> p_start p < t) -> nth_error vec k = Some 0%Qc).
Proof.
  intros pow vars ps entries Hinc Hb Hps Hcut Hev.
  cbn [process_variable]. rewrite (sort_increasing _ Hinc).
  destruct (zip_dates_to_periods _ entries) as [Ez Ep]. rewrite Ez, Ep.
  destruct (dates_to_periods_props _ entries Hinc Hb) as (Q1 & Q2 & Q3).
  assert (forall e, In e (dates_to_periods entries) -> In (snd e) (map snd entries)) as Hsnd.
  { clear. induction entries as [|[d m] l IH]; [contradiction|]. intros e [<-|He]; [now left|right; auto]. }
  rewrite evaluate_entries_val.
  2:{ intros e He. destruct (Hev (snd e)) as (v & Ev & _); eauto. }
  cbn [bind].
  set (f := fun e : period * list token => (fst e, val pow vars (length ps) (snd e))).
  set (dp := dates_to_periods entries) in *.
  assert (NoDup (map fst dp)) as Hnd.
  { apply (NoDup_map_inv p_start). rewrite map_map. unfold dp. rewrite dates_to_periods_starts. now apply increasing_NoDup. }
  assert (map fst (map f dp) = map fst dp) as Hmf by (rewrite map_map; reflexivity).
  assert (period_dict (map f dp) = map f dp) as ->.
  { unfold period_dict. rewrite (dict_of_list_NoDup _ _ _ period_eqb_spec); [reflexivity|]. cbn [app]. now rewrite Hmf. }
  (* the period found for p is the one containing its start *)
  assert (forall p, In p ps ->
    match get_period (map fst dp) p with
    | None => get_model dp (p_start p) = Err ValueError
    | Some vp => exists ts, dict_get period_eqb vp (map f dp) = Some (val pow vars (length ps) ts) /\
        get_model dp (p_start p) = Ok ts /\ In ts (map snd entries) end) as Hget.
  { intros p Hp. destruct (Hps p Hp) as [Hne Hmax]. unfold nonempty in Hne.
    unfold get_period, get_model. rewrite find_map.
    rewrite (find_ext_in _ _ (fun e => contains_date (fst e) (p_start p))).
    - destruct (find _ dp) as [e|] eqn:F; [|reflexivity]. cbn [option_map].
      apply find_some in F as [F1 F2]. exists (snd e). split; [|split; [reflexivity|auto]].
      apply dict_get_NoDup; [apply period_eqb_spec|now rewrite Hmf|].
      apply in_map_iff. exists e. auto.
    - intros e He. unfold contains_period, contains_date.
      assert (~ (p_start p < p_end (fst e) < p_end p)) as Hc.
      { assert (p_end (fst e) = DT_MAX \/ In (p_end (fst e)) (map fst entries)) as [->|Hin].
        { clear -He. unfold dp in He. induction entries as [|[d m] l IH]; [contradiction|]. destruct He as [<-|He].
          - destruct l as [|[d2 m2] l]; cbn; auto.
          - destruct (IH He); auto. right; now right. }
        - lia.
        - now apply Hcut. }
      pose proof (Q1 e He) as Hn. unfold nonempty in Hn.
      destruct (Z.leb_spec (p_start (fst e)) (p_start p)); cbn; [|reflexivity].
      destruct (Z.ltb_spec (p_start p) (p_end p)); [|lia]. cbn.
      destruct (Z.leb_spec (p_end p) (p_end (fst e))), (Z.ltb_spec (p_start p) (p_end (fst e))); auto; lia. }
  destruct (temporal_values_spec (map fst dp) (map f dp) ps 0) as (vec & E & L & Hv).
  { intros k p Hk. specialize (Hget p (nth_error_In _ _ Hk)). destruct (get_period (map fst dp) p) as [vp|]; auto.
    destruct Hget as (ts & Ed & _ & Hin). exists (val pow vars (length ps) ts). split; [assumption|].
    destruct (Hev ts Hin) as (v & Ev & Lv). unfold val. rewrite Ev, Lv. cbn. apply nth_error_Some. congruence. }
  exists vec. split; [assumption|]. split; [assumption|]. intros k p Hk. rewrite (Hv k p Hk). cbn [Nat.add].
  specialize (Hget p (nth_error_In _ _ Hk)). destruct (Hps p (nth_error_In _ _ Hk)) as [Hne Hmax]. unfold nonempty in Hne. split.
  - intros ts Hl. apply (get_model_dates _ entries (p_start p) ts Hinc ltac:(lia)) in Hl.
    fold dp in Hl. destruct (get_period (map fst dp) p) as [vp|]; [|congruence].
    destruct Hget as (ts' & Ed & Eg & Hin). assert (ts' = ts) as -> by congruence.
    destruct (Hev ts Hin) as (v & Ev & Lv). exists v. split; [assumption|]. rewrite Ed. unfold val. now rewrite Ev.
  - intros Hbefore. destruct (get_period (map fst dp) p) as [vp|]; auto. exfalso.
    destruct Hget as (ts & _ & Eg & _). apply (get_model_dates _ entries) in Eg; auto; [|lia].
    destruct Eg as (t & Hin & Ht & _). apply (in_map fst) in Hin. specialize (Hbefore _ Hin). cbn in Hbefore. lia.
Qed.

(** dates in another order: the expressions are attached to the wrong dates *)
Lemma temporal_variable_unsorted_refuted_proof : forall pow, exists entries ps vec,
  NoDup (map fst entries) /\ latest_model entries (p_start (mkPeriod 20 30)) [TNum (qz 2)] /\
  nth_error ps 1 = Some (mkPeriod 20 30) /\
  process_variable pow (VTemporal entries) [] ps = Ok vec /\ nth_error vec 1 = Some (qz 1).
Proof.
  intros pow. exists [(20, [TNum (qz 2)]); (10, [TNum (qz 1)])], [mkPeriod 10 20; mkPeriod 20 30], [qz 2; qz 1].
  split; [repeat constructor; cbn; intuition congruence|].
  split. { exists 20. cbn. split; [auto|]. split; [lia|]. intros k m [[= <- <-]|[[= <- <-]|[]]]; lia. }
  split; [reflexivity|]. split; [reflexivity|reflexivity].
Qed.

(** a date strictly inside a period: that period gets 0 although an expression is in force *)
Lemma temporal_variable_off_grid_refuted_proof : forall pow, exists entries ps vec,
  increasing (map fst entries) /\ contiguous ps /\
  (forall d, 10 <= d < 30 -> exists ts v, latest_model entries d ts /\ In ts (map snd entries) /\
     evaluate pow ts [] 2 = Ok v /\ nth_error v 1 <> Some 0%Qc) /\
  nth_error ps 0 = Some (mkPeriod 10 20) /\
  process_variable pow (VTemporal entries) [] ps = Ok vec /\ nth_error vec 0 = Some 0%Qc.
Proof.
  intros pow. exists [(10, [TNum (qz 1)]); (15, [TNum (qz 2)])], [mkPeriod 10 20; mkPeriod 20 30], [qz 0; qz 2].
  split; [cbn; lia|]. split; [unfold contiguous, nonempty; cbn; lia|]. split.
  - intros d Hd. destruct (Z_lt_le_dec d 15).
    + exists [TNum (qz 1)], [qz 1; qz 1]. split; [|split; [cbn; auto|split; [reflexivity|discriminate]]].
      exists 10. cbn. split; [auto|]. split; [lia|]. intros k m [[= <- <-]|[[= <- <-]|[]]]; lia.
    + exists [TNum (qz 2)], [qz 2; qz 2]. split; [|split; [cbn; auto|split; [reflexivity|discriminate]]].
      exists 15. cbn. split; [auto|]. split; [lia|]. intros k m [[= <- <-]|[[= <- <-]|[]]]; lia.
  - split; [reflexivity|]. split; reflexivity.
Qed.

Lemma well_written_evaluates : forall pow ps v env,
  (forall p, In p ps -> nonempty p /\ p_end p <= DT_MAX) -> well_written ps v ->
  (forall r, In r (required_variables v) -> exists l, dict_get String.eqb r env = Some l /\ length l = length ps) ->
  exists l, process_variable pow v env ps = Ok l /\ length l = length ps.
Proof.
  intros pow ps v env Hps Hw Hreq. destruct v as [ts|entries].
  - destruct Hw as (k & e & Hw). cbn [process_variable]. cbn [required_variables] in Hreq.
    rewrite (writes_references _ _ _ Hw) in Hreq.
    destruct (evaluate_writes_proof pow _ _ _ env (length ps) Hw Hreq) as (vec & E & L & _). eauto.
  - destruct Hw as (H1 & H2 & H3 & H4).
    destruct (temporal_variable_proof pow env ps entries H1 H2 Hps H3) as (vec & E & L & _); eauto.
    intros ts Hts. destruct (H4 ts Hts) as (k & e & Hw).
    destruct (evaluate_writes_proof pow _ _ _ env (length ps) Hw) as (vec & E & L & _); eauto.
    intros r Hr. apply Hreq. cbn [required_variables]. apply in_flat_map.
    apply in_map_iff in Hts as (x & <- & Hx). exists x. split; auto. now rewrite (writes_references _ _ _ Hw).
Qed.

Lemma determined_length : forall pow D series ps,
  (forall p, In p ps -> nonempty p /\ p_end p <= DT_MAX) ->
  (forall r l, dict_get String.eqb r series = Some l -> length l = length ps) ->
  (forall id v, In (id, v) D -> well_written ps v) ->
  forall r l, determined pow D series ps r l -> length l = length ps.
Proof.
  intros pow D series ps Hps Hs Hw. induction 1 as [r l Hr|id v env l Hin Hdef Hdet IH Hp]; [eauto|].
  destruct (well_written_evaluates pow ps v env Hps (Hw _ _ Hin)) as (l' & E & L); [|congruence].
  intros r Hr. destruct (Hdef r Hr) as [lr E]. eauto.
Qed.

Theorem well_written_no_error : forall pow D series ps,
  (forall p, In p ps -> nonempty p /\ p_end p <= DT_MAX) ->
  (forall r l, dict_get String.eqb r series = Some l -> length l = length ps) ->
  (forall id v, In (id, v) D -> well_written ps v) ->
  no_evaluation_error pow D series ps.
Proof.
  intros pow D series ps Hps Hs Hw id v env Hin Hreq.
  destruct (well_written_evaluates pow ps v env Hps (Hw _ _ Hin)) as (l & E & _); eauto.
  intros r Hr. destruct (Hreq r Hr) as (lr & E & Hd). exists lr. split; [assumption|]. eapply determined_length; eauto.
Qed.

Theorem evaluate_variables_written_proof : forall pow variables series p0 rest,
  let ps := p0 :: rest in
  (forall p, In p ps -> nonempty p /\ p_end p <= DT_MAX) ->
  (forall r l, dict_get String.eqb r series = Some l -> length l = length ps) ->
  (forall name v, In (name, v) variables -> well_written ps v) ->
  no_clash variables series ->
  ((forall id, In id (map fst (with_prefix variables)) -> resolvable (with_prefix variables) series id) ->
     exists vm, evaluate_variables pow variables series ps = Ok vm) /\
  (~ (forall id, In id (map fst (with_prefix variables)) -> resolvable (with_prefix variables) series id) ->
     evaluate_variables pow variables series ps = Err ValidationError).
Proof.
  intros pow variables series p0 rest ps Hps Hs Hw Hnc. apply evaluate_variables_success_proof; auto.
  apply well_written_no_error; auto. intros id v Hin. unfold with_prefix in Hin.
  apply in_map_iff in Hin as ((name & v') & [= <- <-] & Hin). eauto.
Qed.

(** Proofs about exports: tables; what does not hold. *)
From Coq Require Import String PeanoNat Sorted.
From Verif Require Import QcTac Num Time_Model Time_Spec Time_Proofs Time_Proofs2 Time_Proofs3 Units_Model Rates_Model Rates_Spec Numbers_Model Base BaseLemmas Export_Model Export_Spec Export_Proofs Export_Proofs2 Export_Proofs3 Export_Proofs4.
Local Open Scope list_scope.

Lemma existsb_period : forall p l, existsb (period_eqb p) l = true <-> In p l.
Proof.
  intros p l. rewrite existsb_exists. split; [intros (x & I & E); apply period_eqb_spec in E; now subst|intros I; exists p; split; [exact I|now apply period_eqb_spec]].
Qed.
Lemma same_keys_spec : forall a b, same_keys a b = true <-> (forall p, In p a <-> In p b).
Proof.
  intros a b. unfold same_keys. rewrite andb_true_iff, !forallb_forall. split.
  - intros [H1 H2] p. split; intros I; apply existsb_period; auto.
  - intros H. split; intros p I; apply existsb_period; now apply H.
Qed.
Lemma find_name : forall l r, NoDup (map qr_name l) -> In r l -> find (fun r' => String.eqb (qr_name r') (qr_name r)) l = Some r.
Proof.
  induction l as [|x l IH]; intros r N I; [destruct I|]. cbn [map] in N. inversion N as [|? ? NI N']; subst. cbn [find]. destruct I as [->|I].
  - now rewrite String.eqb_refl.
  - destruct (String.eqb_spec (qr_name x) (qr_name r)) as [E|_]; [|now apply IH]. exfalso. apply NI. rewrite E. now apply in_map.
Qed.

(** C46: the table of a group *)
Theorem table_proof : forall l r0, NoDup (map qr_name l) -> (forall r, In r l -> NoDup (map fst (qr_values r))) -> In r0 l ->
  ((forall r r' p, In r l -> In r' l -> In p (map fst (qr_values r)) -> In p (map fst (qr_values r'))) ->
    exists rows, table l = Ok (map qr_name l, rows) /\ Sorted (fun p q => (p_start p < p_start q \/ p_start p = p_start q /\ p_end p <= p_end q)%Z) (map fst rows) /\
      NoDup (map fst rows) /\ (forall p, In p (map fst rows) <-> In p (map fst (qr_values r0))) /\
      forall p cells, In (p, cells) rows -> Forall2 (fun r c => In (p, c) (qr_values r)) l cells) /\
  (~ (forall r r' p, In r l -> In r' l -> In p (map fst (qr_values r)) -> In p (map fst (qr_values r'))) -> table l = Err AssertionError).
Proof.
  intros l r0 N ND I0. destruct l as [|r rest]; [destruct I0|].
  assert (forallb (fun r' => same_keys (map fst (qr_values r)) (map fst (qr_values r'))) rest = true <->
          (forall a b p, In a (r :: rest) -> In b (r :: rest) -> In p (map fst (qr_values a)) -> In p (map fst (qr_values b)))) as EQ.
  { rewrite forallb_forall. split.
    - intros H a b p Ia Ib Ip. assert (forall x, In x (r :: rest) -> forall p, In p (map fst (qr_values r)) <-> In p (map fst (qr_values x))) as Hx.
      { intros x [<-|Ix]; [tauto|]. apply same_keys_spec. auto. }
      apply (Hx b Ib). now apply (Hx a Ia).
    - intros H x Ix. apply same_keys_spec. intros p. split; apply H; auto; try (now left); now right. }
  split.
  - intros H. assert (forallb (fun r' => same_keys (map fst (qr_values r)) (map fst (qr_values r'))) rest = true) as B by now apply EQ.
    set (ps := sort period_leb (map fst (qr_values r))). pose proof (sort_perm _ period_leb (map fst (qr_values r))) as PM. fold ps in PM.
    assert (forall p, In p ps <-> In p (map fst (qr_values r0))) as K.
    { intros p. split; intros I.
      - apply (H r r0 p (or_introl eq_refl) I0). exact (Permutation_in _ (Permutation_sym PM) I).
      - apply (Permutation_in _ PM). exact (H r0 r p I0 (or_introl eq_refl) I). }
    assert (forall p, In p ps -> exists cs, mapM (get_value (r :: rest) p) (map qr_name (r :: rest)) = Ok cs /\ Forall2 (fun x c => In (p, c) (qr_values x)) (r :: rest) cs) as V.
    { intros p Ip. assert (forall x, In x (r :: rest) -> exists c, get_value (r :: rest) p (qr_name x) = Ok c /\ In (p, c) (qr_values x)) as G.
      { intros x Ix. unfold get_value, get_column. rewrite (find_name _ _ N Ix). cbn [of_option Base.bind]. destruct (dict_get period_eqb p (qr_values x)) as [c|] eqn:D.
        - exists c. split; [reflexivity|]. apply dict_get_In in D; auto. apply period_eqb_spec.
        - exfalso. apply dict_get_None in D; [|apply period_eqb_spec]. apply D. apply K in Ip. exact (H r0 x p I0 Ix Ip). }
      revert G. generalize (get_value (r :: rest) p). intros gv. clear. induction (r :: rest) as [|x xs IH]; intros G; [exists []; split; [reflexivity|constructor]|].
      destruct (G x (or_introl eq_refl)) as (c & E & Ic). destruct IH as (cs & M & F); [intros y Iy; apply G; now right|]. exists (c :: cs). cbn [map mapM]. rewrite E. cbn [Base.bind]. rewrite M. split; [reflexivity|]. now constructor. }
    assert (exists rows, mapM (fun p => do cs <- mapM (get_value (r :: rest) p) (map qr_name (r :: rest)); Ok (p, cs)) ps = Ok rows /\ map fst rows = ps /\
              forall p cells, In (p, cells) rows -> Forall2 (fun x c => In (p, c) (qr_values x)) (r :: rest) cells) as (rows & M & KR & C).
    { clear - V. induction ps as [|p ps IH]; [exists []; repeat split; auto; intros ? ? []|]. destruct (V p (or_introl eq_refl)) as (cs & E & F). destruct IH as (rows & M & KR & C); [intros q Iq; apply V; now right|].
      exists ((p, cs) :: rows). cbn [mapM]. rewrite E. cbn [Base.bind]. rewrite M. split; [reflexivity|]. split; [cbn; now rewrite KR|]. intros q cells [Eq|Iq]; [injection Eq as <- <-; exact F|now apply C]. }
    exists rows. split; [|split; [|split; [|split]]].
    + unfold table, row_periods. rewrite B. fold ps. cbn [Base.bind]. rewrite M. reflexivity.
    + rewrite KR. pose proof (sort_Sorted _ period_leb period_leb_total (map fst (qr_values r))) as S. fold ps in S. clear - S. induction S as [|p ps S IH HS]; constructor; auto. destruct HS as [|q qs HQ]; constructor. unfold period_leb in HQ. lia.
    + rewrite KR. eapply Permutation_NoDup; [exact PM|]. apply ND. now left.
    + intros p. rewrite KR. apply K.
    + exact C.
  - intros H. unfold table, row_periods. destruct (forallb _ rest) eqn:B; [exfalso; apply H, EQ; reflexivity|reflexivity].
Qed.
(** two columns of the same name show the values of the first *)
Theorem same_name_refuted_proof : exists l rows p, table l = Ok (map qr_name l, rows) /\
  exists r, nth_error l 1 = Some r /\ In (p, Number (Some (qz 2))) (qr_values r) /\ In (p, [Number (Some (qz 1)); Number (Some (qz 1))]) rows.
Proof.
  exists [mkQueryResult "a" "a" TONS [(mkPeriod 0 1, Number (Some (qz 1)))]; mkQueryResult "a" "b" TONS [(mkPeriod 0 1, Number (Some (qz 2)))]].
  eexists. exists (mkPeriod 0 1). split; [reflexivity|]. eexists. split; [reflexivity|]. split; now left.
Qed.

(** ** What does not hold *)
Definition shore_query : query := mkQuery MaxUsageFromShore None None (Some ["POWER-FROM-SHORE"%string]) None None.
Definition shore_attribute (pts : list (period * num)) : attribute := mkAttribute (mkMeta None None (Some "POWER-FROM-SHORE"%string) None) pts.
Definition day (y m d : Z) : Z := (86400 * date_day y m d)%Z.
Definition half_years : list period := [mkPeriod (day 2020 1 1) (day 2020 7 1); mkPeriod (day 2020 7 1) (day 2021 1 1)].
Definition shore (pts : list (period * num)) : exportable :=
  mkExportable "A" (Some "FIXED"%string) half_years (Ok []) (fun _ => Ok []) (fun _ => Ok []) (fun _ => Ok []) (fun _ => Ok [shore_attribute pts]) (fun _ => Ok []).
(** the maximum usage of a new period is not the maximum of the levels in it *)
Theorem max_refuted_proof : exists q e l p o x, q_kind q = MaxUsageFromShore /\ contiguous (e_periods e) /\ right_installation q e /\
  attributes_of e (q_kind q) MEGA_WATT = Ok l /\ (forall a, In a l -> matches q a -> finite_on (e_periods e) a) /\
  run_query q e MEGA_WATT FreqYear = Ok (Some [(p, Some (qz 1))]) /\
  In o (e_periods e) /\ (p_start p <= p_start o /\ p_end o <= p_end p)%Z /\ total_in (matches q) o l x /\ x = qz 5.
Proof.
  exists shore_query, (shore [(mkPeriod (day 2020 1 1) (day 2020 7 1), Some (qz 1)); (mkPeriod (day 2020 7 1) (day 2021 1 1), Some (qz 5))]).
  eexists. exists (mkPeriod (day 2020 1 1) (day 2021 1 1)), (mkPeriod (day 2020 7 1) (day 2021 1 1)). eexists.
  split; [reflexivity|]. split; [cbn; unfold nonempty; cbn; repeat split; vm_compute; reflexivity|]. split; [intros c; discriminate|]. split; [reflexivity|]. split.
  - intros a [<-|[]] _ p v [E|[E|[]]]; injection E as <- <-; cbn; split; eauto.
  - split; [vm_compute; reflexivity|]. split; [cbn; auto|]. split; [vm_compute; split; discriminate|]. split.
    + apply T_in; [intros l [= <-]; exists "POWER-FROM-SHORE"%string; split; [reflexivity|now left]|apply T_nil].
    + apply Qc_is_canon. vm_compute. reflexivity.
Qed.

(** a NaN of one consumer makes the sum over all consumers zero *)
Definition fuel_query : query := mkQuery Fuel (Some "FIXED"%string) None None None None.
Definition fuel_of (consumer : string) (pts : list (period * num)) : attribute := mkAttribute (mkMeta (Some "FUEL-GAS"%string) (Some consumer) None None) pts.
Definition burner (l : list attribute) : exportable := mkExportable "A" (Some "FIXED"%string) half_years (Ok l) (fun _ => Ok []) (fun _ => Ok []) (fun _ => Ok []) (fun _ => Ok []) (fun _ => Ok []).
Theorem nan_refuted_proof : exists q e l p a x rows, contiguous (e_periods e) /\ right_installation q e /\ attributes_of e (q_kind q) STANDARD_CUBIC_METER = Ok l /\
  In a l /\ matches q a /\ In (p, Some x) (a_points a) /\ x = qz 7 /\ run_query q e STANDARD_CUBIC_METER FreqNone = Ok (Some rows) /\ In (p, Some 0%Qc) rows.
Proof.
  pose (p1 := mkPeriod (day 2020 1 1) (day 2020 7 1)). exists fuel_query, (burner [fuel_of "FLARE" [(p1, Some (qz 7))]; fuel_of "TURBINE" [(p1, None)]]). eexists. exists p1. eexists. exists (qz 7). eexists.
  split; [cbn; unfold nonempty; cbn; repeat split; vm_compute; reflexivity|]. split; [intros c [= <-]; reflexivity|]. split; [reflexivity|].
  split; [left; reflexivity|]. split; [split; intros ? [=]|]. split; [left; reflexivity|]. split; [reflexivity|]. split; [vm_compute; reflexivity|]. left. vm_compute. reflexivity.
Qed.

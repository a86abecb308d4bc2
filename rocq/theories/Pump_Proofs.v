(** Proofs about pumps. *)
From Coq Require Import PeanoNat.
From Verif Require Import QcTac Base BaseLemmas Num Units_Model Interp_Model Interp_Spec Time_Proofs Interp_Proofs
  Chart_Model Chart_Spec Chart_Proofs Chart_Proofs2 Pump_Model Pump_Spec.
Local Open Scope list_scope.
Local Open Scope Qc_scope.

Lemma bara_pascal : unit_to BARA PASCAL = Ok (fun x => x * qz 100000). Proof. reflexivity. Qed.
Lemma pascal_bara : unit_to PASCAL BARA = Ok (fun x => x / qz 100000). Proof. reflexivity. Qed.
Lemma lt_neq : forall x : Qc, 0 < x -> x <> 0.
Proof. intros x H E. rewrite E in H. revert H. apply Qcle_not_lt, Qcle_refl. Qed.
Lemma div_pos : forall a b : Qc, 0 < a -> 0 < b -> 0 < a / b.
Proof.
  intros a b Ha Hb. destruct (Qclt_le_dec 0 (a / b)) as [H|H]; auto. exfalso.
  assert (a / b * b = a) as E by (field; now apply lt_neq). assert (a / b * b <= 0) by (clear - H Hb; qc_nra). rewrite E in H0. qc_lra.
Qed.
Lemma div_nn : forall a b : Qc, 0 <= a -> 0 < b -> 0 <= a / b.
Proof.
  intros a b Ha Hb. destruct (Qclt_le_dec (a / b) 0) as [H|H]; auto. exfalso.
  assert (a / b * b = a) as E by (field; now apply lt_neq). assert (a / b * b < 0) by (clear - H Hb; qc_nra). rewrite E in H0. qc_lra.
Qed.
Lemma mul_nn : forall a b : Qc, 0 <= a -> 0 <= b -> 0 <= a * b. Proof. intros. qc_nra. Qed.
Lemma mul_pos : forall a b : Qc, 0 < a -> 0 < b -> 0 < a * b. Proof. intros. qc_nra. Qed.

Lemma head_of_ok : forall ps pd rho, 0 < rho -> head_of ps pd rho = Ok (head_between ps pd rho).
Proof.
  intros ps pd rho H. unfold head_of. rewrite bara_pascal. cbn [bind].
  destruct (Qceqb rho 0) eqn:E; [apply Qceqb_eq in E; elim (lt_neq rho H E)|reflexivity].
Qed.

Theorem new_liquid_proof : forall p d m,
  (forall s, new_liquid p d m = Ok s -> s = mkLiquid p d m /\ physical s) /\
  ((exists s, new_liquid p d m = Ok s) <-> 0 < d /\ 0 <= m /\ 0 < p).
Proof.
  intros p d m. unfold new_liquid.
  destruct (Qcleb d 0) eqn:E1; [apply Qcleb_le in E1|apply Qcleb_gt in E1].
  { split; [intros s E; discriminate E|]. split; [intros [s E]; discriminate E|]. intros (H & _). exfalso. qc_lra. }
  destruct (Qcltb m 0) eqn:E2; [apply Qcltb_lt in E2|apply Qcltb_ge in E2].
  { split; [intros s E; discriminate E|]. split; [intros [s E]; discriminate E|]. intros (_ & H & _). exfalso. qc_lra. }
  destruct (Qcleb p 0) eqn:E3; [apply Qcleb_le in E3|apply Qcleb_gt in E3].
  { split; [intros s E; discriminate E|]. split; [intros [s E]; discriminate E|]. intros (_ & _ & H). exfalso. qc_lra. }
  split.
  - intros s E. assert (s = mkLiquid p d m) as -> by congruence. split; [reflexivity|]. split; [exact E1|]. split; assumption.
  - split; [auto|]. intros _. eexists. reflexivity.
Qed.
Lemma new_liquid_ok : forall p d m, 0 < d -> 0 <= m -> 0 < p -> new_liquid p d m = Ok (mkLiquid p d m).
Proof.
  intros p d m A B C. destruct (proj2 (proj2 (new_liquid_proof p d m))) as [s E]; auto. rewrite E.
  now destruct (proj1 (new_liquid_proof p d m) s E) as [-> _].
Qed.

(** what the constructor accepts *)
Theorem make_pump_proof : forall curves min_flow, Forall proper_curve curves ->
  (forall p, make_pump curves min_flow = Ok p ->
     curves <> [] /\ pu_chart p = curves /\
     (forall c e, In c curves -> In e (cv_eff c) -> 0 < e) /\
     (forall m, min_flow = Some m -> pu_min_flow p = m) /\
     (min_flow = None -> exists c, In c curves /\ In (pu_min_flow p) (cv_rate c)) /\
     (exists c r, In c curves /\ In r (cv_rate c) /\ r <= pu_min_flow p /\
        forall c' r', In c' curves -> In r' (cv_rate c') -> r <= r')) /\
  ((exists p, make_pump curves min_flow = Ok p) <->
     curves <> [] /\ (forall c e, In c curves -> In e (cv_eff c) -> 0 < e) /\
     (forall m, min_flow = Some m -> exists c r, In c curves /\ In r (cv_rate c) /\ r <= m)) /\
  (forall e, make_pump curves min_flow = Err e -> e = ValidationError).
Proof.
  intros curves min_flow F. unfold make_pump, make_chart.
  destruct curves as [|c0 cs0].
  { cbn [bind]. split; [intros p E; discriminate E|]. split; [|intros e E; congruence]. split; [intros [p E]; discriminate E|]. intros [H _]. congruence. }
  set (cs := c0 :: cs0) in *. cbn [bind]. assert (cs <> []) as N by discriminate.
  destruct (existsb _ (flat_map cv_eff cs)) eqn:X.
  { split; [intros p E; discriminate E|]. split; [|intros e E; congruence]. split; [intros [p E]; discriminate E|]. intros (_ & H & _). exfalso.
    apply existsb_exists in X as (e & Hin & L). apply in_flat_map in Hin as (c & Hc & He). apply Qcleb_le in L. specialize (H c e Hc He). qc_lra. }
  assert (forall c e, In c cs -> In e (cv_eff c) -> 0 < e) as HE.
  { intros c e Hc He. destruct (Qclt_le_dec 0 e) as [L|L]; auto. exfalso.
    assert (existsb (fun e => Qcleb e 0) (flat_map cv_eff cs) = true); [|congruence].
    apply existsb_exists. exists e. split; [apply in_flat_map; eauto|now apply Qcleb_le]. }
  destruct (chart_min_rate_ok cs N F) as (lo & Elo & (c1 & I1 & I2) & Blo). rewrite Elo. cbn [bind].
  set (m := match min_flow with None => lo | Some m => m end).
  destruct (Qcltb m lo) eqn:L; [apply Qcltb_lt in L|apply Qcltb_ge in L].
  - split; [intros p E; discriminate E|]. split; [|intros e E; congruence]. split; [intros [p E]; discriminate E|]. intros (_ & _ & H). exfalso.
    unfold m in L. destruct min_flow as [m'|]; [|revert L; apply Qcle_not_lt, Qcle_refl].
    destruct (H m' eq_refl) as (c & r & Hc & Hr & Hle). apply (Blo c r Hc) in Hr. qc_lra.
  - split; [|split; [|intros e E; discriminate E]].
    + intros p E. assert (p = mkPump cs m) as -> by congruence. cbn [pu_chart pu_min_flow].
      split; [exact N|]. split; [reflexivity|]. split; [exact HE|].
      split; [intros m' ->; reflexivity|]. split; [intros ->; unfold m; eauto|].
      exists c1, lo. auto.
    + split; [|intros _; eexists; reflexivity]. intros _. split; [exact N|]. split; [exact HE|]. intros m' ->. exists c1, lo. auto.
Qed.

Lemma failure_reports : forall a b (A B : Prop), (a = true <-> A) -> (b = true <-> B) -> reports (failure_of a b) B A.
Proof.
  intros [|] [|] A B H1 H2; cbn.
  - split; tauto.
  - split; [|tauto]. intros X. apply H2 in X. discriminate X.
  - split; [tauto|]. intros X. apply H1 in X. discriminate X.
  - split; intros X; [apply H2 in X|apply H1 in X]; discriminate X.
Qed.

Lemma value_at_unique : forall data x y y', rising data -> value_at data x y -> value_at data x y' -> y = y'.
Proof.
  intros data x y y' R.
  assert (forall a b b', In (a, b) data -> In (a, b') data -> b = b') as U.
  { clear - R. induction data as [|[p q] d IH]; [intros a b b' []|]. intros a b b' [E|H] [E'|H'].
    - congruence.
    - injection E as -> ->. destruct R as [R _]. apply R in H'. elim (Qclt_not_eq _ _ H'). reflexivity.
    - injection E' as -> ->. destruct R as [R _]. apply R in H. elim (Qclt_not_eq _ _ H). reflexivity.
    - destruct R as [_ R]. eapply IH; eauto. }
  assert (forall a v, In (a, v) data -> (x < a /\ (forall b yb, In (b, yb) data -> a <= b)) \/ (a < x /\ (forall b yb, In (b, yb) data -> b <= a)) -> ~ in_range data x) as NR.
  { intros a v Hin [[L M]|[L M]] [(c & yc & Hc & Lc) (d & yd & Hd & Ld)].
    - apply M in Hc. qc_lra.
    - apply M in Hd. qc_lra. }
  intros [[R1 I1]|(a & Ha & Ca)] [[R2 I2]|(b & Hb & Cb)].
  - destruct I1 as [I1|(a1 & ya1 & b1 & yb1 & A1 & B1 & L1 & M1 & N1 & ->)], I2 as [I2|(a2 & ya2 & b2 & yb2 & A2 & B2 & L2 & M2 & N2 & ->)].
    + eauto.
    + destruct (N2 _ _ I1) as [?|?]; exfalso; qc_lra.
    + destruct (N1 _ _ I2) as [?|?]; exfalso; qc_lra.
    + assert (a1 = a2) as <-. { destruct (N1 _ _ A2), (N2 _ _ A1); try (apply Qcle_antisym; assumption); exfalso; qc_lra. }
      assert (b1 = b2) as <-. { destruct (N1 _ _ B2), (N2 _ _ B1); try (apply Qcle_antisym; assumption); exfalso; qc_lra. }
      rewrite (U _ _ _ A1 A2), (U _ _ _ B1 B2). reflexivity.
  - elim (NR b y' Hb Cb R1).
  - elim (NR a y Ha Ca R2).
  - destruct Ca as [[La Ma]|[La Ma]], Cb as [[Lb Mb]|[Lb Mb]].
    + assert (a = b) as <- by (apply Qcle_antisym; eauto). eauto.
    + exfalso. pose proof (Ma _ _ Hb). qc_lra.
    + exfalso. pose proof (Mb _ _ Ha). qc_lra.
    + assert (a = b) as <- by (apply Qcle_antisym; eauto). eauto.
Qed.

Lemma curve_rising : forall c, StronglySorted Qcle (cv_rate c) -> NoDup (cv_rate c) -> rising (head_points c).
Proof.
  intros c S D. unfold head_points. destruct (cv_lengths c) as (L1 & L2 & _). assert (List.length (cv_rate c) = List.length (cv_head c)) as L by congruence. clear L1 L2.
  revert S D L. generalize (cv_rate c) (cv_head c). induction l as [|r l IH]; intros [|h m] S D L; try discriminate L; [exact I|].
  cbn [combine rising]. apply StronglySorted_inv in S as [S1 S2]. inversion D; subst. split; [|apply IH; auto].
  intros [r' h'] Hin. cbn [fst]. apply in_combine_l in Hin. rewrite Forall_forall in S2. pose proof (S2 r' Hin) as Hle.
  apply Qcle_lt_or_eq in Hle as [?|E]; auto. subst. contradiction.
Qed.

Lemma curve_head_value : forall c r h, proper_curve c -> NoDup (cv_rate c) -> curve_head_at c r = Ok h -> value_at (head_points c) r h.
Proof.
  intros c r h P D E. unfold curve_head_at in E. destruct (cv_lengths c) as (L1 & L2 & _). apply interp1d_ends_value; auto; [congruence|].
  apply curve_rising; auto. apply P.
Qed.

(** ** one evaluation *)
Section Eval.
Variable closest : list (Qc * Qc) -> Qc -> Qc -> Qc * (Qc * Qc).
Variable np_std : list Qc -> Qc.
Hypothesis closest_distance : forall pts x y, 0 <= fst (closest pts x y).

Lemma pump_efficiency_ok : forall cs rate head, cs <> [] -> Forall proper_curve cs ->
  (forall c e, In c cs -> In e (cv_eff c) -> 0 < e) ->
  exists e, pump_efficiency closest np_std cs rate head = Ok e /\ 0 < e /\ e <= 1.
Proof.
  intros cs rate head N F P.
  assert (exists lo, 0 < lo /\ forall c e, In c cs -> In e (cv_eff c) -> lo <= e /\ e <= 1) as (lo & L0 & B).
  { destruct (qc_min_ok (1 :: flat_map cv_eff cs)) as (m & _ & I & H); [discriminate|]. exists m. split.
    - destruct I as [<-|I]; [reflexivity|]. apply in_flat_map in I as (c & Hc & He). eauto.
    - intros c e Hc He. rewrite Forall_forall in F. destruct (F c Hc) as (_ & _ & X). split; [|now apply X].
      apply H. right. apply in_flat_map. eauto. }
  unfold pump_efficiency. destruct (chart_100 cs).
  - exists 1. split; [reflexivity|]. split; [reflexivity|apply Qcle_refl].
  - destruct (efficiency_bounds_proof closest np_std closest_distance cs rate head lo 1 N F B) as (e & E & L1 & L2).
    exists e. split; [exact E|]. split; [qc_lra|exact L2].
Qed.

Lemma sorted_curves_in : forall (cs : list curve) c, In c (sort (fun a b => Qcleb (cv_speed a) (cv_speed b)) cs) <-> In c cs.
Proof.
  intros cs c. split; intros H.
  - eapply Permutation_in; [apply Permutation_sym, sort_perm|exact H].
  - eapply Permutation_in; [apply sort_perm|exact H].
Qed.

Lemma sort_speeds : forall cs : list curve, StronglySorted Qcle (map cv_speed (sort (fun a b => Qcleb (cv_speed a) (cv_speed b)) cs)).
Proof.
  assert (forall l p, StronglySorted Qcle (map cv_speed l) ->
    StronglySorted Qcle (map cv_speed (insert_sorted (fun a b => Qcleb (cv_speed a) (cv_speed b)) p l))) as Hins.
  { induction l as [|q l IH]; intros p H; cbn [insert_sorted].
    - cbn. constructor; constructor.
    - cbn [map] in H. apply StronglySorted_inv in H as [H1 H2]. destruct (Qcleb (cv_speed p) (cv_speed q)) eqn:E.
      + apply Qcleb_le in E. cbn [map]. constructor; [constructor; auto|]. constructor; auto.
        eapply Forall_impl; [|exact H2]. intros r R. cbn in R. qc_lra.
      + apply Qcleb_gt in E. cbn [map]. constructor; [now apply IH|]. apply Forall_forall. intros r Hr.
        apply in_map_iff in Hr as (s & <- & Hs). apply (Permutation_in _ (Permutation_sym (insert_sorted_perm _ _ _ _))) in Hs as [<-|Hs].
        * now apply Qclt_le_weak.
        * rewrite Forall_forall in H2. apply H2. now apply in_map. }
  induction cs as [|p l IH]; cbn [sort]; [constructor|]. now apply Hins.
Qed.

Lemma speed_between_ok : forall pairs head s lo hi, StronglySorted Qcle (map fst pairs) ->
  (forall p, In p pairs -> lo <= fst p /\ fst p <= hi) -> speed_between pairs head = Some s -> lo <= s /\ s <= hi.
Proof.
  induction pairs as [|[s0 h0] pairs IH]; intros head s lo hi S B E; [discriminate E|]. cbn [speed_between] in E.
  destruct pairs as [|[s1 h1] pairs]; [discriminate E|].
  cbn [map] in S. apply StronglySorted_inv in S as [S1 S2].
  destruct (Qcleb h0 head && Qcleb head h1) eqn:C.
  - apply andb_true_iff in C as [C1 C2]. apply Qcleb_le in C1. apply Qcleb_le in C2.
    destruct (B (s0, h0)) as [B1 B2]; [now left|]. destruct (B (s1, h1)) as [B3 B4]; [right; now left|]. cbn [fst] in *.
    assert (0 <= (if Qceqb h1 h0 then 0 else (head - h0) / (h1 - h0)) /\ (if Qceqb h1 h0 then 0 else (head - h0) / (h1 - h0)) <= 1) as [T1 T2].
    { destruct (Qceqb h1 h0) eqn:Z; [split; [apply Qcle_refl|discriminate]|]. apply Qceqb_neq in Z.
      assert (0 < h1 - h0) as P.
      { assert (h0 <= h1) as Q by qc_lra. apply Qcle_lt_or_eq in Q as [Q|Q]; [qc_lra|congruence]. }
      split; [apply div_nn; [qc_lra|exact P]|].
      assert ((head - h0) / (h1 - h0) * (h1 - h0) = head - h0) as Q by (field; now apply lt_neq).
      destruct (Qclt_le_dec 1 ((head - h0) / (h1 - h0))) as [D|D]; auto. exfalso.
      revert Q D. generalize ((head - h0) / (h1 - h0)). intros t Q D. assert (h1 - h0 < t * (h1 - h0)) by (clear - P D; qc_nra). qc_lra. }
    injection E as <-. revert T1 T2. generalize (if Qceqb h1 h0 then 0 else (head - h0) / (h1 - h0)). intros t T1 T2.
    now apply convex_bounds.
  - apply (IH head s lo hi); auto. intros p Hp. apply B. now right.
Qed.

Lemma combine_last : forall (A B : Type) (l : list A) (m : list B) a b, List.length l = List.length m -> last_opt l = Some a -> last_opt m = Some b ->
  last_opt (combine l m) = Some (a, b).
Proof.
  intros A B [|x l] [|y m] a b L E1 E2; try discriminate. cbn [combine last_opt] in *. injection L as L. injection E1 as <-. injection E2 as <-. f_equal.
  revert x y m L. induction l as [|x' l IH]; intros x y [|y' m] L; try discriminate L; [reflexivity|].
  cbn [combine]. rewrite !last_shift. apply IH. now injection L as L.
Qed.

(** the operating speed lies between the slowest and the fastest curve *)
Lemma speed_at_ok : forall cs rate head, cs <> [] -> Forall proper_curve cs ->
  exists s, speed_at cs rate head = Ok s /\ (exists c, In c cs /\ cv_speed c <= s) /\ (exists c, In c cs /\ s <= cv_speed c).
Proof.
  intros cs rate head N F. unfold speed_at. set (sorted := sort _ cs).
  pose proof (sorted_curves_in cs) as HI. fold sorted in HI. pose proof (sort_speeds cs) as HS. fold sorted in HS.
  assert (sorted <> []) as Ns. { intros E. rewrite E in HI. destruct cs as [|c cs]; [congruence|]. destruct (proj2 (HI c) (or_introl eq_refl)). }
  rewrite Forall_forall in F. destruct sorted as [|c1 [|c2 rest]] eqn:Es; [congruence| |].
  - exists (cv_speed c1). split; [reflexivity|]. assert (In c1 cs) as H by (apply HI; now left). split; exists c1; (split; [exact H|apply Qcle_refl]).
  - rewrite <- Es in *. clear Es c1 c2 rest.
    destruct (mapM_total _ _ (fun c => curve_head_at c rate) sorted) as [heads Eh].
    { intros c Hc. apply curve_head_total. apply F. now apply HI. }
    rewrite Eh. cbn [bind]. apply mapM_Ok in Eh. assert (List.length sorted = List.length heads) as L by (clear - Eh; induction Eh; cbn; congruence).
    destruct (nonempty_ends _ _ Ns) as (cf & cl & E1 & E2).
    assert (heads <> []) as Nh by (intros ->; destruct sorted; [congruence|discriminate L]).
    destruct (nonempty_ends _ _ Nh) as (hf & hl & E3 & E4).
    assert (hd_error (combine (map cv_speed sorted) heads) = Some (cv_speed cf, hf)) as ->.
    { destruct sorted; [congruence|]. destruct heads; [congruence|]. cbn in *. congruence. }
    assert (last_opt (map cv_speed sorted) = Some (cv_speed cl)) as El.
    { destruct sorted as [|c0 l0]; [congruence|]. cbn [map last_opt] in *. injection E2 as <-. clear. f_equal. revert c0. induction l0 as [|y l IH]; intros c0; [reflexivity|].
      cbn [map]. rewrite !last_shift. apply IH. }
    rewrite (combine_last _ _ _ _ (cv_speed cl) hl) by (auto; rewrite map_length; exact L). cbn [of_option bind fst snd].
    apply hd_error_in in E1 as I1. apply last_opt_in in E2 as I2. apply HI in I1. apply HI in I2.
    destruct (Qcleb head hf).
    + exists (cv_speed cf). split; [reflexivity|]. split; exists cf; (split; [exact I1|apply Qcle_refl]).
    + destruct (Qcleb hl head).
      * exists (cv_speed cl). split; [reflexivity|]. split; exists cl; (split; [exact I2|apply Qcle_refl]).
      * destruct (speed_between _ head) as [s|] eqn:Eb.
        -- exists s. split; [reflexivity|].
           assert (forall p, In p (combine (map cv_speed sorted) heads) -> cv_speed cf <= fst p /\ fst p <= cv_speed cl) as B.
           { intros [sp hp] Hp. apply in_combine_l in Hp. cbn [fst]. clear - HS E1 El Hp.
             destruct sorted as [|c0 l0]; [destruct Hp|]. injection E1 as ->. cbn [map] in *. split.
             - apply StronglySorted_inv in HS as [_ HS]. rewrite Forall_forall in HS. destruct Hp as [<-|Hp]; [apply Qcle_refl|auto].
             - cbn [last_opt] in El. injection El as <-. now apply sorted_last. }
           destruct (speed_between_ok (combine (map cv_speed sorted) heads) head s (cv_speed cf) (cv_speed cl)) as [B1 B2]; auto.
           { replace (map fst (combine (map cv_speed sorted) heads)) with (map cv_speed sorted); [exact HS|].
             assert (List.length (map cv_speed sorted) = List.length heads) as L' by (rewrite map_length; exact L).
             clear - L'. revert heads L'. generalize (map cv_speed sorted). induction l as [|x l IH]; intros [|y m] L'; try discriminate; [reflexivity|].
             cbn. f_equal. apply IH. now injection L'. }
           split; [exists cf|exists cl]; auto.
        -- exists (cv_speed cl). split; [reflexivity|]. split; exists cl; (split; [exact I2|apply Qcle_refl]).
Qed.
End Eval.

From Coq Require Import PeanoNat.
From Verif Require Import QcTac Base BaseLemmas Time_Model Time_Spec Time_Proofs Time_Proofs2 Time_Proofs3 Input_Model Input_Spec.
Local Open Scope Z_scope.

(** ** interpolation *)
Definition shift (c : Z) (pts : list (Z * Qc)) : list (Z * Qc) := map (fun p => (fst p - c, snd p)) pts.

Lemma ltb_shift : forall a b c, (a - c <? b - c) = (a <? b).
Proof. intros. destruct (a <? b) eqn:E; [apply Z.ltb_lt in E; apply Z.ltb_lt|apply Z.ltb_ge in E; apply Z.ltb_ge]; lia. Qed.
Lemma leb_shift : forall a b c, (a - c <=? b - c) = (a <=? b).
Proof. intros. destruct (a <=? b) eqn:E; [apply Z.leb_le in E; apply Z.leb_le|apply Z.leb_gt in E; apply Z.leb_gt]; lia. Qed.
Lemma eqb_shift : forall a b c, (a - c =? b - c) = (a =? b).
Proof. intros. destruct (a =? b) eqn:E; [apply Z.eqb_eq in E; apply Z.eqb_eq|apply Z.eqb_neq in E; apply Z.eqb_neq]; lia. Qed.

Lemma interp_shift : forall kind c pts t, interp1d kind (shift c pts) (t - c) = interp1d kind pts t.
Proof.
  intros kind c pts t. destruct kind; cbn [interp1d].
  - unfold interp_next. destruct pts as [|[x0 y0] pts]; [reflexivity|].
    cbn [shift map fst snd]. rewrite ltb_shift. destruct (t <? x0); [reflexivity|].
    change ((x0 - c, y0) :: map (fun p => (fst p - c, snd p)) pts) with (shift c ((x0, y0) :: pts)).
    induction ((x0, y0) :: pts) as [|[x y] l IH]; [reflexivity|]. cbn [shift map fst snd interp_next_from].
    rewrite leb_shift. destruct (t <=? x); auto.
  - induction pts as [|[x0 y0] pts IH]; [reflexivity|]. cbn [shift map fst snd interp_previous]. rewrite ltb_shift.
    destruct (t <? x0); [reflexivity|]. destruct pts as [|[x1 y1] pts].
    + cbn. now rewrite eqb_shift.
    + change (map (fun p => (fst p - c, snd p)) ((x1, y1) :: pts)) with (shift c ((x1, y1) :: pts)).
      destruct (shift c ((x1, y1) :: pts)) as [|[x2 y2] l2] eqn:Es; [discriminate|].
      injection Es as E1 E2 E3. subst x2 y2. rewrite ltb_shift. destruct (t <? x1); auto.
  - induction pts as [|[x0 y0] pts IH]; [reflexivity|].
    destruct pts as [|[x1 y1] pts]; [reflexivity|].
    change (shift c ((x0, y0) :: (x1, y1) :: pts)) with ((x0 - c, y0) :: (x1 - c, y1) :: shift c pts).
    change (shift c ((x1, y1) :: pts)) with ((x1 - c, y1) :: shift c pts) in IH.
    cbn [interp_linear]. rewrite ltb_shift, leb_shift. destruct (t <? x0); auto. destruct (t <=? x1); auto.
    replace (x1 - c - (x0 - c)) with (x1 - x0) by lia. replace (t - c - (x0 - c)) with (t - x0) by lia. reflexivity.
Qed.

(** on the points or between two consecutive ones *)
Definition local_rule (kind : interpolation_type) (pts : list (Z * Qc)) (t : Z) (v : Qc) : Prop :=
  In (t, v) pts \/
  exists l a x b y r, pts = l ++ (a, x) :: (b, y) :: r /\ a < t < b /\ v = interpolated kind a x b y t.

Lemma local_rule_cons : forall kind p pts t v, local_rule kind pts t v -> local_rule kind (p :: pts) t v.
Proof.
  intros kind p pts t v [H|(l & a & x & b & y & r & -> & H)]; [left; now right|].
  right. exists (p :: l), a, x, b, y, r. auto.
Qed.

Lemma qz_pos_neq : forall z, 0 < z -> qz z <> 0%Qc.
Proof. intros z Hz E. apply (qz_inj z 0) in E. lia. Qed.

Lemma interp_local : forall kind pts t p0, increasing (map fst pts) -> nth_error pts 0 = Some p0 ->
  (kind = LINEAR -> (2 <= length pts)%nat) ->
  fst p0 <= t -> (exists p, In p pts /\ t <= fst p) ->
  exists v, interp1d kind pts t = Ok v /\ local_rule kind pts t v.
Proof.
  intros kind pts. induction pts as [|[x0 y0] pts IH]; intros t p0 Hi Hp0 Hk Hle Hge; [discriminate|].
  injection Hp0 as <-. cbn [fst] in Hle. cbn [map fst] in Hi.
  pose proof (increasing_cons _ _ Hi) as [Hi' Hlt].
  assert ((t <? x0) = false) as E0 by now apply Z.ltb_ge.
  destruct pts as [|[x1 y1] pts].
  - assert (t = x0) as ->. { destruct Hge as (p & [<-|[]] & Hp). cbn in Hp. lia. }
    exists y0. destruct kind; cbn [interp1d interp_next interp_next_from interp_previous].
    + rewrite E0, Z.leb_refl. split; [reflexivity|left; now left].
    + rewrite E0, Z.eqb_refl. split; [reflexivity|left; now left].
    + specialize (Hk eq_refl). cbn in Hk. lia.
  - assert (x0 < x1) as H01 by (apply Hlt; now left).
    destruct (Z.lt_ge_cases t x1) as [G|G].
    + (* in the first segment *)
      destruct (Z.eq_dec t x0) as [->|N].
      * exists y0. split; [|left; now left]. destruct kind; cbn [interp1d interp_next interp_next_from interp_previous interp_linear].
        -- now rewrite E0, Z.leb_refl.
        -- rewrite E0. now apply Z.ltb_lt in H01 as ->.
        -- rewrite E0. replace (x0 <=? x1) with true by (symmetry; apply Z.leb_le; lia). f_equal.
           rewrite Z.sub_diag. change (qz 0) with 0%Qc. ring.
      * exists (interpolated kind x0 y0 x1 y1 t). split.
        -- destruct kind; cbn [interp1d interp_next interp_next_from interp_previous interp_linear interpolated].
           ++ rewrite E0. replace (t <=? x0) with false by (symmetry; apply Z.leb_gt; lia).
              now replace (t <=? x1) with true by (symmetry; apply Z.leb_le; lia).
           ++ rewrite E0. now replace (t <? x1) with true by (symmetry; apply Z.ltb_lt; lia).
           ++ rewrite E0. replace (t <=? x1) with true by (symmetry; apply Z.leb_le; lia). f_equal.
              field. apply qz_pos_neq. lia.
        -- right. exists [], x0, y0, x1, y1, pts. repeat split; auto; lia.
    + (* later *)
      destruct (Z.eq_dec t x1) as [->|N].
      { exists y1. split; [|left; right; now left].
        destruct kind; cbn [interp1d interp_next interp_next_from interp_previous interp_linear].
        - rewrite E0. replace (x1 <=? x0) with false by (symmetry; apply Z.leb_gt; lia). now rewrite Z.leb_refl.
        - rewrite E0, Z.ltb_irrefl. rewrite Z.eqb_refl. destruct pts as [|[x2 y2] pts]; auto.
          assert (x1 < x2) by (apply increasing_cons in Hi' as [_ Hl]; apply Hl; now left).
          now replace (x1 <? x2) with true by (symmetry; apply Z.ltb_lt; lia).
        - rewrite E0, Z.leb_refl. f_equal. field. apply qz_pos_neq. lia. }
      assert (exists p, In p ((x1, y1) :: pts) /\ t <= fst p) as Hge'.
      { destruct Hge as (p & [<-|Hp] & Hpt); [cbn in Hpt; lia|]. now exists p. }
      assert (kind = LINEAR -> (2 <= length ((x1, y1) :: pts))%nat) as Hk'.
      { intros _. destruct pts; [|cbn; lia]. destruct Hge' as (p & [<-|[]] & Hpt). cbn in Hpt. lia. }
      destruct (IH t (x1, y1) Hi' eq_refl Hk' G Hge') as (v & Ev & Hv).
      exists v. split; [|now apply local_rule_cons].
      destruct kind; cbn [interp1d interp_next interp_next_from interp_previous interp_linear] in *.
      * rewrite E0. replace (t <=? x0) with false by (symmetry; apply Z.leb_gt; lia).
        now replace (t <? x1) with false in Ev by (symmetry; apply Z.ltb_ge; lia).
      * rewrite E0. replace (t <? x1) with false in * by (symmetry; apply Z.ltb_ge; lia). exact Ev.
      * rewrite E0. now replace (t <=? x1) with false by (symmetry; apply Z.leb_gt; lia).
Qed.

Lemma increasing_app_lt : forall l1 l2 x y, increasing (l1 ++ l2) -> In x l1 -> In y l2 -> x < y.
Proof.
  induction l1 as [|a l1 IH]; intros l2 x y H Hx Hy; [destruct Hx|]. apply increasing_cons in H as [H Hl].
  destruct Hx as [<-|Hx]; [apply Hl; apply in_or_app; now right|eauto].
Qed.

Lemma local_value_rule : forall kind ex pts t v, increasing (map fst pts) -> local_rule kind pts t v -> value_rule kind ex pts t v.
Proof.
  intros kind ex pts t v Hi [H|(l & a & x & b & y & r & -> & H & ->)]; [right; now left|].
  right. right. left. exists a, x, b, y. split; [|auto].
  rewrite map_app in Hi. cbn [map fst] in Hi.
  split; [apply in_or_app; right; now left|]. split; [apply in_or_app; right; right; now left|].
  split; [lia|]. intros d z Hd G. apply in_app_or in Hd as [Hd|[Hd|[Hd|Hd]]].
  - assert (d < a); [|lia]. eapply (increasing_app_lt (map fst l)); eauto; [apply in_map_iff; exists (d, z); auto|now left].
  - injection Hd as -> ->. lia.
  - injection Hd as -> ->. lia.
  - change (a :: b :: map fst r) with ([a; b] ++ map fst r) in Hi. rewrite app_assoc in Hi.
    assert (b < d); [|lia]. eapply (increasing_app_lt (map fst l ++ [a; b])); eauto.
    + apply in_or_app. right. right. now left.
    + apply in_map_iff. exists (d, z). auto.
Qed.

Lemma combine_fst' : forall A B (l : list A) (m : list B), length m = length l -> map fst (combine l m) = l.
Proof. intros A B l; induction l as [|x l IH]; intros [|y m] H; try discriminate; auto. cbn. f_equal. apply IH. now injection H. Qed.
Lemma combine_snd' : forall A B (l : list A) (m : list B), length m = length l -> map snd (combine l m) = m.
Proof. intros A B l; induction l as [|x l IH]; intros [|y m] H; try discriminate; auto. cbn. f_equal. apply IH. now injection H. Qed.
Lemma combine_shift : forall c (l : list Z) (m : list Qc), combine (map (fun t => t - c) l) m = shift c (combine l m).
Proof. intros c l; induction l as [|x l IH]; intros [|y m]; auto. cbn. f_equal. apply IH. Qed.
Lemma combine_length_eq : forall A B (l : list A) (m : list B), length m = length l -> length (combine l m) = length l.
Proof. intros. rewrite combine_length, H. apply Nat.min_id. Qed.
Lemma mapM_map : forall A B (f : A -> result B) g l, (forall x, In x l -> f x = Ok (g x)) -> mapM f l = Ok (map g l).
Proof.
  intros A B f g l H; induction l as [|x l IH]; [reflexivity|]. cbn [mapM]. rewrite H by now left. cbn [bind].
  rewrite IH; [reflexivity|]. intros; apply H; now right.
Qed.

Lemma mapM_exists : forall A B (f : A -> result B) (P : A -> B -> Prop) l,
  (forall x, In x l -> exists y, f x = Ok y /\ P x y) ->
  exists ys, mapM f l = Ok ys /\ Forall2 P l ys.
Proof.
  intros A B f P l; induction l as [|x l IH]; intros H; [exists []; split; [reflexivity|constructor]|].
  destruct (H x (or_introl eq_refl)) as (y & Ey & Py). destruct IH as (ys & Eys & Pys); [intros; apply H; now right|].
  exists (y :: ys). cbn [mapM]. rewrite Ey. cbn [bind]. rewrite Eys. split; [reflexivity|now constructor].
Qed.

Lemma last_ge : forall ts t x, increasing (t :: ts) -> In x (t :: ts) -> x <= last ts t.
Proof.
  induction ts as [|u ts IH]; intros t x Hi Hx; [destruct Hx as [<-|[]]; cbn; lia|].
  apply increasing_cons in Hi as [Hi Hl]. rewrite last_shift.
  destruct Hx as [<-|Hx]; [|now apply IH]. assert (t < u) by (apply Hl; now left).
  pose proof (IH u u Hi (or_introl eq_refl)). lia.
Qed.

Definition ts_data (s : time_series) : list (datetime * Qc) := combine (ts_dates s) (ts_values s).

Lemma interpolate_ok : forall s d0 ds between, ts_dates s = d0 :: ds -> increasing (ts_dates s) ->
  length (ts_values s) = length (ts_dates s) ->
  (forall t, In t between -> d0 <= t <= last ds d0) ->
  exists vs, interpolate s between = Ok vs /\
    Forall2 (value_rule (ts_interpolation s) (ts_extrapolate s) (ts_data s)) between vs.
Proof.
  intros s d0 ds between Ed Hi L Hb. unfold interpolate. rewrite Ed in *. cbv zeta.
  destruct (Nat.eq_dec (length ds) 0) as [Z|NZ].
  - destruct ds; [|discriminate]. destruct (ts_values s) as [|v [|? ?]] eqn:Ev; try discriminate. cbn [app length Nat.eqb negb].
    apply mapM_exists. intros t Ht. apply Hb in Ht. cbn in Ht. assert (t = d0) as -> by lia.
    exists v. split.
    + rewrite Z.sub_diag. destruct (ts_interpolation s); cbn [combine interp1d interp_next interp_next_from interp_previous interp_linear];
      cbn [Z.ltb Z.leb Z.compare]; auto. f_equal. change (qz (1 - 0)) with 1%Qc. change (qz (0 - 0)) with 0%Qc. field. discriminate.
    + right. left. unfold ts_data. rewrite Ed, Ev. now left.
  - assert (match ds with [] => [0; 1] | _ => map (fun t => t - d0) (d0 :: ds) end = map (fun t => t - d0) (d0 :: ds)) as ->
      by (destruct ds; [now elim NZ|reflexivity]).
    assert (match ds with [] => ts_values s ++ ts_values s | _ => ts_values s end = ts_values s) as ->
      by (destruct ds; [now elim NZ|reflexivity]).
    rewrite map_length, L, Nat.eqb_refl. cbn [negb].
    apply mapM_exists. intros t Ht. apply Hb in Ht. rewrite combine_shift, interp_shift.
    assert (map fst (combine (d0 :: ds) (ts_values s)) = d0 :: ds) as Ef by now apply combine_fst'.
    destruct (ts_values s) as [|v0 vs] eqn:Ev; [discriminate|].
    destruct (interp_local (ts_interpolation s) (combine (d0 :: ds) (v0 :: vs)) t (d0, v0)) as (v & E & Hv).
    + now rewrite Ef.
    + reflexivity.
    + intros _. rewrite combine_length_eq by auto. cbn. lia.
    + cbn; lia.
    + destruct (in_dec Z.eq_dec (last ds d0) (d0 :: ds)) as [Hl|Hl].
      * rewrite <- Ef in Hl. apply in_map_iff in Hl as (p & Ep & Hp). exists p. split; auto. rewrite Ep. lia.
      * elim Hl. apply last_In'.
    + exists v. split; auto. unfold ts_data. rewrite Ed, Ev. apply local_value_rule; auto. now rewrite Ef.
Qed.

Lemma nondecreasing_cons : forall t ts, nondecreasing (t :: ts) -> nondecreasing ts /\ forall x, In x ts -> t <= x.
Proof.
  intros t ts; revert t; induction ts as [|u ts IH]; intros t [H1 H2]; split; auto; [intros x []|].
  destruct (IH u H2) as [_ H3]. intros x [<-|Hx]; auto. apply H3 in Hx. lia.
Qed.

(** the values in order of a sorted time vector *)
Lemma split_values : forall tv start stop (P : datetime -> Qc -> Prop) z a vs, nondecreasing tv -> start <= stop ->
  (forall t, t < start -> P t z) -> (forall t, stop < t -> P t a) ->
  Forall2 P (filter (fun d => (start <=? d) && (d <=? stop)) tv) vs ->
  Forall2 P tv (repeat z (length (filter (fun d => d <? start) tv)) ++ vs ++ repeat a (length (filter (fun d => stop <? d) tv))).
Proof.
  intros tv start stop P z a vs Hs Hss Hz Ha. revert vs.
  assert (forall l, (forall t, In t l -> stop < t) ->
     filter (fun d => d <? start) l = [] /\ filter (fun d => (start <=? d) && (d <=? stop)) l = [] /\ filter (fun d => stop <? d) l = l) as Hafter.
  { induction l as [|t l IH]; intros H; [auto|]. destruct IH as (I1 & I2 & I3); [intros; apply H; now right|].
    assert (stop < t) by (apply H; now left). cbn [filter].
    replace (t <? start) with false by (symmetry; apply Z.ltb_ge; lia).
    replace (t <=? stop) with false by (symmetry; apply Z.leb_gt; lia). rewrite andb_false_r.
    replace (stop <? t) with true by (symmetry; apply Z.ltb_lt; lia). rewrite I1, I2, I3. auto. }
  assert (forall l, (forall t, In t l -> start <= t) -> filter (fun d => d <? start) l = []) as Hnb.
  { induction l as [|t l IH]; intros H; auto. cbn [filter]. replace (t <? start) with false.
    - apply IH. intros; apply H; now right.
    - symmetry. apply Z.ltb_ge. apply H. now left. }
  induction tv as [|t tv IH]; intros vs Hv; [inversion Hv; constructor|].
  apply nondecreasing_cons in Hs as [Hs Hl].
  destruct (Z.lt_ge_cases t start) as [G|G].
  - cbn [filter] in *. replace (t <? start) with true by (symmetry; now apply Z.ltb_lt).
    replace (start <=? t) with false in Hv by (symmetry; now apply Z.leb_gt). cbn [andb] in Hv.
    replace (stop <? t) with false by (symmetry; apply Z.ltb_ge; lia).
    cbn [length repeat app]. constructor; auto.
  - destruct (Z.le_gt_cases t stop) as [G2|G2].
    + rewrite Hnb by (intros x [<-|Hx]; [lia|apply Hl in Hx; lia]).
      cbn [filter] in *. replace (start <=? t) with true in Hv by (symmetry; apply Z.leb_le; lia).
      replace (t <=? stop) with true in Hv by (symmetry; apply Z.leb_le; lia). cbn [andb] in Hv.
      replace (stop <? t) with false by (symmetry; apply Z.ltb_ge; lia).
      inversion Hv as [|? v ? vs' Hv1 Hv2]; subst. cbn [length repeat app]. constructor; auto.
      specialize (IH Hs vs' Hv2). rewrite Hnb in IH by (intros x Hx; apply Hl in Hx; lia). exact IH.
    + destruct (Hafter (t :: tv)) as (I1 & I2 & I3); [intros x [<-|Hx]; [lia|apply Hl in Hx; lia]|].
      rewrite I2 in Hv. inversion Hv; subst. rewrite I1, I3. cbn [length repeat app].
      constructor; auto. assert (forall x, In x tv -> stop < x) as Hx by (intros x Hx; apply Hl in Hx; lia).
      clear - Hx Ha. induction tv; cbn; constructor; auto; [|apply IHtv; intros; apply Hx; now right].
      apply Ha. apply Hx. now left.
Qed.

Lemma Forall2_nth : forall A B (P : A -> B -> Prop) l m, Forall2 P l m ->
  length m = length l /\ forall k a, nth_error l k = Some a -> exists b, nth_error m k = Some b /\ P a b.
Proof.
  intros A B P l m H; induction H as [|a b l m H1 H2 [IH1 IH2]]; [split; [reflexivity|intros [|k] a; discriminate]|].
  split; [cbn; now rewrite IH1|]. intros [|k] a' Ha; [injection Ha as <-; now exists b|now apply IH2].
Qed.

Theorem fit_proof : forall s tv, ts_dates s <> [] -> increasing (ts_dates s) ->
  length (ts_values s) = length (ts_dates s) -> nondecreasing tv ->
  exists f, fit_to_time_vector s tv = Ok f /\ ts_dates f = tv /\ ts_reference f = ts_reference s /\
    length (ts_values f) = length tv /\
    forall k t, nth_error tv k = Some t ->
      exists v, nth_error (ts_values f) k = Some v /\
        value_rule (ts_interpolation s) (ts_extrapolate s) (combine (ts_dates s) (ts_values s)) t v.
Proof.
  intros s tv Hne Hi L Htv. destruct (ts_dates s) as [|d0 ds] eqn:Ed; [congruence|].
  destruct (interpolate_ok s d0 ds (filter (fun d => (d0 <=? d) && (d <=? last ds d0)) tv)) as (vs & Ei & Hvs); auto.
  { now rewrite Ed. } { now rewrite Ed. }
  { intros t Ht. apply filter_In in Ht as [_ Ht]. apply andb_true_iff in Ht as [H1 H2].
    apply Z.leb_le in H1, H2. lia. }
  assert (d0 <= last ds d0) as Hdl by (apply last_ge; [auto|now left]).
  assert (exists a, (if ts_extrapolate s then of_option IndexError (last_opt (ts_values s)) else Ok 0%Qc) = Ok a /\
          forall t, last ds d0 < t -> value_rule (ts_interpolation s) (ts_extrapolate s) (ts_data s) t a) as (a & Ea & Ha).
  { unfold value_rule. destruct (ts_extrapolate s).
    - destruct (ts_values s) as [|v0 vs0] eqn:Ev; [discriminate|]. exists (last vs0 v0). split; [reflexivity|].
      intros t Ht. right. right. right.
      assert (forall d z, In (d, z) (ts_data s) -> d <= last ds d0) as Hm.
      { intros d z Hd. unfold ts_data in Hd. rewrite Ed in Hd. apply in_combine_l in Hd. now apply last_ge. }
      split; [intros d z Hd; apply Hm in Hd; lia|]. exists (last ds d0). split; auto.
      unfold ts_data. rewrite Ed, Ev. clear - L. revert d0 v0 vs0 L. induction ds as [|d ds IH]; intros d0 v0 [|v vs] L; try discriminate; [now left|].
      rewrite !last_shift. right. apply IH. cbn in *. lia.
    - exists 0%Qc. split; [reflexivity|]. intros t Ht. right. right. right. split; auto.
      intros d z Hd. unfold ts_data in Hd. rewrite Ed in Hd. apply in_combine_l in Hd.
      pose proof (last_ge _ _ _ Hi Hd). lia. }
  unfold fit_to_time_vector. rewrite Ed. cbn [last_opt]. unfold split_time_vector. rewrite Ea. cbn [bind]. rewrite Ei. cbn [bind].
  eexists. split; [reflexivity|]. cbn [ts_dates ts_reference ts_values]. split; [reflexivity|]. split; [reflexivity|].
  apply Forall2_nth. rewrite <- Ed. apply split_values; auto.
  intros t Ht. left. split; auto. intros d z Hd. unfold ts_data in Hd. rewrite Ed in Hd. apply in_combine_l in Hd.
  destruct Hd as [<-|Hd]; auto. apply increasing_cons in Hi as [_ Hl]. apply Hl in Hd. lia.
Qed.

(** ** the rule determines the value *)
Lemma NoDup_combine_fun : forall (data : list (datetime * Qc)) d x y, NoDup (map fst data) -> In (d, x) data -> In (d, y) data -> x = y.
Proof.
  induction data as [|[e z] data IH]; intros d x y H Hx Hy; [destruct Hx|].
  inversion H as [|? ? N H']; subst. destruct Hx as [Hx|Hx], Hy as [Hy|Hy]; try congruence; eauto.
  - injection Hx as -> ->. elim N. apply in_map_iff. now exists (d, y).
  - injection Hy as -> ->. elim N. apply in_map_iff. now exists (d, x).
Qed.

Theorem value_rule_determines_proof : forall kind ex data t v w, data <> [] -> NoDup (map fst data) ->
  value_rule kind ex data t v -> value_rule kind ex data t w -> v = w.
Proof.
  intros kind ex data t v w Hne Hnd Hv Hw.
  destruct data as [|[e0 z0] data0] eqn:Ed; [congruence|]. rewrite <- Ed in *.
  assert (In (e0, z0) data) as H0 by (rewrite Ed; now left).
  destruct Hv as [[A ->]|[A|[(a & x & b & y & (Na & Nb & Nab & Nn) & At & ->)|[A A']]]];
  destruct Hw as [[B ->]|[B|[(a2 & x2 & b2 & y2 & (Ma & Mb & Mab & Mn) & Bt & ->)|[B B']]]]; auto.
  - apply A in B. lia.
  - apply A in Ma. lia.
  - apply A in H0 as H1. apply B in H0. lia.
  - apply B in A. lia.
  - eapply NoDup_combine_fun; eauto.
  - elim (Mn _ _ A). lia.
  - apply B in A. lia.
  - apply B in Na. lia.
  - elim (Nn _ _ B). lia.
  - assert (a = a2) as ->.
    { destruct (Z.lt_trichotomy a a2) as [G|[G|G]]; auto; exfalso; [apply (Nn _ _ Ma)|apply (Mn _ _ Na)]; lia. }
    assert (b = b2) as ->.
    { destruct (Z.lt_trichotomy b b2) as [G|[G|G]]; auto; exfalso; [apply (Mn _ _ Nb)|apply (Nn _ _ Mb)]; lia. }
    rewrite (NoDup_combine_fun _ _ _ _ Hnd Na Ma), (NoDup_combine_fun _ _ _ _ Hnd Nb Mb). reflexivity.
  - apply B in Nb. lia.
  - apply B in H0 as H1. apply A in H0. lia.
  - apply A in B. lia.
  - apply A in Mb. lia.
  - destruct ex; [|congruence]. destruct A' as (a & Ia & Ma). destruct B' as (b & Ib & Mb).
    assert (a = b) as -> by (apply Mb in Ia as ?; apply Ma in Ib as ?; lia).
    eapply NoDup_combine_fun; eauto.
Qed.

(** ** sorting the rows *)
Lemma sorted_increasing : forall (l : list (Z * Qc)), NoDup (map fst l) ->
  increasing (map fst (sort (fun a b => fst a <=? fst b) l)).
Proof.
  intros l Hnd.
  assert (NoDup (map fst (sort (fun a b => fst a <=? fst b) l))) as Hn.
  { eapply Permutation_NoDup; [|exact Hnd]. apply Permutation_map. apply sort_perm. }
  assert (Sorted (fun a b => (fst a <=? fst b) = true) (sort (fun a b : Z * Qc => fst a <=? fst b) l)) as Hs.
  { apply sort_Sorted. intros x y H. apply Z.leb_gt in H. apply Z.leb_le. lia. }
  revert Hn Hs. generalize (sort (fun a b : Z * Qc => fst a <=? fst b) l) as m. induction m as [|x m IH]; intros Hn Hs; cbn; auto.
  inversion Hn as [|? ? N Hn']; subst. inversion Hs as [|? ? Hs' Hh]; subst. split; auto.
  destruct m as [|y m]; [exact I|]. apply HdRel_inv in Hh. apply Z.leb_le in Hh. cbn in *.
  assert (fst x <> fst y) by (intros E; apply N; left; auto). lia.
Qed.

Lemma ts_sort_ok : forall s, ts_dates s <> [] -> length (ts_values s) = length (ts_dates s) -> NoDup (ts_dates s) ->
  exists s', ts_sort s = Ok s' /\ ts_dates s' <> [] /\ increasing (ts_dates s') /\ length (ts_values s') = length (ts_dates s') /\
    ts_reference s' = ts_reference s /\ ts_extrapolate s' = ts_extrapolate s /\ ts_interpolation s' = ts_interpolation s /\
    Permutation (combine (ts_dates s) (ts_values s)) (combine (ts_dates s') (ts_values s')).
Proof.
  intros s Hne L Hnd. unfold ts_sort.
  set (rows := combine (ts_dates s) (ts_values s)).
  pose proof (sort_perm _ (fun a b : Z * Qc => fst a <=? fst b) rows) as Hp.
  assert (map fst rows = ts_dates s) as Ef by now apply combine_fst'.
  pose proof (sorted_increasing rows) as Hi. rewrite Ef in Hi. specialize (Hi Hnd).
  destruct (sort (fun a b : Z * Qc => fst a <=? fst b) rows) as [|r0 rs] eqn:E.
  - apply Permutation_sym, Permutation_nil in Hp. exfalso. apply Hne. rewrite <- Ef, Hp. reflexivity.
  - eexists. split; [reflexivity|]. cbn [ts_dates ts_values ts_reference ts_extrapolate ts_interpolation].
    split; [discriminate|]. split; [exact Hi|]. split; [now rewrite !map_length|]. do 3 (split; [reflexivity|]).
    replace (combine (map fst (r0 :: rs)) (map snd (r0 :: rs))) with (r0 :: rs); auto.
    clear. induction (r0 :: rs) as [|[a b] l IH]; cbn; auto. now f_equal.
Qed.

Lemma value_rule_perm : forall kind ex d1 d2 t v, Permutation d1 d2 -> value_rule kind ex d1 t v -> value_rule kind ex d2 t v.
Proof.
  intros kind ex d1 d2 t v Hp H.
  assert (forall p, In p d1 <-> In p d2) as HI by (intros p; split; apply Permutation_in; auto using Permutation_sym).
  unfold value_rule, neighbouring in *.
  destruct H as [[A ->]|[A|[(a & x & b & y & (Na & Nb & Nab & Nn) & At & ->)|[A A']]]].
  - left. split; auto. intros d z Hd. apply (A d z). now apply HI.
  - right. left. now apply HI.
  - right. right. left. exists a, x, b, y. repeat split; try lia; try (now apply HI).
    intros d z Hd. apply (Nn d z). now apply HI.
  - right. right. right. split; [intros d z Hd; apply (A d z); now apply HI|].
    destruct ex; auto. destruct A' as (a & Ia & Ma). exists a. split; [now apply HI|]. intros d z Hd. apply (Ma d z). now apply HI.
Qed.

(** the series of a collection, written in any order *)
Theorem collection_series_proof : forall c h column tv,
  get_column (tsr_resource (tc_resource c)) h = Ok column ->
  tsr_dates (tc_resource c) <> [] -> NoDup (tsr_dates (tc_resource c)) ->
  length column = length (tsr_dates (tc_resource c)) -> nondecreasing tv ->
  exists s f, collection_series c h = Ok s /\ ts_reference s = join_semicolon (tc_name c) h /\
    fit_to_time_vector s tv = Ok f /\ length (ts_values f) = length tv /\
    forall k t, nth_error tv k = Some t ->
      exists v, nth_error (ts_values f) k = Some v /\
        value_rule (tc_interpolation c) (tc_extrapolation c) (combine (tsr_dates (tc_resource c)) column) t v.
Proof.
  intros c h column tv Ec Hne Hnd L Htv. unfold collection_series. rewrite Ec. cbn [bind].
  set (raw := mkTS _ _ _ _ _).
  destruct (ts_sort_ok raw) as (s & Es & N & Hi & Ls & Er & Ee & Ei & Hp); auto.
  destruct (fit_proof s tv N Hi Ls Htv) as (f & Ef & _ & _ & Lf & Hf).
  exists s, f. split; [exact Es|]. split; [now rewrite Er|]. split; [exact Ef|]. split; [exact Lf|].
  intros k t Ht. destruct (Hf k t Ht) as (v & Hv & Hr). exists v. split; auto.
  rewrite Ee, Ei in Hr. cbn [raw ts_extrapolate ts_interpolation] in Hr.
  eapply value_rule_perm; [apply Permutation_sym; exact Hp|exact Hr].
Qed.

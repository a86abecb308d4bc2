(** Sums of rates, and the running sums of their volumes. *)
From Coq Require Import PeanoNat String.
From Verif Require Import QcTac Base BaseLemmas Num Time_Model Time_Spec Units_Model Units_Proofs Rates_Model Rates_Spec Rates_Proofs Rates_Proofs2 Rates_Proofs3
  Rates_Proofs4 Rates_Proofs5 Stream_Proofs System_Proofs2 Graph_Model Graph_Spec Totals_Model Totals_Spec.
Local Open Scope list_scope.
Local Open Scope Qc_scope.

Lemma number_at_nil : forall k, number_at [] k = 0. Proof. intros [|k]; reflexivity. Qed.
Lemma number_at_nth : forall l k, number_at l k = match nth_error l k with Some v => nan_zero v | None => 0 end.
Proof. intros l k. unfold number_at. now destruct (nth_error l k) as [[x|]|]. Qed.
Lemma number_at_over : forall l k, (length l <= k)%nat -> number_at l k = 0.
Proof. intros l k H. unfold number_at. apply nth_error_None in H. now rewrite H. Qed.
Lemma number_at_sum : forall a b k, length a = length b -> number_at (sum_rates a b) k = number_at a k + number_at b k.
Proof.
  intros a b k L. rewrite !number_at_nth. unfold sum_rates. rewrite nth_error_map2.
  destruct (nth_error a k) as [x|] eqn:E; destruct (nth_error b k) as [y|] eqn:F.
  - cbn. destruct x, y; cbn; ring.
  - apply nth_error_None in F. assert (k < length a)%nat by (apply nth_error_Some; congruence). lia.
  - apply nth_error_None in E. assert (k < length b)%nat by (apply nth_error_Some; congruence). lia.
  - cbn. ring.
Qed.

(** adding up *)
Lemma adds_up_nil : adds_up [] []. Proof. intros k. now rewrite number_at_nil. Qed.
Lemma adds_up_one : forall l, adds_up [l] l. Proof. intros l k. cbn. ring. Qed.
Lemma adds_up_flat : forall (A : Type) (parts : A -> list (list num)) (total : A -> list num) l t,
  (forall x, In x l -> adds_up (parts x) (total x)) -> (adds_up (flat_map parts l) t <-> adds_up (map total l) t).
Proof.
  intros A parts total l t H. assert (forall k, qsum (map (fun p => number_at p k) (flat_map parts l)) = qsum (map (fun p => number_at p k) (map total l))) as E.
  { intros k. rewrite map_map. induction l as [|x l IH]; [reflexivity|]. cbn. rewrite map_app, qsum_app, IH by (intros; apply H; now right).
    f_equal. symmetry. apply H. now left. }
  split; intros X k; rewrite (X k); auto.
Qed.
Lemma adds_up_same : forall l t u, adds_up l t -> adds_up l u -> forall k, number_at t k = number_at u k.
Proof. intros l t u H H' k. now rewrite (H k), (H' k). Qed.
Lemma adds_up_app : forall l m a b c, adds_up l a -> adds_up m b -> adds_up [a; b] c -> adds_up (l ++ m) c.
Proof. intros l m a b c H H' X k. rewrite (X k), map_app, qsum_app, <- (H k), <- (H' k). cbn. ring. Qed.

(** ** reduce *)
Lemma on_periods_len : forall ps r, on_periods ps r -> length (r_values r) = length ps /\ length (r_regularity r) = length ps /\ length (calendar_rates r) = length ps.
Proof. intros ps r [W <-]. pose proof (calendar_rates_length _ W). destruct W as (_ & _ & A & B). auto. Qed.
Lemma add_on : forall ps a b, on_periods ps a -> on_periods ps b -> r_unit a = r_unit b -> r_type a = r_type b ->
  exists s, rate_add a b = Ok s /\ on_periods ps s /\ r_unit s = r_unit a /\ r_type s = r_type a /\ r_values s = sum_rates (r_values a) (r_values b) /\
    r_regularity s = if list_eqb num_eqb (r_regularity a) (r_regularity b) then r_regularity a
                     else map2 ndiv (sum_rates (calendar_rates a) (calendar_rates b)) (sum_rates (stream_rates a) (stream_rates b)).
Proof.
  intros ps a b [Wa Pa] [Wb Pb] U T. assert (length (r_periods a) = length (r_periods b)) as L by congruence.
  pose proof (rate_add_eq a b Wa Wb L U T) as E. pose proof (rate_add_proof a b Wa Wb (eq_trans Pa (eq_sym Pb)) U T) as (s & E' & Ps & Us & Ts & Ws & _).
  exists s. rewrite E in E'. injection E' as <-. rewrite E. split; [reflexivity|]. split; [split; auto|]. repeat split; auto.
Qed.
Lemma fold_add : forall ps u ty rest a, on_periods ps a -> r_unit a = u -> r_type a = ty ->
  Forall (fun r => on_periods ps r /\ r_unit r = u /\ r_type r = ty) rest ->
  exists s, fold_left (fun acc b => bind acc (fun x => rate_add x b)) rest (Ok a) = Ok s /\ on_periods ps s /\ r_unit s = u /\ r_type s = ty /\
    adds_up (map r_values (a :: rest)) (r_values s).
Proof.
  intros ps u ty. induction rest as [|b rest IH]; intros a Pa Ua Ta F.
  - exists a. cbn [fold_left]. repeat split; auto; try apply Pa. apply adds_up_one.
  - inversion F as [|x y (Pb & Ub & Tb) Fr]; subst x y. cbn [fold_left bind].
    destruct (add_on ps a b Pa Pb) as (s & E & Ps & Us & Ts & Vs & _); [congruence|congruence|]. rewrite E.
    destruct (IH s Ps (eq_trans Us Ua) (eq_trans Ts Ta) Fr) as (t & Et & Pt & Ut & Tt & At). exists t. repeat split; auto; try apply Pt.
    intros k. rewrite (At k). cbn [map qsum fold_right]. rewrite Vs, number_at_sum.
    + cbn. ring.
    + destruct (on_periods_len _ _ Pa) as [-> _]. now destruct (on_periods_len _ _ Pb) as [-> _].
Qed.
Lemma reduce_ok : forall ps u ty l, l <> [] -> Forall (fun r => on_periods ps r /\ r_unit r = u /\ r_type r = ty) l ->
  exists s, reduce_add l = Ok s /\ on_periods ps s /\ r_unit s = u /\ r_type s = ty /\ adds_up (map r_values l) (r_values s).
Proof.
  intros ps u ty [|a l] N F; [congruence|]. inversion F as [|x y (Pa & Ua & Ta) Fr]; subst x y. unfold reduce_add. now apply fold_add.
Qed.

(** ** sums of powers *)
(** the regularity is a number, except where the power is zero *)
Definition nearly_sound (r : rate_series) : Prop := forall k v, nth_error (r_values r) k = Some v ->
  exists x, v = Some x /\ 0 <= x /\ (x = 0 \/ exists g, nth_error (r_regularity r) k = Some (Some g) /\ 0 <= g).
Lemma sound_nearly : forall ps r, on_periods ps r -> sound_power r -> nearly_sound r.
Proof.
  intros ps r P [V R] k v E. destruct (V v) as (x & -> & X); [now apply nth_error_In in E|]. exists x. repeat split; auto. right.
  destruct (on_periods_len _ _ P) as (L1 & L2 & _). assert (k < length (r_regularity r))%nat as K by (rewrite L2, <- L1; apply nth_error_Some; congruence).
  destruct (nth_error_lt _ _ _ K) as (g & G). destruct (R g) as (y & -> & Y); [now apply nth_error_In in G|]. eauto.
Qed.
Lemma calendar_at : forall r k, r_type r = STREAM_DAY -> number_at (calendar_rates r) k =
  match nth_error (r_values r) k, nth_error (r_regularity r) k with Some (Some x), Some (Some g) => x * g | _, _ => 0 end.
Proof.
  intros r k T. unfold number_at, calendar_rates. rewrite T, nth_error_map2.
  destruct (nth_error (r_values r) k) as [[x|]|], (nth_error (r_regularity r) k) as [[g|]|]; reflexivity.
Qed.
Lemma sum_zero : forall x y : Qc, 0 <= x -> 0 <= y -> x + y = 0 -> x = 0 /\ y = 0.
Proof. intros x y X Y E. split; qc_lra. Qed.
Lemma list_eqb_num : forall a b, list_eqb num_eqb a b = true -> a = b.
Proof.
  induction a as [|x a IH]; intros [|y b] H; cbn in H; try discriminate; auto. apply andb_true_iff in H as [H1 H2]. apply num_eqb_spec in H1. subst. f_equal. auto.
Qed.
Lemma div_nonneg : forall x y : Qc, 0 <= x -> 0 <= y -> 0 <= x / y.
Proof.
  intros x y X Y. destruct (Qc_eq_dec y 0) as [->|N].
  - unfold Qcdiv. replace (/ 0) with (0 : Qc) by reflexivity. replace (x * 0) with (0 : Qc) by ring. apply Qcle_refl.
  - assert (0 < y) as P by (destruct (Qcle_lt_or_eq _ _ Y); auto; congruence). destruct (Qclt_le_dec (x / y) 0) as [C|C]; auto.
    exfalso. assert (x / y * y = x) as E by (field; auto). assert (x / y * y < 0) by qc_nra. qc_lra.
Qed.
Lemma calendar_nonneg : forall r k, r_type r = STREAM_DAY -> nearly_sound r -> 0 <= number_at (calendar_rates r) k.
Proof.
  intros r k T N. rewrite calendar_at by auto. destruct (nth_error (r_values r) k) as [[x|]|] eqn:E; try apply Qcle_refl.
  destruct (N _ _ E) as (x' & [= <-] & X & [->|(g & G & Y)]).
  - destruct (nth_error (r_regularity r) k) as [[g|]|]; try apply Qcle_refl. replace (0 * g) with (0 : Qc) by ring. apply Qcle_refl.
  - rewrite G. qc_nra.
Qed.
Lemma calendar_zero : forall r k, r_type r = STREAM_DAY -> number_at (r_values r) k = 0 -> number_at (calendar_rates r) k = 0.
Proof.
  intros r k T. unfold number_at at 1. rewrite calendar_at by auto. destruct (nth_error (r_values r) k) as [[x|]|]; auto. intros ->.
  destruct (nth_error (r_regularity r) k) as [[g|]|]; auto. ring.
Qed.
Lemma stream_at : forall r, r_type r = STREAM_DAY -> stream_rates r = r_values r.
Proof. intros r T. unfold stream_rates. now rewrite T. Qed.
Lemma sum_nth : forall a b k x y, nth_error a k = Some x -> nth_error b k = Some y -> nth_error (sum_rates a b) k = Some (Some (nan_zero x + nan_zero y)).
Proof. intros a b k x y E F. unfold sum_rates. rewrite nth_error_map2, E, F. reflexivity. Qed.

(** the sum of two powers is again nearly sound, and its calendar-day rates are the sums *)
Lemma add_sound : forall ps a b s, on_periods ps a -> on_periods ps b -> r_unit a = r_unit b -> r_type a = STREAM_DAY -> r_type b = STREAM_DAY ->
  nearly_sound a -> nearly_sound b -> rate_add a b = Ok s ->
  nearly_sound s /\ forall k, number_at (calendar_rates s) k = number_at (calendar_rates a) k + number_at (calendar_rates b) k.
Proof.
  intros ps a b s Pa Pb U Ta Tb Na Nb E. destruct (add_on ps a b Pa Pb U) as (s' & E' & Ps & Us & Ts & Vs & Rs); [congruence|].
  rewrite E in E'. injection E' as <-. assert (r_type s = STREAM_DAY) as T by congruence.
  destruct (on_periods_len _ _ Pa) as (La & La' & La''). destruct (on_periods_len _ _ Pb) as (Lb & Lb' & Lb'').
  destruct (on_periods_len _ _ Ps) as (Ls & Ls' & Ls'').
  assert (forall k, (k < length ps)%nat ->
    (exists x, nth_error (r_values s) k = Some (Some x) /\ 0 <= x /\ (x = 0 \/ exists g, nth_error (r_regularity s) k = Some (Some g) /\ 0 <= g)) /\
    number_at (calendar_rates s) k = number_at (calendar_rates a) k + number_at (calendar_rates b) k) as X.
  { intros k K. destruct (nth_error_lt _ (r_values a) k) as (va & Ea); [lia|]. destruct (nth_error_lt _ (r_values b) k) as (vb & Eb); [lia|].
    destruct (Na _ _ Ea) as (x & -> & X0 & Xg). destruct (Nb _ _ Eb) as (y & -> & Y0 & Yg).
    assert (nth_error (r_values s) k = Some (Some (x + y))) as Es by (rewrite Vs; exact (sum_nth _ _ _ _ _ Ea Eb)).
    destruct (Qc_eq_dec (x + y) 0) as [Z|Z].
    - destruct (sum_zero _ _ X0 Y0 Z) as [-> ->]. split.
      + exists (0 + 0). split; [exact Es|]. split; [qc_lra|]. left. ring.
      + rewrite !calendar_zero; auto; unfold number_at; try (rewrite Ea || rewrite Eb || rewrite Es); auto; ring.
    - rewrite (calendar_at s) by auto. rewrite Es. rewrite Rs. destruct (list_eqb num_eqb (r_regularity a) (r_regularity b)) eqn:Q.
      + apply list_eqb_num in Q. assert (exists g, nth_error (r_regularity a) k = Some (Some g) /\ 0 <= g) as (g & G & G0).
        { destruct Xg as [->|Xg]; auto. destruct Yg as [->|Yg]; [exfalso; apply Z; ring|]. now rewrite Q. }
        rewrite G. split.
        * exists (x + y). split; auto. split; [qc_lra|]. right. exists g. auto.
        * rewrite !calendar_at, Ea, Eb by auto. rewrite <- Q, G. ring.
      + rewrite nth_error_map2. destruct (nth_error_lt _ (calendar_rates a) k) as (ca & Ca); [lia|]. destruct (nth_error_lt _ (calendar_rates b) k) as (cb & Cb); [lia|].
        rewrite (sum_nth _ _ _ _ _ Ca Cb). rewrite (stream_at a), (stream_at b) by auto. rewrite (sum_nth _ _ _ _ _ Ea Eb). cbn [nan_zero ndiv].
        replace (Qceqb (x + y) 0) with false by (symmetry; now apply Qceqb_neq). split.
        * exists (x + y). split; auto. split; [qc_lra|]. right. eexists. split; [reflexivity|]. apply div_nonneg; [|qc_lra].
          pose proof (calendar_nonneg a k Ta Na) as C1. pose proof (calendar_nonneg b k Tb Nb) as C2. rewrite number_at_nth, Ca in C1. rewrite number_at_nth, Cb in C2. qc_lra.
        * rewrite (number_at_nth (calendar_rates a)), (number_at_nth (calendar_rates b)), Ca, Cb. field. auto. }
  split.
  - intros k v Ev. assert (k < length ps)%nat as K by (rewrite <- Ls; apply nth_error_Some; congruence).
    destruct (X k K) as [(x & Ex & X1 & X2) _]. rewrite Ev in Ex. injection Ex as ->. eauto.
  - intros k. destruct (Nat.lt_ge_cases k (length ps)) as [K|K]; [now apply X|]. rewrite !number_at_over by lia. ring.
Qed.
Lemma fold_sound : forall ps u rest a s, on_periods ps a -> r_unit a = u -> r_type a = STREAM_DAY -> nearly_sound a ->
  Forall (fun r => on_periods ps r /\ r_unit r = u /\ r_type r = STREAM_DAY) rest -> Forall nearly_sound rest ->
  fold_left (fun acc b => bind acc (fun x => rate_add x b)) rest (Ok a) = Ok s ->
  nearly_sound s /\ adds_up (map calendar_rates (a :: rest)) (calendar_rates s).
Proof.
  intros ps u. induction rest as [|b rest IH]; intros a s Pa Ua Ta Na F N E.
  - cbn in E. injection E as <-. split; auto. apply adds_up_one.
  - inversion F as [|x y (Pb & Ub & Tb) Fr]; subst x y. inversion N as [|x y Nb Nr]; subst x y. cbn [fold_left bind] in E.
    destruct (add_on ps a b Pa Pb) as (c & Ec & Pc & Uc & Tc & _ & _); [congruence|congruence|]. rewrite Ec in E.
    destruct (add_sound ps a b c Pa Pb) as [Nc Ac]; auto; [congruence|].
    destruct (IH c s Pc (eq_trans Uc Ua) (eq_trans Tc Ta) Nc Fr Nr E) as [Ns As]. split; auto. intros k. rewrite (As k). cbn [map qsum fold_right].
    rewrite Ac. cbn. ring.
Qed.
Lemma reduce_sound : forall ps u l s, Forall (fun r => on_periods ps r /\ r_unit r = u /\ r_type r = STREAM_DAY) l -> Forall nearly_sound l ->
  reduce_add l = Ok s -> nearly_sound s /\ adds_up (map calendar_rates l) (calendar_rates s).
Proof.
  intros ps u [|a l] s F N E; [discriminate|]. inversion F as [|x y (Pa & Ua & Ta) Fr]; subst x y. inversion N as [|x y Na Nr]; subst x y. 
  exact (fold_sound ps u l a s Pa Ua Ta Na Fr Nr E).
Qed.

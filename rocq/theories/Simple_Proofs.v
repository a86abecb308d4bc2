(** Proofs about comparing results: periods. *)
From Coq Require Import String Ascii PeanoNat.
From Verif Require Import QcTac Base BaseLemmas Num Time_Model Time_Spec Time_Proofs Time_Proofs2 Time_Proofs3 Simple_Model Simple_Spec.
Local Open Scope list_scope.

(** ** Texts are ordered *)
Lemma ascii_cmp : forall a b, Ascii.compare a b = Eq -> a = b.
Proof. intros a b H. now apply Ascii.compare_eq_iff. Qed.
Lemma leb_unfold : forall a b s t, String.leb (String a s) (String b t) =
  match Ascii.compare a b with Lt => true | Gt => false | Eq => String.leb s t end.
Proof. intros. unfold String.leb. cbn. destruct (Ascii.compare a b); reflexivity. Qed.
Lemma leb_trans : forall a b c, String.leb a b = true -> String.leb b c = true -> String.leb a c = true.
Proof.
  induction a as [|x a IH]; intros b c H1 H2; [destruct c; reflexivity|].
  destruct b as [|y b]; [discriminate|]. destruct c as [|z c]; [discriminate|]. rewrite leb_unfold in *. unfold Ascii.compare in *.
  destruct (N.compare_spec (N_of_ascii x) (N_of_ascii y)) as [E1|E1|E1]; try discriminate;
    destruct (N.compare_spec (N_of_ascii y) (N_of_ascii z)) as [E2|E2|E2]; try discriminate;
    destruct (N.compare_spec (N_of_ascii x) (N_of_ascii z)) as [E3|E3|E3]; auto; try lia.
  now apply (IH b).
Qed.
Lemma leb_total : forall a b, String.leb a b = false -> String.leb b a = true.
Proof. intros a b H. destruct (String.leb_total a b); congruence. Qed.

(** ** A sorted list without repetitions is determined by its elements *)
Lemma sorted_unique : forall A (R : A -> A -> Prop), (forall x y z, R x y -> R y z -> R x z) -> (forall x y, R x y -> R y x -> x = y) ->
  forall l m, NoDup l -> NoDup m -> Sorted R l -> Sorted R m -> (forall x, In x l <-> In x m) -> l = m.
Proof.
  intros A R T AS. induction l as [|x l IH]; intros [|y m] N1 N2 S1 S2 E.
  - reflexivity.
  - destruct (proj2 (E y)). now left.
  - destruct (proj1 (E x)). now left.
  - inversion N1 as [|? ? Nx N1']; inversion N2 as [|? ? Ny N2']; subst. inversion S1 as [|? ? S1' H1]; inversion S2 as [|? ? S2' H2]; subst.
    assert (forall z, In z l -> R x z) as A1. { apply Sorted_StronglySorted in S1; [|exact T]. inversion S1; subst. now apply Forall_forall. }
    assert (forall z, In z m -> R y z) as A2. { apply Sorted_StronglySorted in S2; [|exact T]. inversion S2; subst. now apply Forall_forall. }
    assert (x = y) as ->.
    { destruct (proj1 (E x)) as [->|H]; [now left|reflexivity|]. destruct (proj2 (E y)) as [->|H']; [now left|reflexivity|]. auto. }
    f_equal. apply IH; auto. intros z. split; intros Hz.
    + destruct (proj1 (E z)) as [<-|H]; [now right| |exact H]. contradiction.
    + destruct (proj2 (E z)) as [<-|H]; [now right| |exact H]. contradiction.
Qed.

(** ** Where the values come from *)
Lemma whole_of : forall p ps, periods_period (p :: ps) = Ok (mkPeriod (p_start p) (p_end (last ps p))).
Proof. reflexivity. Qed.

Definition clamp (lo hi x : Z) : Z := Z.min (Z.max x lo) hi.

Lemma map_NoDup : forall T (f : period -> Z), contiguous T ->
  (forall i j t u, (i < j)%nat -> nth_error T i = Some t -> nth_error T j = Some u -> f t < f u) -> NoDup (map f T).
Proof.
  intros T f C H. apply NoDup_nth_error. intros i j Hi E. rewrite map_length in Hi. rewrite !nth_error_map in E.
  destruct (nth_error T i) as [t|] eqn:Et; [|apply nth_error_None in Et; lia]. destruct (nth_error T j) as [u|] eqn:Eu; [|discriminate]. cbn in E. injection E as E.
  destruct (Nat.lt_trichotomy i j) as [L|[L|L]]; auto; exfalso.
  - pose proof (H _ _ _ _ L Et Eu). lia.
  - pose proof (H _ _ _ _ L Eu Et). lia.
Qed.
Lemma nonempty_at : forall T k t, contiguous T -> nth_error T k = Some t -> p_start t < p_end t.
Proof. intros T k t C E. apply (contiguous_nonempty T); [exact C|now apply nth_error_In in E]. Qed.
Lemma start_index : forall T k t, contiguous T -> nth_error T k = Some t -> index_of Z.eqb (p_start t) (start_dates T) = Some k.
Proof.
  intros T k t C E. apply index_of_nth.
  - intros a b. apply Zeqb_spec.
  - apply map_NoDup; auto. intros i j a b L Ea Eb. pose proof (contiguous_order T i j a b C Ea Eb L). pose proof (nonempty_at T i a C Ea). lia.
  - unfold start_dates. rewrite nth_error_map, E. reflexivity.
Qed.
Lemma end_index : forall T k t, contiguous T -> nth_error T k = Some t -> index_of Z.eqb (p_end t) (end_dates T) = Some k.
Proof.
  intros T k t C E. apply index_of_nth.
  - intros a b. apply Zeqb_spec.
  - apply map_NoDup; auto. intros i j a b L Ea Eb. pose proof (contiguous_order T i j a b C Ea Eb L). pose proof (nonempty_at T j b C Eb). lia.
  - unfold end_dates. rewrite nth_error_map, E. reflexivity.
Qed.
Lemma dates_of_length : forall p ps, List.length (dates_of (p :: ps)) = S (List.length (p :: ps)).
Proof. intros. rewrite dates_of_eq, app_length. unfold start_dates. rewrite map_length. cbn. lia. Qed.
Lemma dates_at : forall T k d, contiguous T -> nth_error (dates_of T) k = Some d ->
  (forall t, nth_error T k = Some t -> p_start t = d) /\ (forall j t, k = S j -> nth_error T j = Some t -> p_end t = d).
Proof.
  intros T k d C E. split.
  - intros t Et. destruct (dates_of_nth T k t C Et) as [A _]. congruence.
  - intros j t -> Et. destruct (dates_of_nth T j t C Et) as [_ A]. congruence.
Qed.

(** the values of the part of the target from its [k]-th date on come from the remaining periods *)
Lemma picks_ok : forall t T', contiguous (t :: T') -> let T := t :: T' in let lo := p_start t in let hi := p_end (last T t) in
  forall ps i k, contiguous ps -> (k <= List.length T)%nat ->
    match ps with
    | [] => k = List.length T
    | p :: rest => nth_error (dates_of T) k = Some (clamp lo hi (p_start p)) /\ hi <= p_end (last rest p)
    end ->
    (forall p d, In p ps -> d = p_start p \/ d = p_end p -> lo < d < hi -> In d (dates_of T)) ->
    exists l, picks i ps T = Ok l /\ List.length l = (List.length T - k)%nat /\
      forall j x, nth_error l j = Some x -> (i <= x)%nat /\ exists p u, nth_error ps (x - i) = Some p /\ nth_error T (k + j) = Some u /\
        p_start p <= p_start u /\ p_end u <= p_end p.
Proof.
  intros t T' CT T lo hi. pose proof (dates_of_increasing T CT) as INC.
  assert (nth_error (dates_of T) 0 = Some lo) as D0 by (destruct (dates_of_nth T 0 t CT eq_refl); auto).
  assert (nth_error (dates_of T) (List.length T) = Some hi) as DN.
  { destruct (dates_of_nth T (List.length T') (last T t) CT) as [_ A]; [apply nth_error_last|exact A]. }
  assert (lo < hi) as LH. { apply (increasing_nth_lt (dates_of T) 0 (List.length T)); auto. cbn; lia. }
  assert (List.length (dates_of T) = S (List.length T)) as LD by apply dates_of_length.
  induction ps as [|p rest IH]; intros i k C Hk H B.
  - subst k. exists []. split; [reflexivity|]. split; [cbn [List.length]; lia|]. intros [|j] x E; discriminate.
  - destruct H as [HS HE]. destruct C as (C1 & C2 & C3). unfold nonempty in C1.
    cbn [picks]. unfold T at 1. rewrite whole_of. cbn [bind]. fold T.
    replace (p_end (last T' t)) with hi by (unfold hi, T; now rewrite last_shift).
    change (p_start t) with lo.
    assert (forall p' d, In p' rest -> d = p_start p' \/ d = p_end p' -> lo < d < hi -> In d (dates_of T)) as B' by (intros; eapply B; eauto; now right).
    unfold intersection, intersects, contains_date. cbn [p_start p_end].
    (* the index of the end of this period *)
    assert (exists m, (m <= List.length T)%nat /\ nth_error (dates_of T) m = Some (clamp lo hi (p_end p))) as (m & Hm & Em).
    { destruct (Z.le_gt_cases (p_end p) lo) as [L|L]; [exists 0%nat; split; [lia|]; rewrite D0; f_equal; unfold clamp; lia|].
      destruct (Z.le_gt_cases hi (p_end p)) as [L'|L']; [exists (List.length T); split; [lia|]; rewrite DN; f_equal; unfold clamp; lia|].
      assert (In (p_end p) (dates_of T)) as I by (apply (B p); [now left|now right|lia]). apply In_nth_error in I as [m Em]. exists m. split.
      - assert (m < List.length (dates_of T))%nat by (apply nth_error_Some; congruence). lia.
      - rewrite Em. f_equal. unfold clamp. lia. }
    assert (match rest with [] => m = List.length T | p' :: rest' => nth_error (dates_of T) m = Some (clamp lo hi (p_start p')) /\ hi <= p_end (last rest' p') end) as HR.
    { destruct rest as [|p' rest'].
      - cbn in HE. assert (clamp lo hi (p_end p) = hi) as E by (unfold clamp; lia). rewrite E in Em.
        destruct (Nat.lt_trichotomy m (List.length T)) as [L|[L|L]]; auto; [|lia]. pose proof (increasing_nth_lt _ _ _ _ _ INC Em DN L). lia.
      - rewrite <- C2. split; [exact Em|]. rewrite last_shift in HE. exact HE. }
    destruct (IH (S i) m C3 Hm HR B') as (l & El & Ll & Pl).
    destruct (((lo <=? p_start p) && (p_start p <? hi)) || ((p_start p <=? lo) && (lo <? p_end p))) eqn:X; cbn [negb].
    + (* it overlaps the target *)
      assert (p_start p < hi /\ lo < p_end p) as [X1 X2] by lia. clear X.
      assert (clamp lo hi (p_start p) = Z.max (p_start p) lo) as ES by (unfold clamp; lia).
      assert (clamp lo hi (p_end p) = Z.min (p_end p) hi) as EE by (unfold clamp; lia).
      rewrite ES in HS. rewrite EE in Em.
      assert (k < m)%nat as KM. { destruct (Nat.lt_ge_cases k m) as [L|L]; auto. pose proof (proj1 (increasing_nth_le _ _ _ _ _ INC Em HS) L). lia. }
      destruct (nth_error T k) as [u|] eqn:Eu; [|apply nth_error_None in Eu; lia].
      destruct m as [|m]; [lia|]. destruct (nth_error T m) as [w|] eqn:Ew; [|apply nth_error_None in Ew; lia].
      assert (p_start u = Z.max (p_start p) lo) as Hu. { destruct (dates_of_nth T k u CT Eu) as [A _]. congruence. }
      assert (p_end w = Z.min (p_end p) hi) as Hw. { destruct (dates_of_nth T m w CT Ew) as [_ A]. congruence. }
      cbn [p_start p_end]. rewrite <- Hu, (start_index T k u CT Eu). cbn [of_option bind]. rewrite <- Hw, (end_index T m w CT Ew). cbn [of_option bind].
      rewrite El. cbn [bind]. exists (repeat i (m + 1 - k) ++ l). split; [reflexivity|]. split.
      { rewrite app_length, repeat_length, Ll. lia. }
      intros j x Ej. destruct (Nat.lt_ge_cases j (m + 1 - k)) as [J|J].
      * rewrite nth_error_app1 in Ej by (now rewrite repeat_length). assert (x = i) as -> by (apply nth_error_In in Ej; now apply repeat_spec in Ej).
        split; [lia|]. exists p. destruct (nth_error T (k + j)) as [v|] eqn:Ev; [|apply nth_error_None in Ev; lia]. exists v. rewrite Nat.sub_diag. split; [reflexivity|]. split; [reflexivity|].
        destruct (dates_of_nth T _ v CT Ev) as [V1 V2].
        assert (k <= k + j)%nat as J1 by lia. assert (S (k + j) <= S m)%nat as J2 by lia. pose proof (proj1 (increasing_nth_le _ _ _ _ _ INC HS V1) J1) as Q1. pose proof (proj1 (increasing_nth_le _ _ _ _ _ INC V2 Em) J2) as Q2. lia.
      * rewrite nth_error_app2 in Ej by (now rewrite repeat_length). rewrite repeat_length in Ej. destruct (Pl _ _ Ej) as (Hx & q & v & Q1 & Q2 & Q3).
        split; [lia|]. exists q, v. replace (x - i)%nat with (S (x - S i)) by lia. split; [exact Q1|]. split; [|exact Q3]. rewrite <- Q2. f_equal. lia.
    + (* it does not *)
      exists l. split; [exact El|].
      assert (m = k) as ->.
      { assert (clamp lo hi (p_end p) = clamp lo hi (p_start p)) as E by (unfold clamp; lia). rewrite E in Em.
        destruct (Nat.lt_trichotomy m k) as [L|[L|L]]; auto; [pose proof (increasing_nth_lt _ _ _ _ _ INC Em HS L)|pose proof (increasing_nth_lt _ _ _ _ _ INC HS Em L)]; lia. }
      split; [exact Ll|]. intros j x Ej. destruct (Pl j x Ej) as (Hx & q & v & Q1 & Q2 & Q3). split; [lia|]. exists q, v.
      replace (x - i)%nat with (S (x - S i)) by lia. auto.
Qed.

(** ** The common periods *)
Lemma dates_of_first : forall p ps, contiguous (p :: ps) -> In (p_start p) (dates_of (p :: ps)) /\ In (p_end (last ps p)) (dates_of (p :: ps)).
Proof.
  intros p ps C. rewrite dates_of_eq. split; [now left|]. apply in_or_app. right. left. now rewrite last_shift.
Qed.
Lemma dates_of_range : forall p ps d, contiguous (p :: ps) -> In d (dates_of (p :: ps)) -> p_start p <= d <= p_end (last ps p).
Proof.
  intros p ps d C I. pose proof (dates_of_increasing _ C) as INC. apply In_nth_error in I as [k Ek].
  assert (k < List.length (dates_of (p :: ps)))%nat as L by (apply nth_error_Some; congruence). rewrite dates_of_length in L.
  destruct (dates_of_nth _ 0%nat p C eq_refl) as [E0 _]. destruct (dates_of_nth _ _ _ C (nth_error_last _ ps p)) as [_ EN]. rewrite last_shift in EN. split.
  - apply (proj1 (increasing_nth_le _ _ _ _ _ INC E0 Ek)). lia.
  - apply (proj1 (increasing_nth_le _ _ _ _ _ INC Ek EN)). cbn [List.length] in L. lia.
Qed.

Lemma grid_ok : forall pa a pb b, contiguous (pa :: a) -> contiguous (pb :: b) ->
  forall lo hi, lo = Z.max (p_start pa) (p_start pb) -> hi = Z.min (p_end (last a pa)) (p_end (last b pb)) -> lo < hi ->
  let within := filter (fun d => (lo <=? d) && (d <=? hi)) in
  exists t T', create_periods (sorted_set (within (dates_of (pa :: a)) ++ within (dates_of (pb :: b)))) false false = t :: T' /\
    contiguous (t :: T') /\ p_start t = lo /\ p_end (last T' t) = hi /\
    forall d, In d (dates_of (t :: T')) <-> (In d (dates_of (pa :: a)) \/ In d (dates_of (pb :: b))) /\ lo <= d <= hi.
Proof.
  intros pa a pb b Ca Cb lo hi EL EH LH within. set (ds := sorted_set _).
  assert (increasing ds) as INC by apply sorted_set_increasing.
  assert (forall d, In d ds <-> (In d (dates_of (pa :: a)) \/ In d (dates_of (pb :: b))) /\ lo <= d <= hi) as IN.
  { intros d. unfold ds, within. rewrite sorted_set_In, in_app_iff, !filter_In.
    assert ((lo <=? d) && (d <=? hi) = true <-> lo <= d <= hi) as Q by lia. rewrite Q. tauto. }
  destruct (dates_of_first _ _ Ca) as [FA LA]. destruct (dates_of_first _ _ Cb) as [FB LB].
  assert (In lo ds) as I1. { apply IN. split; [|lia]. destruct (Z.max_spec (p_start pa) (p_start pb)) as [[_ E]|[_ E]]; rewrite EL, E; auto. }
  assert (In hi ds) as I2. { apply IN. split; [|lia]. destruct (Z.min_spec (p_end (last a pa)) (p_end (last b pb))) as [[_ E]|[_ E]]; rewrite EH, E; auto. }
  clearbody ds. destruct ds as [|x [|y ds]]; [destruct I1|destruct I1 as [E1|[]]; destruct I2 as [E2|[]]; lia|].
  pose proof (consecutive_contiguous _ INC) as CT. pose proof (consecutive_dates x y ds) as ED.
  assert (create_periods (x :: y :: ds) false false = consecutive (x :: y :: ds)) as -> by (unfold create_periods; cbn [app]; now rewrite app_nil_r).
  rewrite consecutive_cons2 in *. set (T' := consecutive (y :: ds)) in *. exists (mkPeriod x y), T'. split; [reflexivity|]. split; [exact CT|].
  cbn [p_start].
  assert (x = lo) as Ex.
  { assert (lo <= x) by (apply (proj1 (IN x)); now left). apply In_nth_error in I1 as [k Ek].
    assert (nth_error (x :: y :: ds) 0 = Some x) as E0 by reflexivity. pose proof (proj1 (increasing_nth_le _ _ _ _ _ INC E0 Ek) (Nat.le_0_l k)). lia. }
  split; [exact Ex|]. rewrite ED. split; [|exact IN].
  assert (p_end (last T' (mkPeriod x y)) <= hi /\ hi <= p_end (last T' (mkPeriod x y))) as [? ?]; [|lia].
  destruct (dates_of_first _ _ CT) as [_ LT]. rewrite ED in LT. split; [now apply IN in LT|].
  rewrite <- ED in I2. now apply dates_of_range in I2.
Qed.

(** every value of a model that covers the target comes from the period around it *)
Lemma picks_grid : forall p ps t T', contiguous (p :: ps) -> contiguous (t :: T') ->
  p_start p <= p_start t -> p_end (last T' t) <= p_end (last ps p) ->
  (forall d, In d (dates_of (p :: ps)) -> p_start t < d < p_end (last T' t) -> In d (dates_of (t :: T'))) ->
  exists l, picks 0 (p :: ps) (t :: T') = Ok l /\ List.length l = List.length (t :: T') /\
    forall j x, nth_error l j = Some x -> exists q u, nth_error (p :: ps) x = Some q /\ nth_error (t :: T') j = Some u /\
      p_start q <= p_start u /\ p_end u <= p_end q.
Proof.
  intros p ps t T' C CT H1 H2 B.
  destruct (picks_ok t T' CT (p :: ps) 0 0 C) as (l & El & Ll & Pl).
  - lia.
  - destruct (dates_of_nth _ 0%nat t CT eq_refl) as [E0 _]. rewrite E0. rewrite last_shift. split; [|exact H2]. f_equal. unfold clamp.
    assert (p_start t < p_end (last T' t)); [|lia]. destruct (dates_of_nth _ _ _ CT (nth_error_last _ T' t)) as [_ EN]. rewrite last_shift in EN.
    apply (increasing_nth_lt (dates_of (t :: T')) 0 (S (List.length T'))); auto; [now apply dates_of_increasing|lia].
  - rewrite last_shift. intros q d Iq Ed R. apply B; [|exact R]. apply dates_of_In; [exact C|]. exists q. split; [exact Iq|]. destruct Ed; auto.
  - exists l. rewrite Nat.sub_0_r in Ll. split; [exact El|]. split; [exact Ll|]. intros j x Ej. destruct (Pl j x Ej) as (_ & q & u & Q1 & Q2 & Q3). rewrite Nat.sub_0_r in Q1. eauto.
Qed.

(** Proofs about pump and compressor systems: one setting on a part of the run. *)
From Coq Require Import PeanoNat String.
From Verif Require Import Attributes_Proofs Attributes_Proofs2 QcTac Num Time_Model Time_Spec Time_Proofs Time_Proofs2 Units_Model Rates_Model Rates_Spec Rates_Proofs Rates_Proofs3 Rates_Proofs4
  Base BaseLemmas Expr_Model Expr_Spec Expr_Proofs Vars_Model Vars_Proofs Input_Model Interp_Model Energy_Model Energy_Proofs Energy_Proofs2 Energy_Proofs3 Export_Proofs2 Emitters_Proofs5 Emitters_Spec
  Consumer_Model Consumer_Spec Consumer_Proofs Consumer_Proofs2 Consumer_Proofs3 Consumer_Proofs4 Consumer_Proofs5 Consumer_Proofs6 Consumer_Proofs7 Consumer_Proofs8 Consumer_Proofs9
  Equipment_Model Equipment_Spec Equipment_Proofs Equipment_Proofs2 Equipment_Proofs3 System_Model System_Spec Systems_Model Systems_Spec Systems_Proofs.
Local Open Scope list_scope.
Local Open Scope nat_scope.

(** ** Pressures where they are looked at *)
Definition nonneg_where (mask : list bool) (l : list Qc) : Prop := forall k p, nth_error mask k = Some true -> nth_error l k = Some p -> (0 <= p)%Qc.
Definition fine_where (mask : list bool) (s d : list Qc) : Prop :=
  forall k p q, nth_error mask k = Some true -> nth_error s k = Some p -> nth_error d k = Some q -> (0 < p)%Qc /\ (p <= q)%Qc.
Lemma negative_cases : forall (l : list Qc) mask, existsb (fun x => snd x && Qcltb (fst x) 0)%bool (zip l mask) = false <-> nonneg_where mask l.
Proof.
  unfold nonneg_where. induction l as [|p l IH]; intros [|b mask]; cbn [zip combine existsb].
  - split; [intros _ [|k] p; discriminate|reflexivity].
  - split; [intros _ k p _; destruct k; discriminate|reflexivity].
  - split; [intros _ k q H; destruct k; discriminate|reflexivity].
  - cbn [fst snd]. rewrite Bool.orb_false_iff. fold (zip l mask). rewrite IH. split.
    + intros [H1 H2] [|k] q; cbn [nth_error]; intros Hm Hl; [|now apply (H2 k)]. injection Hm as ->. injection Hl as ->. cbn [andb] in H1. now apply Qcltb_ge in H1.
    + intros H. split.
      * destruct b; cbn [andb]; [|reflexivity]. apply Qcltb_ge. now apply (H 0).
      * intros k q Hm Hl. now apply (H (S k)).
Qed.
Lemma pressure_cases : forall pow vm mask e l, vm_evaluate pow vm (input_tokens e) = Ok l ->
  (pressure_values pow vm mask e = Ok l /\ nonneg_where mask l) \/ (pressure_values pow vm mask e = Err ValidationError /\ ~ nonneg_where mask l).
Proof.
  intros pow vm mask e l E. unfold pressure_values. rewrite E. cbn [bind]. pose proof (negative_cases l mask) as N. destruct (existsb _ _).
  - right. split; [reflexivity|]. intros H. apply N in H. discriminate.
  - left. split; [reflexivity|]. now apply N.
Qed.
Lemma ordered_fine : forall mask s d, List.length mask = List.length s -> List.length d = List.length s ->
  (validate_pressures mask s d None = Ok tt /\ fine_where mask s d) \/ (validate_pressures mask s d None = Err ValidationError /\ ~ fine_where mask s d).
Proof.
  intros mask s d L1 L2. assert (forall l, @None (list Qc) = Some l -> List.length l = List.length s) as L3 by discriminate.
  pose proof (validate_pressures_proof mask s d None L1 L2 L3) as X. cbv zeta in X. destruct X as [[E H]|[E H]]; [left|right]; (split; [exact E|]).
  - intros k p q M P Q. destruct (H k p q M P Q) as (A & B & _). auto.
  - intros F. apply H. intros k p q M P Q. destruct (F k p q M P Q). split; [assumption|]. split; [assumption|discriminate].
Qed.
Lemma validate_all_cases : forall n masks ss ds, List.length ss = List.length masks -> List.length ds = List.length masks ->
  (forall l, In l masks -> List.length l = n) -> (forall l, In l ss -> List.length l = n) -> (forall l, In l ds -> List.length l = n) ->
  let fine := forall c mask s d, nth_error masks c = Some mask -> nth_error ss c = Some s -> nth_error ds c = Some d -> fine_where mask s d in
  (validate_all masks ss ds = Ok tt /\ fine) \/ (validate_all masks ss ds = Err ValidationError /\ ~ fine).
Proof.
  intros n. induction masks as [|mask masks IH]; intros [|s ss] [|d ds] L1 L2 H1 H2 H3; try discriminate; cbv zeta.
  - left. split; [reflexivity|]. intros [|c]; discriminate.
  - cbn [validate_all]. destruct (ordered_fine mask s d) as [[-> F]|[-> F]].
    { rewrite (H1 mask), (H2 s); auto; now left. } { rewrite (H3 d), (H2 s); auto; now left. }
    + cbn [bind]. assert (List.length ss = List.length masks) as L1' by (cbn in L1; lia). assert (List.length ds = List.length masks) as L2' by (cbn in L2; lia).
      assert (forall l, In l masks -> List.length l = n) as H1' by (intros l I; apply H1; now right). assert (forall l, In l ss -> List.length l = n) as H2' by (intros l I; apply H2; now right).
      assert (forall l, In l ds -> List.length l = n) as H3' by (intros l I; apply H3; now right).
      pose proof (IH ss ds L1' L2' H1' H2' H3') as X. cbv zeta in X. destruct X as [[-> G]|[-> G]].
      * left. split; [reflexivity|]. intros [|c] m' s' d'; cbn [nth_error]; intros E1 E2 E3; [injection E1 as <-; injection E2 as <-; injection E3 as <-; exact F|now apply (G c)].
      * right. split; [reflexivity|]. intros A. apply G. intros c. apply (A (S c)).
    + right. split; [reflexivity|]. intros A. apply F. now apply (A 0).
Qed.

Section Setting.
  Variable pow : Qc -> Qc -> Qc.
  Variables (first : period) (rest : list period) (vars : variables_dict) (vm : variables_map).
  Let ps := first :: rest.
  Let n := List.length ps.
  Hypothesis Evm : make_variables_map ps vars = Ok vm.
  Hypothesis C : contiguous ps.
  Hypothesis Un : forall r l, dict_get String.eqb r vars = Some l -> List.length l = n.

  (** the series of an expression *)
  Definition series_of (e : expression_input) (l : list Qc) : Prop :=
    List.length l = n /\ (forall k x, k < n -> input_at pow vars n e k x <-> nth_error l k = Some x) /\
    forall i j sub, i < j -> j <= n -> get_subset vm i j = Ok sub -> vm_evaluate pow sub (input_tokens e) = Ok (slice i j l).
  Lemma series_exists : forall e, evaluable pow vars n e -> exists l, series_of e l.
  Proof. intros e H. exact (vector_of pow first rest vars vm Evm C Un e H). Qed.
  Lemma series_list : forall es, (forall e, In e es -> evaluable pow vars n e) -> exists vs, Forall2 series_of es vs.
  Proof. intros es H. apply forall2_exists. intros e I. apply series_exists. now apply H. Qed.
  Lemma series_values : forall es vs k ws, Forall2 series_of es vs -> k < n -> Forall2 (fun e v => input_at pow vars n e k v) es ws <-> ws = col k vs.
  Proof.
    intros es vs k ws F L. revert ws. induction F as [|e l es vs (Ll & V & _) F IH]; intros ws; cbn [col map].
    - split; [intros H; now inversion H|intros ->; constructor].
    - assert (nth_error l k = Some (nth k l 0%Qc)) as K by (apply nth_error_nth'; lia). split.
      + intros H. inversion H as [|e' w es' ws' H1 H2]; subst. apply V in H1; [|exact L]. rewrite K in H1. injection H1 as <-. f_equal. now apply IH.
      + intros ->. constructor; [now apply V|now apply IH].
  Qed.
  Lemma series_grid : forall es vs, Forall2 series_of es vs -> grid (List.length es) n vs.
  Proof.
    intros es vs F. split; [symmetry; exact (forall2_length_eq _ _ _ _ _ F)|]. intros l I. destruct (forall2_in_r _ _ _ _ _ _ F I) as (e & _ & L & _). exact L.
  Qed.
  Lemma series_evaluated : forall es vs i j sub, Forall2 series_of es vs -> i < j -> j <= n -> get_subset vm i j = Ok sub ->
    mapM (fun e => vm_evaluate pow sub (input_tokens e)) es = Ok (map (slice i j) vs).
  Proof.
    intros es vs i j sub F L1 L2 Es. induction F as [|e l es vs (_ & _ & S) F IH]; [reflexivity|]. cbn [mapM map]. rewrite (S i j sub L1 L2 Es). cbn [bind]. rewrite IH. reflexivity.
  Qed.

  (** ** One value for all, or one for each *)
  Definition common_series (count : nat) (common : option expression_input) (individual : option (list expression_input)) (vs : list (list Qc)) : Prop :=
    match common with
    | Some e => exists l, series_of e l /\ vs = repeat l count
    | None => exists es, individual = Some es /\ List.length es = count /\ Forall2 series_of es vs
    end.
  Lemma common_exists : forall count common individual, one_of common individual -> right_count count individual ->
    all_evaluable pow vars n common -> all_ok pow vars n individual -> exists vs, common_series count common individual vs.
  Proof.
    intros count [e|] individual O R H1 H2; unfold common_series.
    - destruct (series_exists e H1) as (l & Hl). eauto.
    - destruct O as [[O _]|[_ O]]; [congruence|]. destruct individual as [es|]; [|congruence]. destruct (series_list es) as (vs & F); [intros e I; now apply (H2 es)|]. exists vs, es. split; [reflexivity|]. split; [now apply R|exact F].
  Qed.
  Lemma common_grid : forall count common individual vs, common_series count common individual vs -> grid count n vs.
  Proof.
    intros count [e|] individual vs; cbn [common_series].
    - intros (l & (L & _) & ->). split; [apply repeat_length|]. intros l' I. apply repeat_spec in I. congruence.
    - intros (es & _ & L & F). rewrite <- L. now apply series_grid with (es := es).
  Qed.
  Lemma col_repeat : forall l count k, col k (repeat l count) = repeat (nth k l 0%Qc) count.
  Proof. intros l count k. unfold col. induction count as [|c IH]; cbn [repeat map]; [reflexivity|]. now rewrite IH. Qed.
  Lemma common_values : forall count common individual vs k ws, one_of common individual -> common_series count common individual vs -> k < n ->
    each pow vars n count common individual k ws <-> ws = col k vs.
  Proof.
    intros count [e|] individual vs k ws O H L; cbn [common_series] in H; unfold each.
    - destruct O as [[_ ->]|[O _]]; [|congruence]. destruct H as (l & (Ll & V & _) & ->). rewrite col_repeat. assert (nth_error l k = Some (nth k l 0%Qc)) as K by (apply nth_error_nth'; lia). split.
      + intros (e' & v & E & Hv & ->). injection E as <-. apply V in Hv; [|exact L]. rewrite K in Hv. now injection Hv as ->.
      + intros ->. exists e, (nth k l 0%Qc). split; [reflexivity|]. split; [now apply V|reflexivity].
    - destruct H as (es & -> & _ & F). now apply series_values.
  Qed.

  (** ** Pressures on a part of the run *)
  Section OnPart.
  Variables (i j : nat) (sub : variables_map).
  Hypothesis L1 : i < j.
  Hypothesis L2 : j <= n.
  Hypothesis Es : get_subset vm i j = Ok sub.

  Lemma compressor_pressures_cases : forall count masks common individual vs, common_series count common individual vs -> List.length masks = count ->
    let fine := Forall2 nonneg_where masks (map (slice i j) vs) in
    (compressor_pressures pow sub masks common individual = Ok (map (slice i j) vs) /\ fine) \/ (compressor_pressures pow sub masks common individual = Err ValidationError /\ ~ fine).
  Proof.
    intros count masks [e|] individual vs H Lm; cbn [common_series] in H; cbv zeta; unfold compressor_pressures.
    - destruct H as (l & (_ & _ & S) & ->). apply (mapM_cases (fun mask => pressure_values pow sub mask e) ValidationError nonneg_where). subst count. clear -S L1 L2 Es.
      induction masks as [|mask masks IH]; cbn [List.length repeat map]; constructor; [|exact IH]. apply pressure_cases. now apply S.
    - destruct H as (es & -> & Le & F). cbn [of_option bind].
      assert (Forall2 (fun x y => (pressure_values pow sub (snd x) (fst x) = Ok y /\ nonneg_where (snd x) y) \/ (pressure_values pow sub (snd x) (fst x) = Err ValidationError /\ ~ nonneg_where (snd x) y)) (zip es masks) (map (slice i j) vs)) as G.
      { rewrite <- Lm in Le. clear Lm. revert masks Le. induction F as [|e l es vs (_ & _ & S) F IH]; intros [|mask masks] Le; try discriminate; cbn [zip combine map]; constructor; [cbn [fst snd]; apply pressure_cases; now apply S|apply IH; now injection Le]. }
      assert (Forall2 (fun x y => nonneg_where (snd x) y) (zip es masks) (map (slice i j) vs) <-> Forall2 nonneg_where masks (map (slice i j) vs)) as Iff.
      { rewrite <- Lm in Le. clear -Le F. revert masks Le. induction F as [|e l es vs _ F IH]; intros [|mask masks] Le; try discriminate; cbn [zip combine map]; [split; constructor|]. injection Le as Le. specialize (IH masks Le).
        split; intros H; inversion H; subst; constructor; auto; now apply IH. }
      destruct (mapM_cases _ _ (fun x y => nonneg_where (snd x) y) _ _ G) as [[E H]|[E H]]; [left|right]; (split; [exact E|]); now rewrite <- Iff.
  Qed.
  Lemma pump_pressures_cases : forall count common individual vs, common_series count common individual vs -> 0 < count ->
    let fine := Forall2 nonneg_where (repeat (repeat true (List.length (vm_periods sub))) count) (map (slice i j) vs) in
    (pump_pressures pow sub count common individual = Ok (map (slice i j) vs) /\ fine) \/ (pump_pressures pow sub count common individual = Err ValidationError /\ ~ fine).
  Proof.
    intros count [e|] individual vs H Lc; cbn [common_series] in H; cbv zeta; unfold pump_pressures; set (all := repeat true (List.length (vm_periods sub))).
    - destruct H as (l & (_ & _ & S) & ->). destruct (pressure_cases pow sub all e (slice i j l)) as [[-> H]|[-> H]]; [now apply S|left|right]; cbn [bind].
      + split; [f_equal; clear; induction count as [|c IH]; cbn [repeat map]; [reflexivity|now rewrite IH]|]. clear Lc. induction count as [|c IH]; cbn [repeat map]; constructor; auto.
      + split; [reflexivity|]. intros F. apply H. destruct count as [|c]; [lia|]. cbn [repeat map] in F. now inversion F.
    - destruct H as (es & -> & Le & F). cbn [of_option bind].
      assert (Forall2 (fun x y => (pressure_values pow sub all x = Ok y /\ nonneg_where all y) \/ (pressure_values pow sub all x = Err ValidationError /\ ~ nonneg_where all y)) es (map (slice i j) vs)) as G.
      { clear Le. induction F as [|e l es vs (_ & _ & S) F IH]; cbn [map]; constructor; [apply pressure_cases; now apply S|exact IH]. }
      assert (Forall2 (fun _ y => nonneg_where all y) es (map (slice i j) vs) <-> Forall2 nonneg_where (repeat all count) (map (slice i j) vs)) as Iff.
      { subst count. clear -F. induction F as [|e l es vs _ F IH]; cbn [List.length repeat map]; [split; constructor|]. split; intros H; inversion H; subst; constructor; auto; now apply IH. }
      destruct (mapM_cases _ _ (fun _ y => nonneg_where all y) _ _ G) as [[E H]|[E H]]; [left|right]; (split; [exact E|]); now rewrite <- Iff.
  Qed.
  End OnPart.

  (** ** A fraction of the total *)
  Lemma fraction_value : forall total e, factor_ok vars total -> factor_ok vars e -> evaluable pow vars n (fraction_text total e) /\
    forall k z, k < n -> input_at pow vars n (fraction_text total e) k z <-> exists t y, input_at pow vars n total k t /\ input_at pow vars n e k y /\ z = (t * y)%Qc.
  Proof.
    intros total e [W1 _] [W2 _].
    assert (forall d, well_written_input vars d -> exists x, expr_of d x /\ forall r, In r (references x) -> exists l, dict_get String.eqb r vars = Some l) as X.
    { intros [q|ts] W; cbn [well_written_input] in W; [exists (ENum q); split; [reflexivity|intros r []]|]. destruct W as (k & x & Wx & Rx). exists x. split; [now apply (writes_zero k)|exact Rx]. }
    destruct (X total W1) as (x & Ex & Rx). destruct (X e W2) as (y & Ey & Ry).
    assert (writes 8 (join_conditions total [e]) (EBin Mul x y)) as Wj by (apply (join_writes total x [e] [y] Ex); constructor; [exact Ey|constructor]).
    assert (forall r, In r (references (EBin Mul x y)) -> exists l, dict_get String.eqb r vars = Some l /\ List.length l = n) as Rj.
    { intros r I. cbn [references] in I. apply in_app_iff in I. destruct I as [I|I]; [destruct (Rx r I) as (l & El)|destruct (Ry r I) as (l & El)]; exists l; (split; [exact El|now apply (Un r)]). }
    destruct (evaluate_writes_proof pow _ _ _ vars n Wj Rj) as (vec & Evec & Lvec & Vvec).
    assert (join_conditions total [e] = [TOp "("] ++ input_tokens total ++ [TOp ")"; TOp "{*}"; TOp "("] ++ input_tokens e ++ [TOp ")"]) as Ej by (cbn [join_conditions]; rewrite app_nil_r; cbn [app]; reflexivity).
    rewrite Ej in Evec. split; [exists vec; exact Evec|]. intros k z L.
    assert (forall d u, expr_of d u -> (forall r, In r (references u) -> exists l, dict_get String.eqb r vars = Some l) -> forall v, input_at pow vars n d k v <-> v = value pow (env_at vars k) u) as One.
    { intros d u Ed Rd v. rewrite input_at_tokens by exact L. destruct (evaluate_writes_proof pow _ _ _ vars n (expr_of_writes d u Ed)) as (vd & Evd & Lvd & Vvd).
      { intros r I. destruct (Rd r I) as (l & El). exists l. split; [exact El|now apply (Un r)]. }
      unfold evaluates_at. rewrite Evd. split.
      - intros (l & E & K). injection E as <-. rewrite (nth_error_nth' vd 0%Qc) in K by lia. rewrite (Vvd k L) in K. now injection K as <-.
      - intros ->. exists vd. split; [reflexivity|]. rewrite (nth_error_nth' vd 0%Qc) by lia. now rewrite (Vvd k L). }
    assert (input_at pow vars n (fraction_text total e) k z <-> exists l, Ok vec = Ok l /\ nth_error l k = Some z) as ->. { unfold fraction_text. cbn [input_at]. unfold evaluates_at. rewrite Evec. reflexivity. }
    split.
    - intros (l & E & K). injection E as <-. rewrite (nth_error_nth' vec 0%Qc) in K by lia. rewrite (Vvec k L) in K. injection K as <-. exists (value pow (env_at vars k) x), (value pow (env_at vars k) y). split; [now apply (One total x Ex Rx)|]. split; [now apply (One e y Ey Ry)|reflexivity].
    - intros (t & w & Ht & Hw & ->). apply (One total x Ex Rx) in Ht. apply (One e y Ey Ry) in Hw. subst t w. exists vec. split; [reflexivity|]. rewrite (nth_error_nth' vec 0%Qc) by lia. now rewrite (Vvec k L).
  Qed.
End Setting.

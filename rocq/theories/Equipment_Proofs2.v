(** Proofs about pump and compressor consumers: rates, pressures and operating points on a part of the run. *)
From Coq Require Import PeanoNat String.
From Verif Require Import Attributes_Proofs Attributes_Proofs2 QcTac Num Time_Model Time_Spec Time_Proofs Time_Proofs2 Units_Model Rates_Model Rates_Spec Rates_Proofs Rates_Proofs3 Rates_Proofs4
  Base BaseLemmas Expr_Model Expr_Spec Expr_Proofs Vars_Model Vars_Proofs Input_Model Interp_Model Energy_Model Energy_Proofs Energy_Proofs2 Energy_Proofs3 Export_Proofs2 Emitters_Proofs5 Emitters_Spec
  Consumer_Model Consumer_Spec Consumer_Proofs Consumer_Proofs2 Consumer_Proofs3 Consumer_Proofs4 Consumer_Proofs5 Consumer_Proofs6 Consumer_Proofs7 Consumer_Proofs8 Consumer_Proofs9 Equipment_Model Equipment_Spec Equipment_Proofs.
Local Open Scope list_scope.
Local Open Scope nat_scope.

(** ** Validation of pressures *)
Lemma check_pressures_spec : forall s d i,
  (check_pressures s d i = Ok tt /\ (0 < s)%Qc /\ (s <= d)%Qc /\ forall x, i = Some x -> (s <= x)%Qc /\ (x <= d)%Qc) \/
  (check_pressures s d i = Err ValidationError /\ ~ ((0 < s)%Qc /\ (s <= d)%Qc /\ forall x, i = Some x -> (s <= x)%Qc /\ (x <= d)%Qc)).
Proof.
  intros s d i. unfold check_pressures. destruct (Qcleb s 0) eqn:A. { right. apply Qcleb_le in A. split; [reflexivity|]. intros (B & _). qc_lra. } apply Qcleb_gt in A.
  destruct (Qcleb d 0) eqn:B. { right. apply Qcleb_le in B. split; [reflexivity|]. intros (X & Y & _). qc_lra. } apply Qcleb_gt in B.
  destruct i as [x|].
  - destruct (Qcleb x 0) eqn:D. { right. apply Qcleb_le in D. split; [reflexivity|]. intros (X & Y & Z). destruct (Z x eq_refl). qc_lra. } apply Qcleb_gt in D.
    destruct (Qcleb s x) eqn:E; [apply Qcleb_le in E|apply Qcleb_gt in E; right; split; [reflexivity|]; intros (X & Y & Z); destruct (Z x eq_refl); qc_lra].
    destruct (Qcleb x d) eqn:F; [apply Qcleb_le in F|apply Qcleb_gt in F; right; split; [reflexivity|]; intros (X & Y & Z); destruct (Z x eq_refl); qc_lra].
    left. split; [reflexivity|]. split; [exact A|]. split; [qc_lra|]. intros y Y. injection Y as <-. auto.
  - destruct (Qcleb s d) eqn:E; [apply Qcleb_le in E|apply Qcleb_gt in E; right; split; [reflexivity|]; intros (X & Y & Z); qc_lra].
    left. split; [reflexivity|]. split; [exact A|]. split; [exact E|]. discriminate.
Qed.
Definition ordered_at (suction discharge : list Qc) (intermediate : option (list Qc)) (k : nat) : Prop :=
  forall s d, nth_error suction k = Some s -> nth_error discharge k = Some d ->
    (0 < s)%Qc /\ (s <= d)%Qc /\ forall l i, intermediate = Some l -> nth_error l k = Some i -> (s <= i)%Qc /\ (i <= d)%Qc.
Lemma validate_cases : forall mask suction discharge intermediate,
  List.length mask = List.length suction -> List.length discharge = List.length suction ->
  (forall l, intermediate = Some l -> List.length l = List.length suction) ->
  (validate_pressures mask suction discharge intermediate = Ok tt /\ forall k, nth_error mask k = Some true -> ordered_at suction discharge intermediate k) \/
  (validate_pressures mask suction discharge intermediate = Err ValidationError /\ exists k, nth_error mask k = Some true /\ ~ ordered_at suction discharge intermediate k).
Proof.
  intros mask suction. revert mask. induction suction as [|s suction IH]; intros [|b mask] [|d discharge] inter L1 L2 L3; try discriminate.
  - left. split; [reflexivity|]. intros [|k] K; discriminate.
  - cbn [List.length] in L1, L2. injection L1 as L1. injection L2 as L2. cbn [validate_pressures hd_error of_option bind tl].
    assert (exists ih, (match inter with Some l => do i <- of_option IndexError (hd_error l); Ok (Some i) | None => Ok None end = Ok ih) /\
      (forall x, ih = Some x <-> exists l, inter = Some l /\ nth_error l 0 = Some x)) as (ih & Eih & Hih).
    { destruct inter as [[|i l]|]; [specialize (L3 [] eq_refl); discriminate| |].
      - exists (Some i). split; [reflexivity|]. intros x. split; [intros E; exists (i :: l); split; [reflexivity|exact E]|intros (l' & E & K)]. injection E as <-. injection K as <-. reflexivity.
      - exists None. split; [reflexivity|]. intros x. split; [discriminate|intros (l & E & _); discriminate]. }
    rewrite Eih. cbn [bind].
    assert (forall k (i : Qc), (exists l, option_map (@tl Qc) inter = Some l /\ nth_error l k = Some i) <-> exists l, inter = Some l /\ nth_error l (S k) = Some i) as Tl.
    { intros k i. destruct inter as [l0|]; cbn [option_map]; [|split; intros (l & E & _); discriminate]. destruct l0 as [|x l0]; [specialize (L3 [] eq_refl); discriminate|]. cbn [tl]. split; intros (l & E & K); injection E as <-; [exists (x :: l0)|exists l0]; auto. }
    assert (forall k, ordered_at suction discharge (option_map (@tl Qc) inter) k <-> ordered_at (s :: suction) (d :: discharge) inter (S k)) as Next.
    { intros k. unfold ordered_at. cbn [nth_error]. split; intros H s' d' Ks Kd; destruct (H s' d' Ks Kd) as (A & B & D); (split; [exact A|]; split; [exact B|]); intros l i El Ki.
      - destruct (proj2 (Tl k i)) as (l' & El' & Ki'); [exists l; auto|]. now apply (D l' i).
      - destruct (proj1 (Tl k i)) as (l' & El' & Ki'); [exists l; auto|]. now apply (D l' i). }
    assert (ordered_at (s :: suction) (d :: discharge) inter 0 <-> (0 < s)%Qc /\ (s <= d)%Qc /\ forall x, ih = Some x -> (s <= x)%Qc /\ (x <= d)%Qc) as Now.
    { unfold ordered_at. cbn [nth_error]. split.
      - intros H. destruct (H s d eq_refl eq_refl) as (A & B & D). split; [exact A|]. split; [exact B|]. intros x X. apply Hih in X as (l & El & K). now apply (D l x).
      - intros (A & B & D) s' d' Es Ed. injection Es as <-. injection Ed as <-. split; [exact A|]. split; [exact B|]. intros l i El Ki. apply D. apply Hih. exists l. auto. }
    destruct (if b then check_pressures s d ih else Ok tt) as [[]|e] eqn:E.
    + cbn [bind]. assert (Some b = Some true -> ordered_at (s :: suction) (d :: discharge) inter 0) as H0.
      { intros Eb. injection Eb as ->. apply Now. destruct (check_pressures_spec s d ih) as [(_ & H)|[X _]]; [exact H|congruence]. }
      destruct (IH mask discharge (option_map (@tl Qc) inter) L1 L2) as [[Ev H]|[Ev (k & K & H)]].
      { intros l El. destruct inter as [l0|]; [|discriminate]. injection El as <-. specialize (L3 l0 eq_refl). destruct l0; cbn [tl List.length] in *; lia. }
      * left. split; [exact Ev|]. intros [|k] K; [now apply H0|]. apply Next. now apply H.
      * right. split; [exact Ev|]. exists (S k). split; [exact K|]. intros X. apply H. now apply Next.
    + cbn [bind]. destruct b; [|discriminate]. right. destruct (check_pressures_spec s d ih) as [[X _]|[X N]]; [congruence|]. split; [congruence|]. exists 0. split; [reflexivity|]. intros X'. apply N. now apply Now.
Qed.
Lemma validate_pressures_proof : forall mask suction discharge intermediate,
  List.length mask = List.length suction -> List.length discharge = List.length suction ->
  (forall l, intermediate = Some l -> List.length l = List.length suction) ->
  let fine := forall k s d, nth_error mask k = Some true -> nth_error suction k = Some s -> nth_error discharge k = Some d ->
    (0 < s)%Qc /\ (s <= d)%Qc /\ forall l i, intermediate = Some l -> nth_error l k = Some i -> (s <= i)%Qc /\ (i <= d)%Qc in
  (validate_pressures mask suction discharge intermediate = Ok tt /\ fine) \/
  (validate_pressures mask suction discharge intermediate = Err ValidationError /\ ~ fine).
Proof.
  intros mask suction discharge inter L1 L2 L3. cbv zeta. destruct (validate_cases mask suction discharge inter L1 L2 L3) as [[E H]|[E (k & K & H)]]; [left|right]; (split; [exact E|]).
  - intros k s d K. now apply (H k K).
  - intros F. apply H. intros s d. now apply F.
Qed.

(** ** Sums of streams *)
Lemma summed_nth : forall n rs, rs <> [] -> (forall l, In l rs -> List.length l = n) -> List.length (summed rs) = n /\
  forall k, k < n -> nth k (summed rs) 0%Qc = fold_right Qcplus 0%Qc (map (fun l => nth k l 0%Qc) rs).
Proof.
  intros n rs. induction rs as [|r rs IH]; intros Ne H; [congruence|]. destruct rs as [|r' rs].
  - cbn [summed map fold_right]. split; [apply H; now left|]. intros k L. ring.
  - destruct IH as [L V]; [discriminate|intros l I; apply H; now right|]. change (summed (r :: r' :: rs)) with (map2 Qcplus r (summed (r' :: rs))).
    assert (List.length r = n) as Lr by (apply H; now left). split; [rewrite map2_length, L, Lr; lia|].
    intros k K. change (fold_right Qcplus 0%Qc (map (fun l => nth k l 0%Qc) (r :: r' :: rs))) with (nth k r 0%Qc + fold_right Qcplus 0%Qc (map (fun l => nth k l 0%Qc) (r' :: rs)))%Qc. rewrite <- (V k K).
    apply nth_error_nth. rewrite nth_error_map2. rewrite (nth_error_nth' r 0%Qc) by lia. rewrite (nth_error_nth' (summed (r' :: rs)) 0%Qc) by lia. reflexivity.
Qed.

Section Plan.
  Variable pow : Qc -> Qc -> Qc.
  Variables (first : period) (rest : list period) (vars : variables_dict) (vm : variables_map).
  Let ps := first :: rest.
  Let n := List.length ps.
  Hypothesis Evm : make_variables_map ps vars = Ok vm.
  Hypothesis C : contiguous ps.
  Hypothesis Un : forall r l, dict_get String.eqb r vars = Some l -> List.length l = n.
  Variable g : list Qc.
  Hypothesis Lg : List.length g = n.

  (** the rates of a stream *)
  Lemma rate_facts : forall c e, common_ok pow vars n c -> evaluable pow vars n e -> exists ws, List.length ws = n /\
    (forall k w, k < n -> rate_at pow vars n g c e k w <-> nth_error ws k = Some w) /\
    forall i j sub, i < j -> j <= n -> get_subset vm i j = Ok sub ->
      equipment_rate pow sub c (slice i j g) e = if existsb (fun w => Qcltb w 0) (slice i j ws) then Err ValidationError else Ok (slice i j ws).
  Proof.
    intros c e Hc He. destruct (mask_of pow first rest vars vm Evm C Un c Hc) as (mask & Lm & Vm & Sm). fold ps in Lm, Vm, Sm. fold n in Lm, Vm, Sm.
    destruct (variable_facts pow first rest vars vm Evm C Un g Lg c mask Lm Vm "rate" e He) as (ws & Lw & Vw & Sw). fold ps in Lw, Vw, Sw. fold n in Lw, Vw, Sw.
    exists ws. split; [exact Lw|]. split; [exact Vw|]. intros i j sub L1 L2 Es. specialize (Sw i j sub L1 L2 Es). unfold variable_values in Sw. unfold equipment_rate. cbn [fst snd] in Sw.
    destruct (vm_evaluate pow sub (input_tokens e)) as [values|]; cbn [bind] in *; [|discriminate]. rewrite (Sm i j sub L1 L2 Es). cbn [bind]. unfold flow_rates.
    destruct (apply_mask (option_map (slice i j) mask) (map Some values)) as [masked|]; cbn [bind] in *; [|discriminate].
    change (String.eqb (lower "rate") "rate") with true in Sw. cbv iota in Sw. destruct (rates_to_stream_day masked (map Some (slice i j g))) as [r|]; cbn [bind] in *; [|discriminate].
    assert (r = map Some (slice i j ws)) as -> by congruence. clear.
    assert (existsb (fun r : num => match r with Some q => Qcltb q 0 | None => false end) (map Some (slice i j ws)) = existsb (fun w => Qcltb w 0) (slice i j ws)) as ->.
    { induction (slice i j ws) as [|w l IH]; [reflexivity|]. cbn [map existsb]. now rewrite IH. }
    destruct (existsb _ _); cbn [bind]; [reflexivity|]. induction (slice i j ws) as [|w l IH]; [reflexivity|]. cbn [map mapM of_option bind]. now rewrite IH.
  Qed.
  Lemma rates_facts : forall c es, common_ok pow vars n c -> (forall e, In e es -> evaluable pow vars n e) -> exists rs, (forall l, In l rs -> List.length l = n) /\ List.length rs = List.length es /\
    (forall k, k < n -> forall ws, Forall2 (fun e w => rate_at pow vars n g c e k w) es ws <-> ws = map (fun l => nth k l 0%Qc) rs) /\
    forall i j sub, i < j -> j <= n -> get_subset vm i j = Ok sub ->
      mapM (equipment_rate pow sub c (slice i j g)) es = if existsb (existsb (fun w => Qcltb w 0)) (map (slice i j) rs) then Err ValidationError else Ok (map (slice i j) rs).
  Proof.
    intros c es Hc. induction es as [|e es IH]; intros He.
    - exists []. split; [intros l []|]. split; [reflexivity|]. split; [|reflexivity]. intros k L ws. split; [intros F; now inversion F|intros ->; constructor].
    - destruct IH as (rs & L & Ln & V & S). { intros x I. apply He. now right. } destruct (rate_facts c e Hc (He e (or_introl eq_refl))) as (r & Lr & Vr & Sr).
      exists (r :: rs). split; [intros l [<-|I]; auto|]. split; [cbn; congruence|]. split.
      + intros k K ws. cbn [map]. assert (nth_error r k = Some (nth k r 0%Qc)) as Kr by (apply nth_error_nth'; lia). split.
        * intros F. inversion F as [|e' w es' ws' Hw F']; subst. apply (Vr k w K) in Hw. rewrite Kr in Hw. injection Hw as <-. f_equal. now apply (V k K).
        * intros ->. constructor; [now apply Vr|now apply (V k K)].
      + intros i j sub L1 L2 Es. cbn [mapM map existsb]. rewrite (Sr i j sub L1 L2 Es). destruct (existsb _ (slice i j r)); [reflexivity|]. cbn [bind orb]. rewrite (S i j sub L1 L2 Es). now destruct (existsb _ _).
  Qed.

  (** optional expressions *)
  Definition optional_values (sub : variables_map) (e : option expression_input) : result (option (list Qc)) :=
    match e with Some e => do v <- vm_evaluate pow sub (input_tokens e); Ok (Some v) | None => Ok None end.
  Lemma optional_facts : forall e, all_evaluable pow vars n e -> exists o, (forall l, o = Some l -> List.length l = n) /\ (o = None <-> e = None) /\
    (forall k v, k < n -> optional_at pow vars n e k v <-> v = option_map (fun l => nth k l 0%Qc) o) /\
    forall i j sub, i < j -> j <= n -> get_subset vm i j = Ok sub -> optional_values sub e = Ok (option_map (slice i j) o) /\
      forall mask, optional_pressures pow sub mask e = match o with
        | Some l => if existsb (fun x => snd x && Qcltb (fst x) 0)%bool (zip (slice i j l) mask) then Err ValidationError else Ok (Some (slice i j l))
        | None => Ok None end.
  Proof.
    intros [e|] H; cbn [all_evaluable] in H.
    - destruct (vector_of pow first rest vars vm Evm C Un e H) as (v & Lv & Vv & Sv). fold ps in Lv, Vv, Sv. fold n in Lv, Vv, Sv. exists (Some v). split; [intros l E; congruence|]. split; [split; discriminate|]. split.
      + intros k w L. cbn [optional_at option_map]. assert (nth_error v k = Some (nth k v 0%Qc)) as K by (apply nth_error_nth'; lia). split.
        * intros (x & -> & X). apply (Vv k x L) in X. congruence.
        * intros ->. exists (nth k v 0%Qc). split; [reflexivity|]. now apply Vv.
      + intros i j sub L1 L2 Es. unfold optional_values, optional_pressures, pressure_values. rewrite (Sv i j sub L1 L2 Es). cbn [bind]. split; [reflexivity|]. intros mask. now destruct (existsb _ _).
    - exists None. split; [discriminate|]. split; [tauto|]. split; [intros k v L; reflexivity|]. intros i j sub L1 L2 Es. split; reflexivity.
  Qed.
End Plan.

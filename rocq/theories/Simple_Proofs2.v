(** Proofs about comparing results: components. *)
From Coq Require Import String PeanoNat.
From Verif Require Import QcTac Base BaseLemmas Num Input_Proofs System_Proofs3 Time_Model Time_Spec Time_Proofs Time_Proofs2 Simple_Model Simple_Spec Simple_Proofs.
Local Open Scope list_scope.

Definition taken {A} (is : list nat) (vs vs' : list A) : Prop := Forall2 (fun i v => nth_error vs i = Some v) is vs'.

Lemma take_ok : forall A (vs : list A) is, (forall i, In i is -> (i < List.length vs)%nat) -> exists vs', take vs is = Ok vs' /\ taken is vs vs'.
Proof.
  intros A vs is H. unfold take, taken. apply mapM_exists. intros i Hi. destruct (nth_error vs i) as [v|] eqn:E; [exists v; auto|].
  apply nth_error_None in E. specialize (H i Hi). lia.
Qed.

Lemma dict_fold : forall A V (k : A -> string) (v : A -> V) l acc, NoDup (map fst acc ++ map k l) ->
  fold_left (fun d e => dict_set String.eqb (k e) (v e) d) l acc = acc ++ map (fun e => (k e, v e)) l.
Proof.
  induction l as [|e l IH]; intros acc N; cbn [fold_left map]; [now rewrite app_nil_r|].
  rewrite dict_set_new. 2:{ cbn [map] in N. apply NoDup_remove_2 in N. intros H. apply N. apply in_or_app. now left. }
  rewrite IH, <- app_assoc; [reflexivity|]. rewrite map_app, <- app_assoc. exact N.
Qed.

(** looking up an emission *)
Lemma find_name : forall V (l : list (string * V)) n e, NoDup (map fst l) ->
  (find (fun e => String.eqb (fst e) n) l = Some e <-> In e l /\ fst e = n).
Proof.
  intros V l n e N. split.
  - intros H. apply find_some in H as [H1 H2]. apply String.eqb_eq in H2. auto.
  - intros [H1 H2]. induction l as [|x l IH]; [destruct H1|]. cbn [find]. inversion N as [|? ? NI N']; subst. destruct H1 as [->|H1].
    + now rewrite String.eqb_refl.
    + destruct (String.eqb_spec (fst x) (fst e)) as [E|E]; [|auto]. exfalso. apply NI. rewrite E. now apply in_map.
Qed.
Lemma find_no_name : forall V (l : list (string * V)) n,
  find (fun e => String.eqb (fst e) n) l = None <-> ~ In n (map fst l).
Proof.
  intros V l n. split.
  - intros H I. apply in_map_iff in I as (e & E & I). pose proof (find_none _ _ H e I) as Q. cbn in Q. rewrite E, String.eqb_refl in Q. discriminate.
  - intros H. destruct (find _ l) as [e|] eqn:E; auto. apply find_some in E as [E1 E2]. apply String.eqb_eq in E2. destruct H. rewrite <- E2. now apply in_map.
Qed.
Lemma emission_series : forall c n vs, NoDup (map fst (c_emissions c)) ->
  (series (Emission n) c = Some vs <-> exists e, In (n, e) (c_emissions c) /\ em_rate e = vs).
Proof.
  intros c n vs N. cbn [series]. split.
  - destruct (find _ _) as [[n' e]|] eqn:E; [|discriminate]. apply find_name in E as [E1 E2]; [|exact N]. cbn in E2. subst n'. cbn. intros [= <-]. eauto.
  - intros (e & I & <-). assert (find (fun x => String.eqb (fst x) n) (c_emissions c) = Some (n, e)) as -> by (apply find_name; auto). reflexivity.
Qed.

(** ** Fitting a component *)
Definition fitted (is : list nat) (T : list period) (c c' : component) : Prop :=
  id_of c' = id_of c /\ c_level c' = c_level c /\ c_parent c' = c_parent c /\ c_unit c' = c_unit c /\ c_periods c' = T /\
  taken is (c_valid c) (c_valid c') /\ taken is (c_energy c) (c_energy c') /\
  match c_power c with Some p => exists p', c_power c' = Some p' /\ taken is p p' | None => c_power c' = Some [] end /\
  Forall2 (fun e e' => fst e' = fst e /\ em_name (snd e') = fst e /\ taken is (em_rate (snd e)) (em_rate (snd e'))) (c_emissions c) (c_emissions c').

Lemma proper_names : forall ps c, proper_component ps c -> emission_names c = map fst (c_emissions c).
Proof.
  intros ps c (_ & _ & _ & _ & _ & N & K). unfold emission_names.
  assert (map (fun e => em_name (snd e)) (c_emissions c) = map fst (c_emissions c)) as E.
  { apply map_ext_in. intros [n e] I. cbn. now apply K in I as [-> _]. }
  rewrite (dict_fold _ unit (fun e => em_name (snd e)) (fun _ => tt)); cbn [app map]; [|now rewrite E]. rewrite map_map. cbn [fst]. exact E.
Qed.

Lemma fit_ok : forall ps T is c, proper_component ps c -> picks 0 ps T = Ok is -> (forall i, In i is -> (i < List.length ps)%nat) ->
  exists c', fit_component c T = Ok c' /\ fitted is T c c'.
Proof.
  intros ps T is c P EI B. pose proof (proper_names _ _ P) as EN. destruct P as (P1 & P2 & PB & P3 & P4 & P5 & P6).
  unfold fit_component. rewrite P1, EI. cbn [bind].
  destruct (take_ok _ (c_energy c) is) as (en & E1 & T1); [rewrite P3; exact B|].
  destruct (take_ok _ (c_valid c) is) as (va & E2 & T2); [rewrite P2; exact B|].
  assert (exists pw, match c_power c with Some p => take p is | None => Ok [] end = Ok pw /\
    match c_power c with Some p => taken is p pw | None => pw = [] end) as (pw & E3 & T3).
  { destruct (c_power c) as [p|]; [|eauto]. apply take_ok. rewrite (P4 p eq_refl). exact B. }
  rewrite E3. cbn [bind]. rewrite E1. cbn [bind]. rewrite E2. cbn [bind]. rewrite EN.
  match goal with |- context [mapM ?f (map fst (c_emissions c))] =>
    assert (exists es, mapM f (map fst (c_emissions c)) = Ok es /\
      Forall2 (fun e e' => fst e' = fst e /\ em_name (snd e') = fst e /\ taken is (em_rate (snd e)) (em_rate (snd e'))) (c_emissions c) es) as (es & E4 & T4) end.
  { assert (forall l, (forall n e, In (n, e) l -> dict_get String.eqb n (c_emissions c) = Some e /\ List.length (em_rate e) = List.length ps) ->
      exists es, mapM (fun n => do rate <- mapM (fun i => do e <- of_option KeyError (dict_get String.eqb n (c_emissions c)); of_option IndexError (nth_error (em_rate e) i)) is;
        Ok (n, mkEmission n rate)) (map fst l) = Ok es /\
      Forall2 (fun e e' => fst e' = fst e /\ em_name (snd e') = fst e /\ taken is (em_rate (snd e)) (em_rate (snd e'))) l es) as G.
    { induction l as [|[n e] l IH]; intros H; [exists []; split; [reflexivity|constructor]|]. destruct IH as (es & E & F); [intros; apply H; now right|].
      destruct (H n e (or_introl eq_refl)) as [Hg Hl]. cbn [map fst mapM]. rewrite Hg. cbn [of_option bind].
      destruct (take_ok _ (em_rate e) is) as (r & Er & Tr); [rewrite Hl; exact B|]. unfold take in Er. rewrite Er. cbn [bind]. rewrite E. cbn [bind].
      eexists. split; [reflexivity|]. constructor; [|exact F]. cbn. auto. }
    apply G. intros n e I. split; [|now apply P6 in I as [_ ?]]. apply dict_get_NoDup; auto. intros. apply String.eqb_eq. }
  rewrite E4. cbn [bind]. eexists. split; [reflexivity|]. unfold fitted, id_of. cbn. repeat split; auto.
  destruct (c_power c) as [p|]; [eauto|congruence].
Qed.

Lemma fitted_names : forall is T c c', fitted is T c c' -> map fst (c_emissions c') = map fst (c_emissions c).
Proof.
  intros is T c c' (_ & _ & _ & _ & _ & _ & _ & _ & F). induction F as [|e e' l l' (H & _) F IH]; [reflexivity|]. cbn. now rewrite IH, H.
Qed.
Lemma Forall2_in_l : forall A B (R : A -> B -> Prop) l m a, Forall2 R l m -> In a l -> exists b, In b m /\ R a b.
Proof. intros A B R l m a F. induction F as [|x y l m H F IH]; intros I; [destruct I|]. destruct I as [->|I]; [exists y; split; [now left|auto]|]. destruct (IH I) as (b & Hb & Rb). exists b. split; [now right|auto]. Qed.
Lemma Forall2_in_r : forall A B (R : A -> B -> Prop) l m b, Forall2 R l m -> In b m -> exists a, In a l /\ R a b.
Proof. intros A B R l m a F. induction F as [|x y l m H F IH]; intros I; [destruct I|]. destruct I as [->|I]; [exists x; split; [now left|auto]|]. destruct (IH I) as (b & Hb & Rb). exists b. split; [now right|auto]. Qed.

(** a series of a fitted component *)
Lemma fitted_series : forall is T c c' q vs, fitted is T c c' -> NoDup (map fst (c_emissions c)) -> series q c = Some vs ->
  exists vs', series q c' = Some vs' /\ taken is vs vs'.
Proof.
  intros is T c c' q vs F N E. pose proof (fitted_names _ _ _ _ F) as EN. destruct F as (_ & _ & _ & _ & _ & _ & F1 & F2 & F3). destruct q as [| |n].
  - cbn in E. injection E as <-. cbn. eauto.
  - cbn in E. rewrite E in F2. exact F2.
  - apply emission_series in E as (e & I & <-); [|exact N]. destruct (Forall2_in_l _ _ _ _ _ _ F3 I) as ([n' e'] & I' & Q1 & Q2 & Q3). cbn in *. subst n'.
    exists (em_rate e'). split; [|exact Q3]. apply emission_series; [now rewrite EN|eauto].
Qed.

(** the value at an instant *)
Lemma taken_value : forall A ps T is (vs vs' : list A) d v, contiguous ps -> contiguous T -> List.length is = List.length T ->
  (forall j x, nth_error is j = Some x -> exists q u, nth_error ps x = Some q /\ nth_error T j = Some u /\ p_start q <= p_start u /\ p_end u <= p_end q) ->
  taken is vs vs' -> (exists j u, nth_error T j = Some u /\ In_period d u) -> value_on ps vs d v -> value_on T vs' d v.
Proof.
  intros A ps T is vs vs' d v C CT L H F (j & u & Eu & Du) (i & p & Ep & Dp & Ev).
  assert (j < List.length is)%nat as Hj. { rewrite L. apply nth_error_Some. congruence. }
  destruct (nth_error is j) as [x|] eqn:Ex; [|apply nth_error_None in Ex; lia].
  destruct (H j x Ex) as (q & u' & Q1 & Q2 & Q3 & Q4). assert (u' = u) as -> by congruence.
  assert (x = i) as ->. { apply (contiguous_unique ps d x i q p); auto. unfold In_period in *. lia. }
  exists j, u. split; [exact Eu|]. split; [exact Du|].
  assert (forall k y, nth_error is k = Some y -> exists w, nth_error vs' k = Some w /\ nth_error vs y = Some w) as G.
  { clear -F. induction F as [|a b l m R F IH]; intros [|k] y E; try discriminate; cbn in E; [injection E as <-; exists b; auto|]. exact (IH k y E). }
  destruct (G j i Ex) as (w & W1 & W2). congruence.
Qed.

(** ** Normalising components *)
Definition zero_emission (n : nat) (name : string) : string * emission := (name, mkEmission name (zeros n)).
Definition missing (c : component) (names : list string) : list string := filter (fun n => negb (existsb (String.eqb n) (map fst (c_emissions c)))) names.

Lemma existsb_name : forall n l, existsb (String.eqb n) l = true <-> In n l.
Proof.
  intros n l. rewrite existsb_exists. split; [intros (x & I & E); apply String.eqb_eq in E; now subst|]. intros I. exists n. split; [exact I|apply String.eqb_refl].
Qed.
Lemma missing_In : forall c names n, In n (missing c names) <-> In n names /\ ~ In n (map fst (c_emissions c)).
Proof.
  intros. unfold missing. rewrite filter_In. rewrite negb_true_iff. split; intros [H1 H2]; (split; [exact H1|]).
  - intros I. apply existsb_name in I. congruence.
  - destruct (existsb _ _) eqn:E; auto. apply existsb_name in E. contradiction.
Qed.

Definition with_emissions (c : component) (es : list (string * emission)) : component :=
  mkComponent (c_type c) (c_level c) (c_parent c) (c_name c) (c_periods c) (c_valid c) es (c_energy c) (c_unit c) (c_power c).

Lemma add_missing_ok : forall names c, NoDup names ->
  add_missing names c = with_emissions c (c_emissions c ++ map (zero_emission (List.length (c_periods c))) (missing c names)).
Proof.
  induction names as [|n names IH]; intros c N; [destruct c; cbn; now rewrite app_nil_r|].
  inversion N as [|? ? NI N']; subst. cbn [add_missing fold_left]. fold (add_missing names).
  destruct (dict_get String.eqb n (c_emissions c)) as [e|] eqn:E.
  - change (fold_left _ names c) with (add_missing names c). rewrite IH by exact N'. do 3 f_equal. unfold missing. cbn [filter].
    assert (existsb (String.eqb n) (map fst (c_emissions c)) = true) as ->; [|reflexivity]. apply existsb_name.
    apply dict_get_In in E; [|intros; apply String.eqb_eq]. apply in_map_iff. exists (n, e). auto.
  - assert (~ In n (map fst (c_emissions c))) as NK. { apply dict_get_None in E; auto. intros; apply String.eqb_eq. }
    match goal with |- fold_left _ names ?c' = _ => change (fold_left _ names c') with (add_missing names c') end.
    rewrite IH by exact N'. unfold with_emissions. cbn [c_type c_level c_parent c_name c_periods c_valid c_emissions c_energy c_unit c_power]. f_equal.
    rewrite dict_set_new by exact NK. rewrite <- app_assoc. f_equal. unfold missing. cbn [filter c_emissions].
    assert (existsb (String.eqb n) (map fst (c_emissions c)) = false) as EX. { destruct (existsb _ _) eqn:X; auto. apply existsb_name in X. contradiction. }
    rewrite EX. cbn [negb map app]. f_equal. f_equal. apply filter_ext_in. intros m Im. rewrite map_app, existsb_app. cbn [map fst existsb].
    destruct (String.eqb_spec m n) as [->|D]; [contradiction|]. now rewrite !orb_false_r.
Qed.

Lemma NoDup_join : forall A (l m : list A), NoDup l -> NoDup m -> (forall x, In x l -> ~ In x m) -> NoDup (l ++ m).
Proof.
  induction l as [|x l IH]; intros m N1 N2 D; [exact N2|]. inversion N1 as [|? ? NI N1']; subst. cbn. constructor.
  - intros H. apply in_app_or in H as [H|H]; [contradiction|]. apply (D x); [now left|exact H].
  - apply IH; auto. intros y Hy. apply D. now right.
Qed.
Lemma zeros_length : forall n, List.length (zeros n) = n. Proof. intros. apply repeat_length. Qed.

Lemma add_missing_proper : forall ps c names, proper_component ps c -> NoDup names -> proper_component ps (add_missing names c).
Proof.
  intros ps c names (P1 & P2 & PB & P3 & P4 & P5 & P6) N. rewrite add_missing_ok by exact N. unfold proper_component. cbn [c_periods c_valid c_energy c_power c_emissions with_emissions].
  split; [exact P1|]. split; [exact P2|]. split; [exact PB|]. split; [exact P3|]. split; [exact P4|]. split.
  - rewrite map_app, map_map. cbn [zero_emission fst]. rewrite map_id. apply NoDup_join; [exact P5|now apply NoDup_filter|]. intros x Hx Hm. apply missing_In in Hm as [_ Hm]. contradiction.
  - intros n e I. apply in_app_or in I as [I|I]; [now apply P6|]. apply in_map_iff in I as (m & [= <- <-] & _). cbn. rewrite zeros_length. now rewrite P1.
Qed.

Lemma empty_proper : forall ps c, proper_component ps c -> proper_component ps (create_empty_component c) /\
  c_emissions (create_empty_component c) = map (zero_emission (List.length ps)) (map fst (c_emissions c)).
Proof.
  intros ps c (P1 & P2 & PB & P3 & P4 & P5 & P6).
  assert (map (fun e => em_name (snd e)) (c_emissions c) = map fst (c_emissions c)) as E.
  { apply map_ext_in. intros [n e] I. cbn. now apply P6 in I as [-> _]. }
  assert (c_emissions (create_empty_component c) = map (zero_emission (List.length ps)) (map fst (c_emissions c))) as EE.
  { unfold create_empty_component. cbn [c_emissions]. rewrite (dict_fold _ _ (fun e => em_name (snd e)) (fun e => mkEmission (em_name (snd e)) (zeros (List.length (c_periods c))))).
    - cbn [app]. rewrite P1, <- E, map_map. reflexivity.
    - cbn [map app]. now rewrite E. }
  split; [|exact EE]. unfold proper_component. rewrite EE. cbn [create_empty_component c_periods c_valid c_energy c_power]. rewrite P1, zeros_length, repeat_length.
  split; [reflexivity|]. split; [reflexivity|]. split; [intros z Iz; apply repeat_spec in Iz; auto|]. split; [reflexivity|]. split; [intros p [= <-]; apply zeros_length|]. split.
  - rewrite map_map. cbn. now rewrite map_id.
  - intros n e I. apply in_map_iff in I as (m & [= <- <-] & _). cbn. split; [reflexivity|apply zeros_length].
Qed.

(** the series of a component after adding emissions *)
Lemma missing_series : forall ps c names q vs, proper_component ps c -> NoDup names -> series q c = Some vs -> series q (add_missing names c) = Some vs.
Proof.
  intros ps c names q vs P N E. pose proof (add_missing_proper _ _ _ P N) as P'. pose proof (add_missing_ok names c N) as EA.
  destruct q as [| |n]; [rewrite EA; exact E|rewrite EA; exact E|].
  destruct P as (_ & _ & _ & _ & _ & P5 & _). destruct P' as (_ & _ & _ & _ & _ & P5' & _).
  apply emission_series in E as (e & I & Ee); [|exact P5]. apply emission_series; [exact P5'|]. exists e. split; [|exact Ee]. rewrite EA. cbn [with_emissions c_emissions]. apply in_or_app. now left.
Qed.
Lemma added_series : forall ps c names n, proper_component ps c -> NoDup names -> series (Emission n) c = None -> In n names ->
  series (Emission n) (add_missing names c) = Some (zeros (List.length ps)).
Proof.
  intros ps c names n P N E I. pose proof (add_missing_proper _ _ _ P N) as P'. pose proof (add_missing_ok names c N) as EA.
  destruct P as (P1 & _ & _ & _ & _ & P5 & _). destruct P' as (_ & _ & _ & _ & _ & P5' & _).
  apply emission_series; [exact P5'|]. exists (mkEmission n (zeros (List.length ps))). split; [|reflexivity]. rewrite EA. cbn [with_emissions c_emissions]. apply in_or_app. right.
  apply in_map_iff. exists n. rewrite P1. split; [reflexivity|]. apply missing_In. split; [exact I|]. cbn [series] in E.
  destruct (find _ _) eqn:F; [discriminate|]. now apply find_no_name in F.
Qed.
Lemma empty_series : forall ps c q vs, proper_component ps c -> series q (create_empty_component c) = Some vs -> vs = zeros (List.length ps).
Proof.
  intros ps c q vs P E. destruct (empty_proper _ _ P) as [P' EE]. destruct P as (P1 & _). destruct P' as (_ & _ & _ & _ & _ & P5 & _). destruct q as [| |n].
  - cbn in E. rewrite P1 in E. congruence.
  - cbn in E. rewrite P1 in E. congruence.
  - apply emission_series in E as (e & I & <-); [|exact P5]. rewrite EE in I. apply in_map_iff in I as (m & [= <- <-] & _). reflexivity.
Qed.
Lemma names_after : forall c names n, NoDup names -> (In n (map fst (c_emissions (add_missing names c))) <-> In n (map fst (c_emissions c)) \/ In n names).
Proof.
  intros c names n N. rewrite add_missing_ok by exact N. cbn [with_emissions c_emissions]. rewrite map_app, in_app_iff, map_map. cbn [zero_emission fst]. rewrite map_id, missing_In.
  destruct (in_dec string_dec n (map fst (c_emissions c))); tauto.
Qed.

(** ** Subtracting *)
Lemma periods_eqb_refl : forall l, periods_eqb l l = true.
Proof. induction l as [|p l IH]; [reflexivity|]. cbn. rewrite IH. unfold period_eqb. now rewrite !Z.eqb_refl. Qed.
Lemma id_eqb_spec : forall a b, id_eqb a b = true <-> a = b.
Proof.
  intros [a1 a2] [b1 b2]. unfold id_eqb. cbn. rewrite andb_true_iff, !String.eqb_eq. split; [intros [-> ->]; reflexivity|intros [= -> ->]; auto].
Qed.

Lemma sorted_names : forall l, Sorted (fun a b => String.leb a b = true) (map em_name (sort name_leb l)).
Proof.
  intros l. assert (Sorted (fun a b => name_leb a b = true) (sort name_leb l)) as S by (apply sort_Sorted; intros x y; apply leb_total).
  induction S as [|x m S IH H]; [constructor|]. cbn. constructor; [exact IH|]. destruct H; constructor. assumption.
Qed.
Lemma leb_antisym : forall a b, String.leb a b = true -> String.leb b a = true -> a = b.
Proof. intros. now apply String.leb_antisym. Qed.

Definition difference (a b : string * emission) : string * emission :=
  (em_name (snd a), mkEmission (em_name (snd a)) (subtract_list (em_rate (snd a)) (em_rate (snd b)))).

Lemma subtract_emissions_ok : forall la lb : list (string * emission),
  NoDup (map fst la) -> NoDup (map fst lb) -> (forall n e, In (n, e) la -> em_name e = n) -> (forall n e, In (n, e) lb -> em_name e = n) ->
  (forall n, In n (map fst la) <-> In n (map fst lb)) ->
  let sa := sort name_leb (map snd la) in let sb := sort name_leb (map snd lb) in
  exists es, mapM (fun ab => do e <- subtract_emission (fst ab) (snd ab); Ok (em_name (fst ab), e)) (zip sa sb) = Ok es /\
    fold_left (fun d e => dict_set String.eqb (fst e) (snd e) d) es [] = es /\
    map fst es = map em_name sa /\ map em_name sb = map em_name sa /\ NoDup (map fst es) /\
    es = map2 (fun a b => (em_name a, mkEmission (em_name a) (subtract_list (em_rate a) (em_rate b)))) sa sb /\
    (forall n e f, In (n, e) la -> In (n, f) lb -> In (n, mkEmission n (subtract_list (em_rate e) (em_rate f))) es).
Proof.
  intros la lb Na Nb Ka Kb K sa sb.
  assert (map em_name (map snd la) = map fst la) as Ea by (rewrite map_map; apply map_ext_in; intros [n e] I; now apply Ka in I).
  assert (map em_name (map snd lb) = map fst lb) as Eb by (rewrite map_map; apply map_ext_in; intros [n e] I; now apply Kb in I).
  pose proof (sort_perm _ name_leb (map snd la)) as Pa. pose proof (sort_perm _ name_leb (map snd lb)) as Pb. fold sa in Pa. fold sb in Pb.
  assert (Permutation (map fst la) (map em_name sa)) as Qa by (rewrite <- Ea; now apply Permutation_map).
  assert (Permutation (map fst lb) (map em_name sb)) as Qb by (rewrite <- Eb; now apply Permutation_map).
  assert (NoDup (map em_name sa)) as Nsa by (eapply Permutation_NoDup; eauto). assert (NoDup (map em_name sb)) as Nsb by (eapply Permutation_NoDup; eauto).
  assert (map em_name sb = map em_name sa) as ES.
  { apply (sorted_unique _ (fun a b => String.leb a b = true)); auto using leb_antisym; try apply sorted_names.
    - exact leb_trans.
    - intros n. split; intros I.
      + apply (Permutation_in n Qa). apply K. apply (Permutation_in n (Permutation_sym Qb)). exact I.
      + apply (Permutation_in n Qb). apply K. apply (Permutation_in n (Permutation_sym Qa)). exact I. }
  set (es := map2 (fun a b => (em_name a, mkEmission (em_name a) (subtract_list (em_rate a) (em_rate b)))) sa sb).
  assert (forall l m, map em_name m = map em_name l -> mapM (fun ab => do e <- subtract_emission (fst ab) (snd ab); Ok (em_name (fst ab), e)) (zip l m) =
    Ok (map2 (fun a b => (em_name a, mkEmission (em_name a) (subtract_list (em_rate a) (em_rate b)))) l m)) as G.
  { induction l as [|a l IH]; intros [|b m] E; try discriminate; [reflexivity|]. cbn [map] in E. injection E as E1 E2. cbn [zip combine mapM fst snd map2].
    unfold subtract_emission. rewrite E1, String.eqb_refl. cbn [negb bind]. unfold zip in IH. rewrite IH by exact E2. reflexivity. }
  assert (forall l m, map em_name m = map em_name l -> map fst (map2 (fun a b => (em_name a, mkEmission (em_name a) (subtract_list (em_rate a) (em_rate b)))) l m) = map em_name l) as G2.
  { induction l as [|a l IH]; intros [|b m] E; try discriminate; [reflexivity|]. cbn [map] in E. injection E as E1 E2. cbn [map2 map fst]. now rewrite IH. }
  exists es. split; [apply G; exact ES|]. pose proof (G2 sa sb ES) as EF. fold es in EF.
  assert (NoDup (map fst es)) as Nes by (rewrite EF; exact Nsa).
  split. { rewrite (dict_fold _ _ fst snd); [|cbn [map app]; exact Nes]. cbn [app]. rewrite <- (map_id es) at 2. apply map_ext. intros [x y]. reflexivity. }
  split; [exact EF|]. split; [exact ES|]. split; [exact Nes|]. split; [reflexivity|].
  intros n e f Ie If. pose proof (Ka _ _ Ie) as Ee. pose proof (Kb _ _ If) as Ef.
  assert (In e sa) as Se by (apply (Permutation_in e Pa); apply in_map_iff; exists (n, e); auto).
  assert (In f sb) as Sf by (apply (Permutation_in f Pb); apply in_map_iff; exists (n, f); auto).
  assert (forall l m, map em_name m = map em_name l -> NoDup (map em_name l) -> In e l -> In f m -> em_name e = em_name f ->
    In (em_name e, mkEmission (em_name e) (subtract_list (em_rate e) (em_rate f))) (map2 (fun a b => (em_name a, mkEmission (em_name a) (subtract_list (em_rate a) (em_rate b)))) l m)) as G3.
  { clear. induction l as [|a l IH]; intros [|b m] E N I1 I2 EN; try discriminate; [destruct I1|]. cbn [map] in E, N. injection E as E1 E2. inversion N as [|? ? NI N']; subst. cbn [map2].
    destruct I1 as [->|I1]; destruct I2 as [->|I2].
    - now left.
    - exfalso. apply NI. rewrite EN, <- E2. now apply in_map.
    - exfalso. apply NI. rewrite <- E1, <- EN. now apply in_map.
    - right. now apply IH. }
  rewrite <- Ee. apply G3; auto. congruence.
Qed.

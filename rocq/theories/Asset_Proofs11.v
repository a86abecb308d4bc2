(** The totals of an asset. *)
From Coq Require Import PeanoNat String Lia Permutation.
From Verif Require Import QcTac Base BaseLemmas Time_Model Time_Spec Num Expr_Model Vars_Model Units_Model Rates_Model Rates_Spec Rates_Proofs
  Input_Model Interp_Model Energy_Model Emitters_Model Emitters_Spec Emitters_Proofs2
  Consumer_Model Graph_Model Totals_Model Totals_Spec Totals_Proofs4 Asset_Model Asset_Spec Asset_Proofs Asset_Proofs2 Asset_Proofs3 Asset_Proofs4 Asset_Proofs5
  Asset_Proofs8 Report_Spec Asset_Proofs9 Asset_Proofs10.
Local Open Scope list_scope.
Local Open Scope nat_scope.

(** ** Sums *)
Lemma qsum_flat : forall A B (f : B -> Qc) (h : A -> list B) l, qsum (map f (flat_map h l)) = qsum (map (fun x => qsum (map f (h x))) l).
Proof. intros A B f h l. induction l as [|a l IH]; [reflexivity|]. cbn [flat_map map]. rewrite map_app, qsum_app, IH. reflexivity. Qed.
Lemma qsum_scaled : forall A (f : A -> Qc) g l, qsum (map (fun x => f x * g)%Qc l) = (g * qsum (map f l))%Qc.
Proof. intros A f g l. induction l as [|a l IH]; [cbn; ring|]. cbn [map]. change (qsum (?x :: ?l)) with (x + qsum l)%Qc. rewrite IH. ring. Qed.
Lemma nth_map2 : forall A B C (f : A -> B -> C) l m k a b, nth_error l k = Some a -> nth_error m k = Some b -> nth_error (map2 f l m) k = Some (f a b).
Proof.
  intros A B C f l. induction l as [|x l IH]; intros m k a b Ha Hb; [destruct k; discriminate|]. destruct m as [|y m]; [destruct k; discriminate|].
  destruct k; cbn in *; [congruence|]. now apply IH.
Qed.
Lemma map2_len : forall A B C (f : A -> B -> C) l m, length m = length l -> length (map2 f l m) = length l.
Proof. intros A B C f l. induction l as [|x l IH]; intros [|y m] L; cbn in *; try discriminate; auto. Qed.
Lemma calendar_rated : forall ps reg u v k g, length v = length ps -> length reg = length ps -> nth_error reg k = Some g ->
  number_at (calendar_rates (rated ps reg u v)) k = (number_at v k * g)%Qc.
Proof.
  intros ps reg u v k g Lv Lr Eg. unfold calendar_rates, rated. cbn [r_type r_values r_regularity].
  destruct (nth_error v k) as [x|] eqn:Ex.
  - unfold number_at. rewrite Ex. assert (Em : nth_error (map Some reg) k = Some (Some g)) by (rewrite nth_error_map, Eg; reflexivity).
    rewrite (nth_map2 _ _ _ nmul _ _ _ _ _ Ex Em). destruct x as [x|]; cbn; [reflexivity|ring].
  - apply nth_error_None in Ex. assert (k < length reg) by (apply nth_error_Some; congruence). lia.
Qed.

(** ** One name in dictionaries *)
Lemma emitted_cons : forall name d l, emitted name (d :: l) = emitted name [d] ++ emitted name l.
Proof. intros name d l. unfold emitted. cbn [concat]. rewrite filter_app, map_app, app_nil_r. reflexivity. Qed.
Lemma emitted_app : forall name a b, emitted name (a ++ b) = emitted name a ++ emitted name b.
Proof. intros name a b. unfold emitted. now rewrite concat_app, filter_app, map_app. Qed.
Lemma emitted_none : forall name d, ~ In name (map fst d) -> emitted name [d] = [].
Proof.
  intros name d H. unfold emitted. cbn [concat]. rewrite app_nil_r. induction d as [|[x s] d IH]; [reflexivity|]. cbn [filter fst].
  destruct (String.eqb_spec x name) as [->|N]; [destruct H; now left|]. apply IH. intros I. apply H. now right.
Qed.
Lemma emitted_one : forall name d, NoDup (map fst d) -> In name (map fst d) -> exists s, In (name, s) d /\ emitted name [d] = [s].
Proof.
  intros name d. induction d as [|[x s] d IH]; intros N I; [destruct I|]. inversion N; subst. cbn in I. unfold emitted. cbn [concat]. rewrite app_nil_r. cbn [filter fst].
  destruct (String.eqb_spec x name) as [->|Ne].
  - exists s. split; [now left|]. cbn [map snd]. f_equal. pose proof (emitted_none name d H1) as X. unfold emitted in X. cbn [concat] in X. now rewrite app_nil_r in X.
  - destruct I as [E|I]; [congruence|]. destruct (IH H2 I) as (s' & I' & E). exists s'. split; [now right|]. unfold emitted in E. cbn [concat] in E. now rewrite app_nil_r in E.
Qed.

Section Dicts.
  Variables (ps : list period) (reg : list Qc).
  Hypothesis Lreg : length reg = length ps.
  Lemma dict_amount : forall listed (amount : string -> nat -> Qc -> Prop) d name k g, emission_dict ps reg listed amount d -> k < length ps -> nth_error reg k = Some g ->
    exists x, amount name k x /\ qsum (map (fun r => number_at (calendar_rates r) k) (emitted name [d])) = (g * x)%Qc.
  Proof.
    intros listed amount d name k g (N & Hl & Hs & Hz) Hk Eg. destruct (in_dec string_dec name (map fst d)) as [I|I].
    - destruct (emitted_one name d N I) as (s & Is & ->). destruct (Hs name s Is) as (S1 & S2 & S3 & S4 & S5 & S6). exists (number_at (r_values s) k). split; [now apply S6|].
      assert (Es : s = rated ps reg TONS_PER_DAY (r_values s)) by (destruct s; cbn in *; subst; reflexivity).
      cbn [map]. rewrite Es at 1. rewrite (calendar_rated ps reg _ _ k g S5 Lreg Eg). change (qsum [?x]) with (x + 0)%Qc. ring.
    - rewrite (emitted_none name d I). exists 0%Qc. split; [|cbn; ring]. apply Hz; [|exact Hk]. now rewrite <- Hl.
  Qed.
  Lemma dicts_amount : forall U (listed : U -> string -> Prop) (amount : U -> string -> nat -> Qc -> Prop) us ds name k g,
    Forall2 (fun u d => emission_dict ps reg (listed u) (amount u) d) us ds -> k < length ps -> nth_error reg k = Some g ->
    exists xs, Forall2 (fun u x => amount u name k x) us xs /\ qsum (map (fun r => number_at (calendar_rates r) k) (emitted name ds)) = (g * qsum xs)%Qc.
  Proof.
    intros U listed amount us ds name k g H Hk Eg. induction H as [|u d us ds H _ (xs & F & E)].
    { exists []. split; [constructor|]. cbn. ring. }
    destruct (dict_amount _ _ d name k g H Hk Eg) as (x & A & Ex). exists (x :: xs). split; [now constructor|].
    rewrite emitted_cons, map_app, qsum_app, E, Ex. change (qsum (x :: xs)) with (x + qsum xs)%Qc. ring.
  Qed.
  Lemma dicts_names : forall U (listed : U -> string -> Prop) (amount : U -> string -> nat -> Qc -> Prop) us ds name,
    Forall2 (fun u d => emission_dict ps reg (listed u) (amount u) d) us ds -> emitted name ds <> [] <-> exists u, In u us /\ listed u name.
  Proof.
    intros U listed amount us ds name H. induction H as [|u d us ds (N & Hl & _) _ IH].
    { split; [intros X; now destruct X|intros (u & [] & _)]. }
    rewrite emitted_cons. destruct (in_dec string_dec name (map fst d)) as [I|I].
    - destruct (emitted_one name d N I) as (s & _ & ->). split; [intros _; exists u; split; [now left|now apply Hl]|intros _; discriminate].
    - rewrite (emitted_none name d I). cbn [app]. rewrite IH. split.
      + intros (u' & I' & L'). exists u'. split; [now right|exact L'].
      + intros (u' & [<-|I'] & L'); [destruct I; now apply Hl|]. exists u'. auto.
  Qed.
  Lemma dicts_ok : forall U (listed : U -> string -> Prop) (amount : U -> string -> nat -> Qc -> Prop) us ds, contiguous ps -> ps <> [] ->
    Forall2 (fun u d => emission_dict ps reg (listed u) (amount u) d) us ds -> Forall (Forall (emission_ok ps)) ds.
  Proof.
    intros U listed amount us ds C N H. induction H as [|u d us ds (_ & _ & Hs & _) _ IH]; constructor; auto. apply Forall_forall. intros [name s] I.
    destruct (Hs name s I) as (S1 & S2 & S3 & S4 & S5 & S6). split; [|exact S2]. split; [|exact S1]. unfold rate_well_formed. cbn [snd]. rewrite S1, S4, map_length. auto.
  Qed.
End Dicts.

Section Totals.
  Context {M : Type}.
  Variable np_pow : Qc -> Qc -> Qc.
  Variables (first : period) (rest : list period) (vars : variables_dict) (vm : variables_map) (target : period).
  Let ps := first :: rest.
  Let n := List.length ps.
  Hypothesis Evm : make_variables_map ps vars = Ok vm.
  Hypothesis C : contiguous ps.

  Lemma rated_ok : forall reg u v, length reg = n -> length v = n -> on_periods ps (rated ps reg u v).
  Proof.
    intros reg u v Lr Lv. split; [|reflexivity]. unfold rate_well_formed, rated. cbn [r_periods r_values r_regularity]. rewrite map_length.
    split; [exact C|]. split; [discriminate|]. auto.
  Qed.
  Lemma rated_fuel : forall reg v, length reg = n -> length v = n -> Totals_Spec.fuel_ok ps (rated ps reg STANDARD_CUBIC_METER_PER_DAY v).
  Proof. intros. split; [now apply rated_ok|reflexivity]. Qed.
  Lemma rated_power : forall reg v, length reg = n -> length v = n -> power_ok ps (rated ps reg MEGA_WATT v).
  Proof. intros. split; [now apply rated_ok|split; reflexivity]. Qed.
  Lemma regularity_range : forall input reg x, regularity_values np_pow input target vm = Ok reg -> In x reg -> (0 <= x)%Qc.
  Proof.
    intros input reg x E I. unfold regularity_values in E. destruct (temporal_expression_evaluate _ _ _ _) as [v|]; [|discriminate]. cbn [bind] in E.
    destruct (forallb _ v) eqn:Ef; [|discriminate]. injection E as <-. rewrite forallb_forall in Ef. specialize (Ef x I). apply andb_prop in Ef as [Ef _]. now apply Qcleb_le.
  Qed.
  Lemma export_is : forall input reg e, hydrocarbon_export np_pow input reg target vm = Ok e -> export_ok ps e.
  Proof.
    intros input reg e E. unfold hydrocarbon_export in E. destruct (temporal_expression_evaluate _ _ _ _) as [v|]; [|discriminate]. cbn [bind] in E.
    rewrite (proj1 (vm_fields ps vars vm Evm)) in E.
    unfold make_rate in E. destruct (_ && _) eqn:Eb; [|discriminate]. injection E as <-. apply andb_prop in Eb as [E1 E2]. apply Nat.eqb_eq in E1, E2.
    split; [|split; reflexivity]. split; [|reflexivity]. unfold rate_well_formed. cbn [r_periods r_values r_regularity]. split; [exact C|]. split; [discriminate|]. auto.
  Qed.

  (** *** The parts of an installation *)
  Definition user_of (c : shown) := match c with Shown _ (Some fuel) (Some r) _ => [(fuel, s_values (re_energy r))] | _ => [] end.
  Definition leaf (c : shown) : bool := match below_of c with [] => true | _ => false end.
  Lemma silent_parts : forall silent, (forall c, In c silent -> exists name, c = Shown name None None []) ->
    flat_map user_of silent = [] /\ flat_map (fun c => powers_of (below_of c)) silent = [] /\ powers_of (filter leaf silent) = [].
  Proof.
    induction silent as [|c silent IH]; intros H; [auto|]. destruct (H c (or_introl eq_refl)) as (name & ->). destruct IH as (I1 & I2 & I3). { intros. apply H. now right. }
    cbn. rewrite I1, I2. split; [reflexivity|]. split; [reflexivity|]. exact I3.
  Qed.
  Lemma flat_some : forall (f : list num -> rate_series) l,
    flat_map (fun p => match p with Some p => [p] | None => [] end) (map (fun c => option_map f (power_shown c)) l) = map f (powers_of l).
  Proof. intros f l. unfold powers_of. induction l as [|c l IH]; [reflexivity|]. cbn [map flat_map]. rewrite map_app, IH. f_equal. destruct (power_shown c); reflexivity. Qed.
  Lemma leaf_power : forall c, leaf c = true -> powers_of (filter leaf [c]) = match power_shown c with Some v => [v] | None => [] end.
  Proof. intros c H. cbn [filter]. rewrite H. unfold powers_of. cbn. now rewrite app_nil_r. Qed.
  Lemma filter_cons_app : forall A (f : A -> bool) a l, filter f (a :: l) = filter f [a] ++ filter f l.
  Proof. intros A f a l. cbn. destruct (f a); reflexivity. Qed.
  Lemma powers_app : forall a b, powers_of (a ++ b) = powers_of a ++ powers_of b.
  Proof. intros a b. unfold powers_of. apply flat_map_app. Qed.

  Lemma component_parts : forall reg parts comps, Forall2 (component_facts np_pow first rest vars reg) parts comps ->
    map fc_fuel comps = map (fun u => rated ps reg STANDARD_CUBIC_METER_PER_DAY (snd u)) (flat_map user_of parts) /\
    (forall u, In u (flat_map user_of parts) -> length (snd u) = n) /\
    flat_map (fun c => match fc_power c with
                     | Electrical consumers => flat_map (fun p => match p with Some p => [p] | None => [] end) consumers
                     | Mechanical _ => [] end) comps = map (rated ps reg MEGA_WATT) (flat_map (fun c => powers_of (below_of c)) parts) /\
    (forall v, In v (flat_map (fun c => powers_of (below_of c)) parts) -> length v = n) /\
    flat_map (fun c => match fc_power c with Mechanical (Some p) => [p] | _ => [] end) comps = map (rated ps reg MEGA_WATT) (powers_of (filter leaf parts)) /\
    (forall v, In v (powers_of (filter leaf parts)) -> length v = n) /\
    Forall2 (fun u d => emission_dict ps reg (fun name => exists t m, in_force (fst u) t m /\ In name (map fst m)) (fun name k => burns np_pow ps vars name k u) d)
      (flat_map user_of parts) (map fc_emissions comps).
  Proof.
    intros reg parts comps H. induction H as [|s fc parts comps H _ IH].
    { cbn. repeat split; try (intros ? []); try reflexivity. constructor. }
    destruct H as (name & fuel & r & below & Es & Le & Ef & Hd & Hb & Hp & Hpow). destruct IH as (I1 & I2 & I3 & I4 & I5 & I6 & I7).
    rewrite filter_cons_app, powers_app. cbn [flat_map map].
    assert (Eu : user_of s = [(fuel, s_values (re_energy r))]) by (rewrite Es; reflexivity). rewrite Eu.
    assert (Eb : below_of s = below) by (rewrite Es; reflexivity). rewrite Eb. cbn [app map snd].
    split; [now rewrite Ef, I1|]. split; [intros u [<-|I]; [exact Le|auto]|].
    assert (Hkind : match fc_power fc with Electrical consumers => flat_map (fun p => match p with Some p => [p] | None => [] end) consumers | Mechanical _ => [] end =
                    map (rated ps reg MEGA_WATT) (powers_of below) /\
                    match fc_power fc with Mechanical (Some p) => [p] | _ => [] end = map (rated ps reg MEGA_WATT) (powers_of (filter leaf [s])) /\
                    forall v, In v (powers_of (filter leaf [s])) -> length v = n).
    { destruct below as [|b0 below].
      - assert (L : leaf s = true) by (unfold leaf; now rewrite Eb). rewrite (leaf_power s L), Hpow. split; [reflexivity|].
        destruct (power_shown s) as [v|]; cbn; (split; [reflexivity|]); [intros v' [<-|[]]; now apply Hp|intros ? []].
      - assert (L : leaf s = false) by (unfold leaf; now rewrite Eb). cbn [filter]. rewrite L, Hpow. rewrite flat_some. split; [reflexivity|]. split; [reflexivity|]. intros ? []. }
    destruct Hkind as (K1 & K2 & K3).
    split; [now rewrite K1, I3, map_app|]. split; [intros v Iv; apply in_app_or in Iv as [Iv|Iv]; auto|].
    split; [now rewrite K2, I5, map_app|]. split; [intros v Iv; apply in_app_or in Iv as [Iv|Iv]; auto|].
    constructor; [exact Hd|exact I7].
  Qed.

  (** what is known of an installation and its reported parts *)
  Definition known (i : yaml_installation M) (s : shown) (inst : installation) (reg : list Qc) : Prop :=
    regularity_values np_pow (yi_regularity i) target vm = Ok reg /\ length reg = n /\
    hydrocarbon_export np_pow (yi_export i) reg target vm = Ok (in_export inst) /\
    map fc_fuel (in_components inst) = map (fun u => rated ps reg STANDARD_CUBIC_METER_PER_DAY (snd u)) (users s) /\ (forall u, In u (users s) -> length (snd u) = n) /\
    electrical_powers inst = map (rated ps reg MEGA_WATT) (electrical s) /\ (forall v, In v (electrical s) -> length v = n) /\
    mechanical_powers inst = map (rated ps reg MEGA_WATT) (mechanical s) /\ (forall v, In v (mechanical s) -> length v = n) /\
    Forall2 (fun u d => emission_dict ps reg (fun name => exists t m, in_force (fst u) t m /\ In name (map fst m)) (fun name k => burns np_pow ps vars name k u) d)
      (users s) (map fc_emissions (in_components inst)) /\
    Forall2 (emitter_facts np_pow first rest vars reg) (yi_venting_emitters i) (in_venting inst).
  Lemma facts_known : forall i s inst, installation_facts np_pow first rest vars vm target i s inst -> exists reg, known i s inst reg.
  Proof.
    intros i s inst (reg & parts & silent & Er & Lr & Ee & Eb & Hs & Hc & Hv). exists reg.
    destruct (component_parts reg parts _ Hc) as (K1 & K2 & K3 & K4 & K5 & K6 & K7). destruct (silent_parts silent Hs) as (S1 & S2 & S3).
    assert (Eu : users s = flat_map user_of parts). { unfold users. rewrite Eb, flat_map_app. fold user_of. change (flat_map user_of parts ++ flat_map user_of silent = flat_map user_of parts). now rewrite S1, app_nil_r. }
    assert (El : electrical s = flat_map (fun c => powers_of (below_of c)) parts). { unfold electrical. now rewrite Eb, flat_map_app, S2, app_nil_r. }
    assert (Em : mechanical s = powers_of (filter leaf parts)). { unfold mechanical. rewrite Eb. fold leaf. change (powers_of (filter leaf (parts ++ silent)) = powers_of (filter leaf parts)). now rewrite filter_app, powers_app, S3, app_nil_r. }
    unfold known. rewrite Eu, El, Em. auto 20.
  Qed.
  Lemma known_ok : forall i s inst reg, known i s inst reg -> Totals_Spec.installation_ok ps inst.
  Proof.
    intros i s inst reg (Er & Lr & Ee & K1 & K2 & K3 & K4 & K5 & K6 & K7 & K8). unfold Totals_Spec.installation_ok.
    assert (N : ps <> []) by discriminate.
    split; [|split; [|split; [|split]]].
    - apply Forall_forall. intros c I. assert (I' : In (fc_fuel c) (map fc_fuel (in_components inst))) by now apply in_map. rewrite K1 in I'.
      apply in_map_iff in I' as (u & <- & Iu). apply rated_fuel; auto.
    - unfold all_emitters. apply Forall_app. split; [exact (dicts_ok ps reg Lr _ _ _ _ _ C N K7)|exact (dicts_ok ps reg Lr _ _ _ _ _ C N K8)].
    - rewrite K5. apply Forall_forall. intros r I. apply in_map_iff in I as (v & <- & Iv). apply rated_power; auto.
    - rewrite K3. apply Forall_forall. intros r I. apply in_map_iff in I as (v & <- & Iv). apply rated_power; auto.
    - exact (export_is _ _ _ Ee).
  Qed.

  (** *** Over the asset *)
  Variables (installations : list (yaml_installation M)) (below : list shown) (insts : list installation).
  Hypothesis Lb : length below = length installations.
  Hypothesis HF : Forall2 (fun p inst => exists reg, known (fst p) (snd p) inst reg) (combine installations below) insts.

  Lemma over_intro : forall (part : yaml_installation M -> shown -> Qc -> Prop) (c : installation -> Qc),
    (forall i s inst reg, known i s inst reg -> part i s (c inst)) -> over_asset part installations below (qsum (map c insts)).
  Proof.
    intros part c H. exists (map c insts). split; [|reflexivity]. pose proof HF as X. clear HF Lb. induction X as [|p inst l l' (reg & K) _ IH]; cbn [map]; constructor; [exact (H _ _ _ _ K)|exact IH].
  Qed.
  Lemma seen_known : forall s, In s below -> exists i inst reg, In inst insts /\ known i s inst reg.
  Proof.
    intros s I. assert (J : exists i, In (i, s) (combine installations below)).
    { clear - Lb I. revert installations Lb. induction below as [|b l IH]; intros [|i is] L; try discriminate; [destruct I|]. destruct I as [<-|I]; [exists i; now left|].
      destruct (IH I is) as (i' & I'); [cbn in L; congruence|]. exists i'. now right. }
    destruct J as (i & J). clear - HF J. pose proof HF as X. clear HF. induction X as [|p inst l l' (reg & K) _ IH]; [destruct J|]. destruct J as [->|J].
    - exists i, inst, reg. split; [now left|exact K].
    - destruct (IH J) as (i' & inst' & reg' & I' & K'). exists i', inst', reg'. split; [now right|exact K'].
  Qed.
  Lemma known_seen : forall inst, In inst insts -> exists i s reg, In s below /\ In (i, s) (combine installations below) /\ known i s inst reg.
  Proof.
    intros inst I. assert (J : exists p reg, In p (combine installations below) /\ known (fst p) (snd p) inst reg).
    { clear - HF I. pose proof HF as X. clear HF. induction X as [|p inst' l l' (reg & K) _ IH]; [destruct I|]. destruct I as [->|I]; [exists p, reg; split; [now left|exact K]|].
      destruct (IH I) as (p' & reg' & J & K'). exists p', reg'. split; [now right|exact K']. }
    destruct J as ([i s] & reg & J & K). exists i, s, reg. split; [eapply in_combine_r; eauto|]. split; [exact J|exact K].
  Qed.
  Lemma regularity_here : forall i s inst reg k, known i s inst reg -> k < n -> exists g, nth_error reg k = Some g /\ regularity_at np_pow vm target i k g.
  Proof.
    intros i s inst reg k (Er & Lr & _) Hk. destruct (nth_error reg k) as [g|] eqn:Eg; [|apply nth_error_None in Eg; lia]. exists g. split; [reflexivity|]. exists reg. auto.
  Qed.

  Lemma power_total : forall (parts : shown -> list (list num)) (partsR : installation -> list rate_series) o c,
    (forall i s inst reg, known i s inst reg -> partsR inst = map (rated ps reg MEGA_WATT) (parts s) /\ forall v, In v (parts s) -> length v = n) ->
    power_summed ps (flat_map partsR insts) o c -> power_reported np_pow ps vm target parts installations below o c.
  Proof.
    intros parts partsR o c HP H. unfold power_reported, power_summed in *. destruct o as [r|], c as [e|]; try contradiction.
    - destruct H as (Ne & Ok & Ad & U & R & Cal). split; [|split; [exact Ok|split; [|split; [exact U|]]]].
      + destruct (flat_map partsR insts) as [|x l] eqn:E; [contradiction|]. assert (I : In x (flat_map partsR insts)) by (rewrite E; now left).
        apply in_flat_map in I as (inst & I1 & I2). destruct (known_seen inst I1) as (i & s & reg & Is & _ & K). exists s. split; [exact Is|].
        destruct (HP _ _ _ _ K) as [EP _]. rewrite EP in I2. intros Z. rewrite Z in I2. destruct I2.
      + intros k Hk. rewrite (Ad k). rewrite map_map, qsum_flat. apply over_intro. intros i s inst reg K. destruct (HP _ _ _ _ K) as [-> _].
        unfold power_of. now rewrite map_map.
      + intros Hs. exists (calendar_rates r). destruct Ok as ([(_ & _ & L1 & L2) Ep] & _ & Ty). rewrite Ep in *.
        split; [unfold calendar_rates; rewrite Ty; rewrite map2_len by congruence; exact L1|]. split; [exact R|]. intros k Hk.
        assert (So : Forall sound_power (flat_map partsR insts)).
        { apply Forall_forall. intros x I. apply in_flat_map in I as (inst & I1 & I2). destruct (known_seen inst I1) as (i & s & reg & Is & _ & K).
          destruct (HP _ _ _ _ K) as [EP _]. rewrite EP in I2. apply in_map_iff in I2 as (v & <- & Iv). split; cbn [rated r_values r_regularity].
          - intros q Iq. exact (Hs s v q Is Iv Iq).
          - intros q Iq. apply in_map_iff in Iq as (y & <- & Iy). exists y. split; [reflexivity|]. eapply regularity_range; [exact (proj1 K)|exact Iy]. }
        rewrite (Cal So k). rewrite map_map, qsum_flat. apply over_intro. intros i s inst reg K. destruct (HP _ _ _ _ K) as [-> Ln].
        destruct (regularity_here _ _ _ _ k K Hk) as (g & Eg & Hg). exists g. split; [exact Hg|]. rewrite map_map, <- qsum_scaled. f_equal. apply map_ext_in. intros v Iv.
        apply calendar_rated; auto. apply K.
    - intros s I. destruct (seen_known s I) as (i & inst & reg & Ii & K). destruct (HP _ _ _ _ K) as [EP _].
      assert (Z : partsR inst = []). { destruct (partsR inst) as [|x l] eqn:E; [reflexivity|]. exfalso. assert (J : In x (flat_map partsR insts)) by (apply in_flat_map; exists inst; rewrite E; split; [exact Ii|now left]). rewrite H in J. destruct J. }
      rewrite Z in EP. destruct (parts s); [reflexivity|discriminate].
  Qed.

  Lemma totals_proof : installations <> [] -> exists t, asset_totals ps insts = Ok t /\ totals_reported np_pow ps vars vm target installations below t.
  Proof.
    intros Ne. assert (Ni : insts <> []).
    { intros E. destruct installations as [|i is]; [contradiction|]. destruct below as [|b bs]; [discriminate|]. cbn in HF. rewrite E in HF. inversion HF. }
    assert (Fo : Forall (Totals_Spec.installation_ok ps) insts).
    { apply Forall_forall. intros inst I. destruct (known_seen inst I) as (i & s & reg & _ & _ & K). eapply known_ok; eauto. }
    destruct (Totals_Proofs4.asset_proof ps insts Ni Fo) as (t & Et & Sm & Ex & Ax). exists t. split; [exact Et|].
    destruct Sm as (F1 & F2 & F3 & F4 & F5 & P1 & P2 & P3 & Em). destruct Em as (Nd & Nm & Ev).
    split; [exact F1|]. split; [exact F2|]. split; [|split; [exact F4|split; [exact F5|split; [|split; [|split; [|split; [exact Ex|split; [|split; [exact Nd|split]]]]]]]]].
    - intros k Hk. rewrite (F3 k). rewrite map_map, qsum_flat. apply over_intro. intros i s inst reg K. destruct (regularity_here _ _ _ _ k K Hk) as (g & Eg & Hg).
      exists g. split; [exact Hg|]. destruct K as (_ & Lr & _ & K1 & K2 & _). rewrite K1, map_map, <- qsum_scaled. f_equal. apply map_ext_in. intros u Iu. apply calendar_rated; auto.
    - apply power_total with electrical_powers; [|exact P1]. intros i s inst reg (_ & _ & _ & _ & _ & K & L & _). auto.
    - apply power_total with mechanical_powers; [|exact P2]. intros i s inst reg (_ & _ & _ & _ & _ & _ & _ & K & L & _). auto.
    - apply power_total with (fun i => electrical_powers i ++ mechanical_powers i).
      + intros i s inst reg (_ & _ & _ & _ & _ & K3 & K4 & K5 & K6 & _). rewrite K3, K5, map_app. split; [reflexivity|]. intros v I. apply in_app_or in I as [I|I]; auto.
      + eapply power_perm; [apply flat_perm|exact P3].
    - intros k Hk. rewrite (Ax k), map_map. apply over_intro. intros i s inst reg (Er & _ & Ee & _). exists reg, (in_export inst). auto.
    - intros name. rewrite Nm, emitted_flat. split.
      + intros H. destruct (flat_map (fun i => emitted name (all_emitters i)) insts) as [|x l] eqn:E; [contradiction|]. assert (I : In x (flat_map (fun i => emitted name (all_emitters i)) insts)) by (rewrite E; now left).
        apply in_flat_map in I as (inst & I1 & I2). destruct (known_seen inst I1) as (i & s & reg & _ & Ip & K). exists (i, s). split; [exact Ip|]. cbn [fst snd].
        unfold all_emitters in I2. rewrite emitted_app in I2. destruct K as (_ & Lr & _ & _ & _ & _ & _ & _ & _ & K7 & K8). apply in_app_or in I2 as [I2|I2].
        * assert (X : emitted name (map fc_emissions (in_components inst)) <> []) by (intros Z; rewrite Z in I2; destruct I2).
          apply (dicts_names ps reg _ _ _ _ _ name K7) in X as (u & Iu & tt & m & Y). left. exists u, tt, m. tauto.
        * assert (X : emitted name (in_venting inst) <> []) by (intros Z; rewrite Z in I2; destruct I2).
          apply (dicts_names ps reg _ _ _ _ _ name K8) in X as (y & Iy & Y). right. exists y. auto.
      + intros ([i s] & Ip & Hn) Z. cbn [fst snd] in Hn.
        assert (K : exists inst reg, In inst insts /\ known i s inst reg).
        { clear - HF Ip. pose proof HF as X. clear HF. induction X as [|p inst l l' (reg & K) _ IH]; [destruct Ip|]. destruct Ip as [->|J]; [exists inst, reg; split; [now left|exact K]|].
          destruct (IH J) as (inst' & reg' & I' & K'). exists inst', reg'. split; [now right|exact K']. }
        destruct K as (inst & reg & Ii & K). destruct K as (_ & Lr & _ & _ & _ & _ & _ & _ & _ & K7 & K8).
        assert (Z' : emitted name (all_emitters inst) = []).
        { destruct (emitted name (all_emitters inst)) as [|x l] eqn:E; [reflexivity|]. exfalso.
          assert (J : In x (flat_map (fun i => emitted name (all_emitters i)) insts)) by (apply in_flat_map; exists inst; rewrite E; split; [exact Ii|now left]). rewrite Z in J. destruct J. }
        unfold all_emitters in Z'. rewrite emitted_app in Z'. apply app_eq_nil in Z' as [Z1 Z2]. destruct Hn as [(u & tt & m & Iu & Y)|(y & Iy & Y)].
        * apply (proj2 (dicts_names ps reg _ _ _ _ _ name K7)); [|exact Z1]. exists u. split; [exact Iu|]. exists tt, m. exact Y.
        * apply (proj2 (dicts_names ps reg _ _ _ _ _ name K8)); [|exact Z2]. exists y. auto.
    - intros name r c I. destruct (Ev name r c I) as (E1 & E2 & E3 & E4 & E5). split; [exact E1|]. split; [exact E2|]. split; [exact E4|]. split; [exact E5|].
      intros k Hk. rewrite (E3 k). rewrite emitted_flat, map_map, qsum_flat. apply over_intro. intros i s inst reg K. destruct (regularity_here _ _ _ _ k K Hk) as (g & Eg & Hg).
      destruct K as (_ & Lr & _ & _ & _ & _ & _ & _ & _ & K7 & K8).
      destruct (dicts_amount ps reg Lr _ _ _ _ _ name k g K7 Hk Eg) as (us & Fu & Su). destruct (dicts_amount ps reg Lr _ _ _ _ _ name k g K8 Hk Eg) as (vs & Fv & Sv).
      exists g, us, vs. split; [exact Hg|]. split; [exact Fu|]. split; [eapply f2_weaken; [|exact Fv]; intros y x _ _ X; exact (X g Eg)|].
      unfold all_emitters. rewrite emitted_app, map_app, qsum_app, Su, Sv. ring.
  Qed.
End Totals.

Theorem report_proof : forall M np_pow (usage : energy_usage_type -> M -> list Qc -> variables_map -> result function_result)
    first rest vars vm target fuels tables name installations a mp results,
  let ps := first :: rest in
  make_variables_map ps vars = Ok vm -> run_setting ps target -> (forall i, In i installations -> installation_written ps i) ->
  report_setting np_pow ps vars fuels installations ->
  (forall m reg vm' fr, usage FUEL m reg vm' = Ok fr -> fr_unit fr = STANDARD_CUBIC_METER_PER_DAY) ->
  map_model np_pow vm target fuels tables name installations = Ok (a, mp) ->
  evaluate_energy_usage np_pow usage vm target (mp_registered mp) = Ok results ->
  exists g root below t, build (map fst (mp_registered mp)) = Ok g /\ get_root g = Ok root /\
    shows (mp_registered mp) g results root (Shown name None None below) /\
    Forall2 (installation_shown np_pow usage vm target fuels tables) installations below /\
    report np_pow vm a results = Ok t /\ totals_reported np_pow ps vars vm target installations below t.
Proof.
  intros M np_pow usage first rest vars vm target fuels tables name installations a mp results ps Evm RS Hw (Ne & Lv & Hf & Hi) Hu Em Er.
  pose proof (asset_proof M np_pow usage first rest vars vm target fuels tables name installations a mp Evm RS Hw Em) as X.
  destruct X as (g & root & Eb & Eg & X). rewrite Er in X. destruct X as (below & Hs & Hb). exists g, root, below.
  destruct (objects_of_asset M np_pow ps vm target fuels tables name installations a mp g root RS Hw Em Eb Eg) as (Ech & Ho).
  assert (Hk : Forall2 (shows (mp_registered mp) g results) (map ic_id (as_installations a)) below) by (inversion Hs; subst; congruence). apply f2_map_l in Hk.
  assert (Lb : length below = length installations) by (symmetry; exact (f2_length _ _ _ _ _ Hb)).
  assert (Hin : exists insts, mapM (installation_of np_pow vm results) (as_installations a) = Ok insts /\
     Forall2 (fun p inst => exists reg, known np_pow first rest vars vm target (fst p) (snd p) inst reg) (combine installations below) insts).
  { destruct (mapM_parts _ _ _ (installation_of np_pow vm results) (fun c p => In (fst p) installations /\ installation_object np_pow vm target fuels (mp_registered mp) g (fst p) c /\
        installation_shown np_pow usage vm target fuels tables (fst p) (snd p) /\ shows (mp_registered mp) g results (ic_id c) (snd p))
        (fun p inst => exists reg, known np_pow first rest vars vm target (fst p) (snd p) inst reg) (as_installations a) (combine installations below)) as (insts & E & F).
    - clear - Ho Hb Hk. revert below Hb Hk. induction Ho as [|i c is cs H _ IH]; intros below Hb Hk; [constructor|]. destruct below as [|b below]; [inversion Hb|].
      apply f2_cons_inv in Hb as [B1 B2]. apply f2_cons_inv in Hk as [K1 K2]. cbn [combine]. constructor; [cbn [fst snd]; split; [now left|auto]|].
      eapply f2_weaken; [|exact (IH below B2 K2)]. intros x p _ _ (I & R). split; [now right|exact R].
    - intros c [i s] _ (Ii & Hoo & Hsh & Hsw). cbn [fst snd] in *. destruct (Hi i Ii) as [D1 D2].
      destruct (installation_part np_pow usage first rest vars vm target fuels tables (mp_registered mp) g results Evm RS Lv Hf Hu i c s (Hw i Ii) D1 D2 Hoo Hsw Hsh) as (inst & Ei & Fi).
      exists inst. split; [exact Ei|]. apply facts_known. exact Fi.
    - exists insts. auto. }
  destruct Hin as (insts & E & F).
  destruct (totals_proof np_pow first rest vars vm target Evm (proj1 RS) installations below insts Lb F Ne) as (t & Et & Ht).
  exists t. split; [exact Eb|]. split; [exact Eg|]. split; [exact Hs|]. split; [exact Hb|]. split; [|exact Ht].
  unfold report. rewrite E. cbn [bind]. rewrite (proj1 (vm_fields ps vars vm Evm)). exact Et.
Qed.

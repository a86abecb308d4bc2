(** Proofs about emitters: C97 and C98. *)
From Coq Require Import PeanoNat String.
From Verif Require Import QcTac Num Time_Model Time_Spec Time_Proofs Time_Proofs2 Time_Proofs3 Units_Model Rates_Model Rates_Spec Rates_Proofs Rates_Proofs2 Rates_Proofs3 Rates_Proofs4
  Base BaseLemmas Expr_Model Vars_Model Input_Model Interp_Model Energy_Model Energy_Proofs Energy_Proofs3 Emitters_Model Emitters_Spec Emitters_Proofs Emitters_Proofs2.
Local Open Scope list_scope.

Definition direct_one (pow : Qc -> Qc -> Qc) (vm : variables_map) (reg : list Qc) (r : rate_input) : result (series num) :=
  bind (stream_day_values pow vm reg r) (fun rate => bind (unit_to (ri_unit r) TONS_PER_DAY) (fun convert => make_series (vm_periods vm) (map (option_map convert) rate) TONS_PER_DAY)).
Lemma add_direct_eq : forall pow vm reg acc e, add_direct pow vm reg acc e = bind acc (fun d => bind (direct_one pow vm reg (snd e)) (fun s => Ok (dict_set String.eqb (fst e) s d))).
Proof.
  intros pow vm reg acc e. unfold add_direct, direct_one. destruct acc; [|reflexivity]. cbn [bind]. destruct (stream_day_values pow vm reg (snd e)); [|reflexivity]. cbn [bind].
  destruct (unit_to (ri_unit (snd e)) TONS_PER_DAY); reflexivity.
Qed.
Lemma tons_conversion : forall u, u = KILO_PER_DAY \/ u = TONS_PER_DAY -> exists f, unit_to u TONS_PER_DAY = Ok f /\ forall x y, tons u x y -> f x = y.
Proof.
  intros u [-> | ->].
  - exists (fun x => x / qz 1000)%Qc. split; [reflexivity|]. intros x y H. cbn in H. subst x. field. intros H. apply (f_equal this) in H. discriminate.
  - exists (fun x => x). split; [reflexivity|]. intros x y H. cbn in H. congruence.
Qed.
Lemma tons_total : forall u x, u = KILO_PER_DAY \/ u = TONS_PER_DAY -> exists y, tons u x y.
Proof.
  intros u x [-> | ->]; unfold tons; [|now exists x]. exists (x / qz 1000)%Qc. field. intros H. apply (f_equal this) in H. discriminate.
Qed.

(** C97 *)
Lemma direct_proof : forall pow ps vars vm reg (es : list (string * rate_input)),
  let n := List.length ps in
  make_variables_map ps vars = Ok vm -> contiguous ps -> ps <> [] ->
  (forall r l, dict_get String.eqb r vars = Some l -> List.length l = n) ->
  List.length reg = n ->
  (* the rates are in kg/d or t/d, their expressions and conditions can be evaluated *)
  (forall name r, In (name, r) es -> (ri_unit r = KILO_PER_DAY \/ ri_unit r = TONS_PER_DAY) /\
     (exists v, evaluate pow (ri_value r) vars n = Ok v) /\
     (forall c, ri_condition r = Some c -> exists m, evaluate pow c vars n = Ok m)) ->
  exists d, direct_get_emissions pow vm reg es = Ok d /\
    NoDup (map fst d) /\ (forall name, In name (map fst d) <-> In name (map fst es)) /\
    forall name s, In (name, s) d ->
      r_periods s = ps /\ r_unit s = TONS_PER_DAY /\ r_type s = STREAM_DAY /\ r_regularity s = map Some reg /\ List.length (r_values s) = n /\
      exists r, last_named es name r /\
        forall k v b g x y, evaluates_at pow vars n (ri_value r) k v -> condition_at pow vars n (ri_condition r) k b -> nth_error reg k = Some g ->
          stream_rate_means (ri_type r) v b g x -> tons (ri_unit r) x y -> nth_error (r_values s) k = Some (Some y).
Proof.
  intros pow ps vars vm reg es n Evm C N Lvars Lreg Hes. destruct (vm_fields ps vars vm Evm) as [Vp _].
  assert (forall name r, In (name, r) es -> exists s, direct_one pow vm reg r = Ok s /\ s_periods s = ps /\ s_unit s = TONS_PER_DAY /\ List.length (s_values s) = n /\
    forall k v b g x y, evaluates_at pow vars n (ri_value r) k v -> condition_at pow vars n (ri_condition r) k b -> nth_error reg k = Some g ->
          stream_rate_means (ri_type r) v b g x -> tons (ri_unit r) x y -> nth_error (s_values s) k = Some (Some y)) as One.
  { intros name r I. destruct (Hes name r I) as (U & V & M). destruct (stream_values pow ps vars vm reg Evm Lvars Lreg r V M) as (l & El & Ll & Hl).
    destruct (tons_conversion _ U) as (f & Ef & Hf). unfold direct_one. rewrite El, Ef. cbn [bind]. rewrite Vp. unfold make_series. rewrite map_length.
    fold n in Ll. rewrite Ll. fold n. rewrite Nat.eqb_refl. eexists. split; [reflexivity|]. cbn [s_periods s_unit s_values]. split; [reflexivity|]. split; [reflexivity|]. split; [now rewrite map_length|].
    intros k v b g x y H1 H2 H3 H4 H5. rewrite nth_error_map, (Hl k v b g x H1 H2 H3 H4). cbn. now rewrite (Hf x y H5). }
  destruct (dict_build rate_input (series num) (direct_one pow vm reg) (add_direct pow vm reg) es (add_direct_eq pow vm reg)) as (d & Ed & ND & K & L).
  { intros name a I. destruct (One name a I) as (s & E & _). now exists s. }
  assert (forall name s, In (name, s) d -> exists r, last_named es name r /\ direct_one pow vm reg r = Ok s /\ s_periods s = ps /\ s_unit s = TONS_PER_DAY /\ List.length (s_values s) = n /\
    forall k v b g x y, evaluates_at pow vars n (ri_value r) k v -> condition_at pow vars n (ri_condition r) k b -> nth_error reg k = Some g ->
          stream_rate_means (ri_type r) v b g x -> tons (ri_unit r) x y -> nth_error (s_values s) k = Some (Some y)) as All.
  { intros name s I. destruct (L name s I) as (r & Ln & E). destruct (One name r (last_named_In _ _ _ _ Ln)) as (s' & E' & R). rewrite E in E'. injection E' as <-. exists r. auto. }
  unfold direct_get_emissions, direct_emissions. rewrite Ed. cbn [bind].
  rewrite (with_regularity_ok ps vars vm reg d Evm C N Lreg) by (intros name s I; destruct (All name s I) as (r & _ & _ & A1 & A2 & A3 & _); auto).
  eexists. split; [reflexivity|]. rewrite map_map. cbn [fst]. split; [exact ND|]. split; [exact K|].
  intros name s I. apply in_map_iff in I as ([name' s'] & E & I). cbn [fst snd] in E. injection E as <- <-. cbn [r_periods r_unit r_type r_regularity r_values].
  destruct (All name' s' I) as (r & Ln & _ & _ & _ & A3 & A4). do 4 (split; [reflexivity|]). split; [exact A3|]. exists r. split; assumption.
Qed.

(** C97: the rate per calendar day *)
Lemma direct_calendar_proof : forall pow ps vars vm reg (es : list (string * rate_input)),
  let n := List.length ps in
  make_variables_map ps vars = Ok vm -> contiguous ps -> ps <> [] ->
  (forall r l, dict_get String.eqb r vars = Some l -> List.length l = n) ->
  List.length reg = n ->
  (forall name r, In (name, r) es -> (ri_unit r = KILO_PER_DAY \/ ri_unit r = TONS_PER_DAY) /\
     (exists v, evaluate pow (ri_value r) vars n = Ok v) /\
     (forall c, ri_condition r = Some c -> exists m, evaluate pow c vars n = Ok m)) ->
  forall d, direct_get_emissions pow vm reg es = Ok d ->
    forall name s, In (name, s) d -> exists s' r, rate_to_calendar_day s = Ok s' /\ last_named es name r /\
        forall k v b g x y, evaluates_at pow vars n (ri_value r) k v -> condition_at pow vars n (ri_condition r) k b -> nth_error reg k = Some g ->
          calendar_rate_means (ri_type r) v b g x -> tons (ri_unit r) x y -> nth_error (r_values s') k = Some (Some y).
Proof.
  intros pow ps vars vm reg es n Evm C N Lvars Lreg Hes d Ed name s I.
  destruct (direct_proof pow ps vars vm reg es Evm C N Lvars Lreg Hes) as (d' & Ed' & _ & _ & H). rewrite Ed in Ed'. injection Ed' as <-.
  destruct (H name s I) as (P & U & T & G & L & r & Ln & V).
  exists (mkRate (r_periods s) (calendar_rates s) (r_unit s) CALENDAR_DAY (r_regularity s)), r. split.
  { apply to_calendar_day_eq. unfold rate_well_formed. rewrite P, G, map_length. unfold n in *. auto. }
  split; [exact Ln|]. intros k v b g x y H1 H2 H3 H4 H5. cbn [r_values]. unfold calendar_rates. rewrite T, G, nth_error_map2, nth_error_map, H3. cbn [option_map].
  destruct (means_total (ri_type r) v b g) as (x0 & Hx0). destruct (Hes name r (last_named_In _ _ _ _ Ln)) as (Un & _).
  destruct (tons_total _ x0 Un) as (y0 & Hy0). rewrite (V k v b g x0 y0 H1 H2 H3 Hx0 Hy0). cbn. do 2 f_equal.
  assert ((x0 * g)%Qc = x) as X.
  { unfold stream_rate_means in Hx0. unfold calendar_rate_means in H4. destruct b.
    - destruct (ri_type r); [congruence|]. destruct Hx0 as [[A B]|[A B]], H4 as [[A' B']|[A' B']]; try contradiction; subst; ring.
    - subst. ring. }
  destruct Un as [Un|Un]; rewrite Un in Hy0, H5; cbn in Hy0, H5.
  - assert (qz 1000 <> 0)%Qc as Z by (intros Z; apply (f_equal this) in Z; discriminate). rewrite <- X, <- Hy0 in H5.
    apply (f_equal (fun q => q / qz 1000)%Qc) in H5. replace (y * qz 1000 / qz 1000)%Qc with y in H5 by (field; exact Z). rewrite H5. field. exact Z.
  - congruence.
Qed.

(** C97 fails for names given twice: only the last counts.  The names are lower-cased. *)
Lemma direct_duplicate_refuted : exists vm reg es d s,
  es = [make_venting_emission "CO2" (mkRateInput [TNum (qz 5)] None TONS_PER_DAY STREAM_DAY); make_venting_emission "co2" (mkRateInput [TNum (qz 3)] None TONS_PER_DAY STREAM_DAY)] /\
  make_variables_map [mkPeriod 0 86400] [] = Ok vm /\ reg = [1%Qc] /\ (forall pow, direct_get_emissions pow vm reg es = Ok d) /\
  d = [("co2"%string, s)] /\ r_values s = [Some (qz 3)].
Proof.
  do 5 eexists. split; [reflexivity|]. split; [reflexivity|]. split; [reflexivity|]. split; [intros pow; cbv; reflexivity|]. split; [reflexivity|].
  reflexivity.
Qed.

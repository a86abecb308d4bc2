(** Proofs about emitters: C98, oil loading and storage. *)
From Coq Require Import PeanoNat String.
From Verif Require Import QcTac Num Time_Model Time_Spec Time_Proofs Time_Proofs2 Time_Proofs3 Units_Model Rates_Model Rates_Spec Rates_Proofs Rates_Proofs2 Rates_Proofs3 Rates_Proofs4
  Base BaseLemmas Expr_Model Vars_Model Input_Model Interp_Model Energy_Model Energy_Proofs Energy_Proofs3 Emitters_Model Emitters_Spec Emitters_Proofs Emitters_Proofs2.
Local Open Scope list_scope.

Definition oil_one (pow : Qc -> Qc -> Qc) (vm : variables_map) (oil : list num) (ts : list token) : result (series num) :=
  bind (vm_evaluate pow vm ts) (fun factors => bind (unit_to KILO_PER_DAY TONS_PER_DAY) (fun convert =>
    make_series (vm_periods vm) (map (option_map convert) (map (fun of => nmul (fst of) (Some (snd of))) (zip oil factors))) TONS_PER_DAY)).
Lemma add_oil_eq : forall pow vm oil acc e, add_oil pow vm oil acc e = bind acc (fun d => bind (oil_one pow vm oil (snd e)) (fun s => Ok (dict_set String.eqb (fst e) s d))).
Proof.
  intros pow vm oil acc e. unfold add_oil, oil_one. destruct acc; [|reflexivity]. cbn [bind]. destruct (vm_evaluate pow vm (snd e)); reflexivity.
Qed.
Lemma oil_rates_ok : forall pow ps vars vm reg volume,
  make_variables_map ps vars = Ok vm -> (forall r l, dict_get String.eqb r vars = Some l -> List.length l = List.length ps) -> List.length reg = List.length ps ->
  ri_unit volume = STANDARD_CUBIC_METER_PER_DAY -> (exists v, evaluate pow (ri_value volume) vars (List.length ps) = Ok v) ->
  (forall c, ri_condition volume = Some c -> exists m, evaluate pow c vars (List.length ps) = Ok m) ->
  exists oil, oil_rates pow vm reg volume = Ok oil /\ List.length oil = List.length ps /\
    forall k v b g x, evaluates_at pow vars (List.length ps) (ri_value volume) k v -> condition_at pow vars (List.length ps) (ri_condition volume) k b -> nth_error reg k = Some g ->
      stream_rate_means (ri_type volume) v b g x -> nth_error oil k = Some (Some x).
Proof.
  intros pow ps vars vm reg volume Evm Lvars Lreg U V M. destruct (stream_values pow ps vars vm reg Evm Lvars Lreg volume V M) as (l & El & Ll & Hl).
  unfold oil_rates. rewrite El, U. cbn [bind]. change (unit_to STANDARD_CUBIC_METER_PER_DAY STANDARD_CUBIC_METER_PER_DAY) with (Ok (fun x : Qc => x)). cbn [bind].
  eexists. split; [reflexivity|]. split; [now rewrite map_length|]. intros k v b g x H1 H2 H3 H4. rewrite nth_error_map, (Hl k v b g x H1 H2 H3 H4). reflexivity.
Qed.

(** C98 *)
Lemma oil_proof : forall pow ps vars vm reg volume (es : list (string * list token)),
  let n := List.length ps in
  make_variables_map ps vars = Ok vm -> contiguous ps -> ps <> [] ->
  (forall r l, dict_get String.eqb r vars = Some l -> List.length l = n) ->
  List.length reg = n ->
  ri_unit volume = STANDARD_CUBIC_METER_PER_DAY -> (exists v, evaluate pow (ri_value volume) vars n = Ok v) ->
  (forall c, ri_condition volume = Some c -> exists m, evaluate pow c vars n = Ok m) ->
  (forall name factor, In (name, factor) es -> exists v, evaluate pow factor vars n = Ok v) ->
  exists d, oil_get_emissions pow vm reg volume es = Ok d /\
    NoDup (map fst d) /\ (forall name, In name (map fst d) <-> In name (map fst es)) /\
    forall name s, In (name, s) d ->
      r_periods s = ps /\ r_unit s = TONS_PER_DAY /\ r_type s = STREAM_DAY /\ r_regularity s = map Some reg /\ List.length (r_values s) = n /\
      exists factor, last_named es name factor /\
        (* the oil rate times the factor, kg per Sm3, in tons *)
        forall k v b g x f, evaluates_at pow vars n (ri_value volume) k v -> condition_at pow vars n (ri_condition volume) k b -> nth_error reg k = Some g ->
          stream_rate_means (ri_type volume) v b g x -> evaluates_at pow vars n factor k f -> nth_error (r_values s) k = Some (Some (x * f / qz 1000)%Qc).
Proof.
  intros pow ps vars vm reg volume es n Evm C N Lvars Lreg U V M Hes. destruct (vm_fields ps vars vm Evm) as [Vp _].
  destruct (oil_rates_ok pow ps vars vm reg volume Evm Lvars Lreg U V M) as (oil & Eo & Lo & Ho). fold n in Lo, Ho.
  assert (forall name factor, In (name, factor) es -> exists s, oil_one pow vm oil factor = Ok s /\ s_periods s = ps /\ s_unit s = TONS_PER_DAY /\ List.length (s_values s) = n /\
    forall k v b g x f, evaluates_at pow vars n (ri_value volume) k v -> condition_at pow vars n (ri_condition volume) k b -> nth_error reg k = Some g ->
          stream_rate_means (ri_type volume) v b g x -> evaluates_at pow vars n factor k f -> nth_error (s_values s) k = Some (Some (x * f / qz 1000)%Qc)) as One.
  { intros name factor I. destruct (Hes name factor I) as (fs & Ef). assert (List.length fs = n) as Lf by (eapply evaluate_length; eauto).
    unfold oil_one. rewrite (vm_eval pow ps vars vm Evm). fold n. rewrite Ef. cbn [bind]. change (unit_to KILO_PER_DAY TONS_PER_DAY) with (Ok (fun x : Qc => (x / qz 1000)%Qc)). cbn [bind].
    rewrite Vp. unfold make_series. assert (List.length (zip oil fs) = n) as Lz by (unfold zip; rewrite combine_length; lia).
    rewrite !map_length, Lz. fold n. rewrite Nat.eqb_refl. eexists. split; [reflexivity|]. cbn [s_periods s_unit s_values]. split; [reflexivity|]. split; [reflexivity|]. split; [now rewrite !map_length|].
    intros k v b g x f H1 H2 H3 H4 (fs' & Ef' & H5). rewrite Ef in Ef'. injection Ef' as <-. rewrite !nth_error_map.
    assert (nth_error (zip oil fs) k = Some (Some x, f)) as ->.
    { pose proof (Ho k v b g x H1 H2 H3 H4) as H6. clear - H5 H6. unfold zip. revert fs k H5 H6. induction oil as [|o oil IH]; intros [|a fs] [|k] H5 H6; try discriminate; cbn in *; [congruence|]. now apply IH. }
    reflexivity. }
  destruct (dict_build (list token) (series num) (oil_one pow vm oil) (add_oil pow vm oil) es (add_oil_eq pow vm oil)) as (d & Ed & ND & K & L).
  { intros name a I. destruct (One name a I) as (s & E & _). now exists s. }
  assert (forall name s, In (name, s) d -> exists factor, last_named es name factor /\ s_periods s = ps /\ s_unit s = TONS_PER_DAY /\ List.length (s_values s) = n /\
    forall k v b g x f, evaluates_at pow vars n (ri_value volume) k v -> condition_at pow vars n (ri_condition volume) k b -> nth_error reg k = Some g ->
          stream_rate_means (ri_type volume) v b g x -> evaluates_at pow vars n factor k f -> nth_error (s_values s) k = Some (Some (x * f / qz 1000)%Qc)) as All.
  { intros name s I. destruct (L name s I) as (r & Ln & E). destruct (One name r (last_named_In _ _ _ _ Ln)) as (s' & E' & R). rewrite E in E'. injection E' as <-. exists r. auto. }
  unfold oil_get_emissions, oil_emissions. rewrite Eo. cbn [bind]. rewrite Ed. cbn [bind].
  rewrite (with_regularity_ok ps vars vm reg d Evm C N Lreg) by (intros name s I; destruct (All name s I) as (r & _ & A1 & A2 & A3 & _); auto).
  eexists. split; [reflexivity|]. rewrite map_map. cbn [fst]. split; [exact ND|]. split; [exact K|].
  intros name s I. apply in_map_iff in I as ([name' s'] & E & I). cbn [fst snd] in E. injection E as <- <-. cbn [r_periods r_unit r_type r_regularity r_values].
  destruct (All name' s' I) as (r & Ln & _ & _ & A3 & A4). do 4 (split; [reflexivity|]). split; [exact A3|]. exists r. split; assumption.
Qed.

(** C98: what is reported as stored or loaded *)
Lemma storage_proof : forall pow ps vars vm reg volume,
  let n := List.length ps in
  make_variables_map ps vars = Ok vm -> 
  (forall r l, dict_get String.eqb r vars = Some l -> List.length l = n) ->
  List.length reg = n ->
  ri_unit volume = STANDARD_CUBIC_METER_PER_DAY -> (exists v, evaluate pow (ri_value volume) vars n = Ok v) ->
  (forall c, ri_condition volume = Some c -> exists m, evaluate pow c vars n = Ok m) ->
  exists s, storage_rates pow vm reg volume = Ok s /\ r_periods s = ps /\ r_unit s = STANDARD_CUBIC_METER_PER_DAY /\ r_type s = STREAM_DAY /\ r_regularity s = map Some reg /\
    List.length (r_values s) = n /\
    forall k v b g x, evaluates_at pow vars n (ri_value volume) k v -> condition_at pow vars n (ri_condition volume) k b -> nth_error reg k = Some g ->
      stream_rate_means (ri_type volume) v b g x -> nth_error (r_values s) k = Some (Some x).
Proof.
  intros pow ps vars vm reg volume n Evm Lvars Lreg U V M. destruct (vm_fields ps vars vm Evm) as [Vp _].
  destruct (oil_rates_ok pow ps vars vm reg volume Evm Lvars Lreg U V M) as (oil & Eo & Lo & Ho). fold n in Lo, Ho.
  unfold storage_rates. rewrite Eo. cbn [bind]. rewrite Vp. unfold make_rate. rewrite map_length, Lo, Lreg. fold n. rewrite Nat.eqb_refl. cbn [andb].
  eexists. split; [reflexivity|]. cbn [r_periods r_unit r_type r_regularity r_values]. do 4 (split; [reflexivity|]). split; [exact Lo|exact Ho].
Qed.

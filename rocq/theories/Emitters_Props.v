(** C97 to C99: venting emitters, fuel and electricity consumers. *)
From Coq Require Import PeanoNat String.
From Verif Require Import QcTac Num Base BaseLemmas Time_Model Time_Spec Time_Proofs Expr_Model Vars_Model Units_Model Rates_Model Input_Model Interp_Model Energy_Model Energy_Proofs
  Emitters_Model Emitters_Spec Emitters_Proofs Emitters_Proofs2 Emitters_Proofs3 Emitters_Proofs4 Emitters_Proofs5 Emitters_Proofs6.
Local Open Scope list_scope.
Local Open Scope Z_scope.

(** C97: a direct emitter reports, for every name, the rate given for it: in tons per stream day, zero where the condition
    does not hold, a calendar-day rate divided by the regularity, with the regularity alongside. *)
Theorem C97_reported : forall pow ps vars vm reg (es : list (string * rate_input)),
  let n := List.length ps in
  make_variables_map ps vars = Ok vm -> contiguous ps -> ps <> [] ->
  (forall r l, dict_get String.eqb r vars = Some l -> List.length l = n) ->
  List.length reg = n ->
  (* the rates are in kg/d or t/d, their expressions and conditions can be evaluated *)
  (forall name r, In (name, r) es -> (ri_unit r = KILO_PER_DAY \/ ri_unit r = TONS_PER_DAY) /\
     (exists v, evaluate pow (ri_value r) vars n = Ok v) /\
     (forall c, ri_condition r = Some c -> exists m, evaluate pow c vars n = Ok m)) ->
  exists d, direct_get_emissions pow vm reg es = Ok d /\
    NoDup (map fst d) /\ (forall name, In name (map fst d) <-> In name (map fst es)) /\
    forall name s, In (name, s) d ->
      r_periods s = ps /\ r_unit s = TONS_PER_DAY /\ r_type s = STREAM_DAY /\ r_regularity s = map Some reg /\ List.length (r_values s) = n /\
      exists r, last_named es name r /\
        forall k v b g x y, evaluates_at pow vars n (ri_value r) k v -> condition_at pow vars n (ri_condition r) k b -> nth_error reg k = Some g ->
          stream_rate_means (ri_type r) v b g x -> tons (ri_unit r) x y -> nth_error (r_values s) k = Some (Some y).
Proof. exact direct_proof. Qed.
Print Assumptions C97_reported.

(** C97: per calendar day this is what was given per calendar day, wherever the regularity is not zero. *)
Theorem C97_calendar : forall pow ps vars vm reg (es : list (string * rate_input)),
  let n := List.length ps in
  make_variables_map ps vars = Ok vm -> contiguous ps -> ps <> [] ->
  (forall r l, dict_get String.eqb r vars = Some l -> List.length l = n) ->
  List.length reg = n ->
  (forall name r, In (name, r) es -> (ri_unit r = KILO_PER_DAY \/ ri_unit r = TONS_PER_DAY) /\
     (exists v, evaluate pow (ri_value r) vars n = Ok v) /\
     (forall c, ri_condition r = Some c -> exists m, evaluate pow c vars n = Ok m)) ->
  forall d, direct_get_emissions pow vm reg es = Ok d ->
    forall name s, In (name, s) d -> exists s' r, rate_to_calendar_day s = Ok s' /\ last_named es name r /\
        forall k v b g x y, evaluates_at pow vars n (ri_value r) k v -> condition_at pow vars n (ri_condition r) k b -> nth_error reg k = Some g ->
          calendar_rate_means (ri_type r) v b g x -> tons (ri_unit r) x y -> nth_error (r_values s') k = Some (Some y).
Proof. exact direct_calendar_proof. Qed.
Print Assumptions C97_calendar.

(** C97: the names are those given, in lower case. *)
Theorem C97_names : forall pow vm reg (given : list (string * rate_input)) d,
  direct_get_emissions pow vm reg (map (fun g => make_venting_emission (fst g) (snd g)) given) = Ok d ->
  (forall name, In name (map fst d) -> exists g r, In (g, r) given /\ in_lower_case g name) /\
  (forall g r, In (g, r) given -> exists name, In name (map fst d) /\ in_lower_case g name).
Proof. exact direct_names_proof. Qed.
Print Assumptions C97_names.

(** C97 fails for emissions whose names differ only in case (or not at all): only the last is reported. *)
Theorem C97_duplicate_refuted : exists vm reg es d s,
  es = [make_venting_emission "CO2" (mkRateInput [TNum (qz 5)] None TONS_PER_DAY STREAM_DAY); make_venting_emission "co2" (mkRateInput [TNum (qz 3)] None TONS_PER_DAY STREAM_DAY)] /\
  make_variables_map [mkPeriod 0 86400] [] = Ok vm /\ reg = [1%Qc] /\ (forall pow, direct_get_emissions pow vm reg es = Ok d) /\
  d = [("co2"%string, s)] /\ r_values s = [Some (qz 3)].
Proof. exact direct_duplicate_refuted. Qed.
Print Assumptions C97_duplicate_refuted.

Definition em_periods : list period := [mkPeriod 0 86400; mkPeriod 86400 172800; mkPeriod 172800 259200].
Definition em_vars : variables_dict := [("x"%string, [qz 4; qz 6; qz 8]); ("on"%string, [qz 1; qz 0; qz 1])].
Definition em_vm : variables_map := mkVM em_periods [0; 86400; 172800; 259200] em_vars.
Definition em_reg : list Qc := [qc 1 2; 1%Qc; 0%Qc].
Definition em_input : list (string * rate_input) :=
  [make_venting_emission "CO2" (mkRateInput [TRef "x"] (Some [TRef "on"]) KILO_PER_DAY CALENDAR_DAY);
   make_venting_emission "ch4" (mkRateInput [TRef "x"] None TONS_PER_DAY STREAM_DAY)].
Definition em_shown (d : result (list (string * rate_series))) : result (list (string * list (option Q))) :=
  match d with Ok l => Ok (map (fun e => (fst e, map (option_map this) (r_values (snd e)))) l) | Err e => Err e end.
Lemma em_lengths : forall r l, dict_get String.eqb r em_vars = Some l -> List.length l = List.length em_periods.
Proof.
  intros r l. unfold em_vars. cbn [dict_get]. destruct (String.eqb r "x"); [intros E; injection E as <-; reflexivity|].
  destruct (String.eqb r "on"); [intros E; injection E as <-; reflexivity|discriminate].
Qed.
Lemma em_contiguous : contiguous em_periods.
Proof. cbn. unfold nonempty. cbn. lia. Qed.
Example C97_reported_case : make_variables_map em_periods em_vars = Ok em_vm /\ contiguous em_periods /\ List.length em_reg = List.length em_periods /\
  (forall r l, dict_get String.eqb r em_vars = Some l -> List.length l = List.length em_periods) /\
  (forall name r, In (name, r) em_input -> (ri_unit r = KILO_PER_DAY \/ ri_unit r = TONS_PER_DAY) /\
     (exists v, evaluate (fun x _ => x) (ri_value r) em_vars 3 = Ok v) /\
     (forall c, ri_condition r = Some c -> exists m, evaluate (fun x _ => x) c em_vars 3 = Ok m)) /\
  em_shown (direct_get_emissions (fun x _ => x) em_vm em_reg em_input) =
    em_shown (Ok [("co2"%string, mkRate [] [Some (qc 8 1000); Some (qz 0); Some (qz 0)] NONE STREAM_DAY []); ("ch4"%string, mkRate [] [Some (qz 4); Some (qz 6); Some (qz 8)] NONE STREAM_DAY [])]).
Proof.
  split; [reflexivity|]. split; [exact em_contiguous|]. split; [reflexivity|]. split; [exact em_lengths|]. split; [|vm_compute; reflexivity].
  intros name r [E|[E|[]]]; injection E as <- <-; cbn [ri_unit ri_value ri_condition].
  - split; [now left|]. split; [eexists; vm_compute; reflexivity|]. intros c E. injection E as <-. eexists; vm_compute; reflexivity.
  - split; [now right|]. split; [eexists; vm_compute; reflexivity|]. discriminate.
Qed.
(** in the first period the condition holds: 4 kg per calendar day, 8 kg per stream day *)
Example C97_calendar_case : evaluates_at (fun x _ => x) em_vars 3 [TRef "x"] 0 (qz 4) /\ condition_at (fun x _ => x) em_vars 3 (Some [TRef "on"]) 0 true /\
  condition_at (fun x _ => x) em_vars 3 (Some [TRef "on"]) 1 false /\
  stream_rate_means CALENDAR_DAY (qz 4) true (qc 1 2) (qz 8) /\ calendar_rate_means CALENDAR_DAY (qz 4) true (qc 1 2) (qz 4) /\ tons KILO_PER_DAY (qz 4) (qc 4 1000).
Proof.
  split; [eexists; split; vm_compute; reflexivity|]. split.
  { exists (qz 1). split; [eexists; split; vm_compute; reflexivity|]. split; [discriminate|]. intros E. apply (f_equal this) in E. discriminate. }
  split. { exists (qz 0). split; [eexists; split; vm_compute; reflexivity|]. split; [|reflexivity]. intros _. apply Qc_is_canon. reflexivity. }
  split. { left. split; [intros E; apply (f_equal this) in E; discriminate|]. apply Qc_is_canon. reflexivity. }
  split. { left. split; [intros E; apply (f_equal this) in E; discriminate|reflexivity]. }
  apply Qc_is_canon. reflexivity.
Qed.

(** C98: an oil loading or storage emitter reports, for every name, the oil rate times the factor of the emission, in
    tons. *)
Theorem C98_reported : forall pow ps vars vm reg volume (es : list (string * list token)),
  let n := List.length ps in
  make_variables_map ps vars = Ok vm -> contiguous ps -> ps <> [] ->
  (forall r l, dict_get String.eqb r vars = Some l -> List.length l = n) ->
  List.length reg = n ->
  ri_unit volume = STANDARD_CUBIC_METER_PER_DAY -> (exists v, evaluate pow (ri_value volume) vars n = Ok v) ->
  (forall c, ri_condition volume = Some c -> exists m, evaluate pow c vars n = Ok m) ->
  (forall name factor, In (name, factor) es -> exists v, evaluate pow factor vars n = Ok v) ->
  exists d, oil_get_emissions pow vm reg volume es = Ok d /\
    NoDup (map fst d) /\ (forall name, In name (map fst d) <-> In name (map fst es)) /\
    forall name s, In (name, s) d ->
      r_periods s = ps /\ r_unit s = TONS_PER_DAY /\ r_type s = STREAM_DAY /\ r_regularity s = map Some reg /\ List.length (r_values s) = n /\
      exists factor, last_named es name factor /\
        (* the oil rate times the factor, kg per Sm3, in tons *)
        forall k v b g x f, evaluates_at pow vars n (ri_value volume) k v -> condition_at pow vars n (ri_condition volume) k b -> nth_error reg k = Some g ->
          stream_rate_means (ri_type volume) v b g x -> evaluates_at pow vars n factor k f -> nth_error (r_values s) k = Some (Some (x * f / qz 1000)%Qc).
Proof. exact oil_proof. Qed.
Print Assumptions C98_reported.

(** C98: the names are those given, in lower case. *)
Theorem C98_names : forall pow vm reg volume (given : list (string * list token)) d,
  oil_get_emissions pow vm reg volume (map (fun g => make_volume_emission (fst g) (snd g)) given) = Ok d ->
  (forall name, In name (map fst d) -> exists g r, In (g, r) given /\ in_lower_case g name) /\
  (forall g r, In (g, r) given -> exists name, In name (map fst d) /\ in_lower_case g name).
Proof. exact oil_names_proof. Qed.
Print Assumptions C98_names.

(** C98: and the oil rate itself. *)
Theorem C98_storage : forall pow ps vars vm reg volume,
  let n := List.length ps in
  make_variables_map ps vars = Ok vm -> 
  (forall r l, dict_get String.eqb r vars = Some l -> List.length l = n) ->
  List.length reg = n ->
  ri_unit volume = STANDARD_CUBIC_METER_PER_DAY -> (exists v, evaluate pow (ri_value volume) vars n = Ok v) ->
  (forall c, ri_condition volume = Some c -> exists m, evaluate pow c vars n = Ok m) ->
  exists s, storage_rates pow vm reg volume = Ok s /\ r_periods s = ps /\ r_unit s = STANDARD_CUBIC_METER_PER_DAY /\ r_type s = STREAM_DAY /\ r_regularity s = map Some reg /\
    List.length (r_values s) = n /\
    forall k v b g x, evaluates_at pow vars n (ri_value volume) k v -> condition_at pow vars n (ri_condition volume) k b -> nth_error reg k = Some g ->
      stream_rate_means (ri_type volume) v b g x -> nth_error (r_values s) k = Some (Some x).
Proof. exact storage_proof. Qed.
Print Assumptions C98_storage.

Definition em_volume : rate_input := mkRateInput [TNum (qz 200)] (Some [TRef "on"]) STANDARD_CUBIC_METER_PER_DAY CALENDAR_DAY.
Definition em_factors : list (string * list token) := [make_volume_emission "CH4" [TRef "x"]; make_volume_emission "nmVOC" [TNum (qz 5)]].
Example C98_reported_case : ri_unit em_volume = STANDARD_CUBIC_METER_PER_DAY /\ (exists v, evaluate (fun x _ => x) (ri_value em_volume) em_vars 3 = Ok v) /\
  (forall c, ri_condition em_volume = Some c -> exists m, evaluate (fun x _ => x) c em_vars 3 = Ok m) /\
  (forall name factor, In (name, factor) em_factors -> exists v, evaluate (fun x _ => x) factor em_vars 3 = Ok v) /\
  em_shown (oil_get_emissions (fun x _ => x) em_vm em_reg em_volume em_factors) =
    em_shown (Ok [("ch4"%string, mkRate [] [Some (qc 1600 1000); Some (qz 0); Some (qz 0)] NONE STREAM_DAY []); ("nmvoc"%string, mkRate [] [Some (qz 2); Some (qz 0); Some (qz 0)] NONE STREAM_DAY [])]).
Proof.
  split; [reflexivity|]. split; [eexists; vm_compute; reflexivity|]. split; [intros c E; injection E as <-; eexists; vm_compute; reflexivity|]. split; [|vm_compute; reflexivity].
  intros name factor [E|[E|[]]]; injection E as <- <-; eexists; vm_compute; reflexivity.
Qed.
Example C98_storage_case : match storage_rates (fun x _ => x) em_vm em_reg em_volume with Ok s => map (option_map this) (r_values s) | Err _ => [] end = map (option_map this) [Some (qz 400); Some (qz 0); Some (qz 0)].
Proof. vm_compute. reflexivity. Qed.

(** C99: a fuel consumer is accepted exactly when at every time it has an energy usage model it has a fuel. *)
Theorem C99_covered : forall F M (fuel : list (period * F)) (model : list (period * M)),
  contiguous (map fst fuel) -> contiguous (map fst model) -> fuel <> [] -> model <> [] ->
  (make_fuel_consumer fuel model = Ok tt /\ forall t m, in_force model t m -> exists f, in_force fuel t f) \/
  (make_fuel_consumer fuel model = Err ValidationError /\ exists t m, in_force model t m /\ forall f, ~ in_force fuel t f).
Proof. exact fuel_covered_proof. Qed.
Print Assumptions C99_covered.

(** C99 fails when the fuels have a gap between them. *)
Theorem C99_gap_refuted : exists (fuel : list (period * nat)) (model : list (period * nat)),
  temporal_model_of_periods fuel = Ok fuel /\ temporal_model_of_periods model = Ok model /\
  make_fuel_consumer fuel model = Ok tt /\ exists t m, in_force model t m /\ forall f, ~ in_force fuel t f.
Proof. exact fuel_gap_refuted. Qed.
Print Assumptions C99_gap_refuted.

(** C99: the fuel rate is that of the consumer, with the regularity of its periods (also for a part of the periods). *)
Theorem C99_fuel : forall ps vars vm reg before qs after result_periods values power u g1 gq g2,
  make_variables_map ps vars = Ok vm -> contiguous ps -> ps = before ++ qs ++ after -> qs <> [] ->
  reg = g1 ++ gq ++ g2 -> List.length g1 = List.length before -> List.length gq = List.length qs -> List.length g2 = List.length after ->
  List.length values = List.length qs ->
  fuel_consumption vm reg (mkConsumerResult result_periods (mkSeries qs values u) power) = Ok (mkRate qs values u STREAM_DAY (map Some gq)).
Proof. exact fuel_rate_proof. Qed.
Print Assumptions C99_fuel.

(** C99: the power of a fuel consumer is reported if it is known in every period, otherwise not at all. *)
Theorem C99_power : forall ps vars vm reg result_periods usage qs values u,
  make_variables_map ps vars = Ok vm -> contiguous ps -> ps <> [] -> List.length reg = List.length ps -> List.length values = List.length qs ->
  let reported := fuel_consumer_power vm reg (mkConsumerResult result_periods usage (Some (mkSeries qs values u))) in
  (* power in every period: reported *)
  (qs = ps -> List.length result_periods = List.length ps -> reported = Ok (Some (mkRate ps values u STREAM_DAY (map Some reg)))) /\
  (* otherwise nothing is reported *)
  (List.length qs <> List.length ps \/ List.length result_periods <> List.length qs -> reported = Ok None) /\
  fuel_consumer_power vm reg (mkConsumerResult result_periods usage None) = Ok None.
Proof. exact fuel_power_proof. Qed.
Print Assumptions C99_power.

(** C99: the power of an electricity consumer. *)
Theorem C99_electricity : forall ps vars vm reg before qs after result_periods usage values u g1 gq g2,
  make_variables_map ps vars = Ok vm -> contiguous ps -> ps = before ++ qs ++ after -> qs <> [] ->
  reg = g1 ++ gq ++ g2 -> List.length g1 = List.length before -> List.length gq = List.length qs -> List.length g2 = List.length after ->
  List.length values = List.length qs ->
  electricity_consumer_power vm reg (mkConsumerResult result_periods usage (Some (mkSeries qs values u))) = Ok (Some (mkRate qs values u STREAM_DAY (map Some gq))) /\
  electricity_consumer_power vm reg (mkConsumerResult result_periods usage None) = Ok None.
Proof. exact electricity_power_proof. Qed.
Print Assumptions C99_electricity.

(** C99: the emissions of a fuel consumer are its fuel rate times the factors of the fuel in force. *)
Theorem C99_emissions : forall pow first rest vars vm (tm : list (period * fuel_type)) fuel result_periods power u reg,
  let ps := first :: rest in
  let n := List.length ps in
  make_variables_map ps vars = Ok vm -> contiguous ps ->
  (forall r l, dict_get String.eqb r vars = Some l -> List.length l = n) ->
  disjoint_entries tm -> (forall e, In e tm -> nonempty (fst e)) ->
  (forall q m, In (q, m) tm -> no_cut ps (p_start q) /\ no_cut ps (p_end q)) ->
  (forall q m, In (q, m) tm -> NoDup (map fst m)) ->
  (forall q m name ts, In (q, m) tm -> In (name, ts) m -> exists v, evaluate pow ts vars n = Ok v) ->
  List.length fuel = n -> List.length reg = n ->
  exists d, fuel_consumer_emissions pow vm reg tm (mkConsumerResult result_periods (mkSeries ps fuel u) power) = Ok d /\
    NoDup (map fst d) /\
    (forall name, In name (map fst d) <-> exists q m, In (q, m) tm /\ In name (map fst m)) /\
    forall name s, In (name, s) d ->
      r_periods s = ps /\ r_unit s = TONS_PER_DAY /\ r_type s = STREAM_DAY /\ r_regularity s = map Some reg /\ List.length (r_values s) = n /\
      forall k p, nth_error ps k = Some p ->
        (forall t m ts, In_period t p -> in_force tm t m -> In (name, ts) m ->
           exists f x, evaluates_at pow vars n ts k x /\ nth_error fuel k = Some f /\
             nth_error (r_values s) k = Some (nmul f (Some (x / qz 1000)%Qc))) /\
        ((forall t m, In_period t p -> in_force tm t m -> ~ In name (map fst m)) -> nth_error (r_values s) k = Some (Some 0%Qc)).
Proof. exact fuel_emissions_proof. Qed.
Print Assumptions C99_emissions.

Example C99_covered_case : exists fuel model, contiguous (map fst fuel) /\ contiguous (map fst model) /\ make_fuel_consumer (F := nat) (M := nat) fuel model = Ok tt /\
  make_fuel_consumer fuel ((mkPeriod (-5) 10, 1%nat) :: model) = Err ValidationError.
Proof.
  exists [(mkPeriod 0 20, 1%nat); (mkPeriod 20 40, 2%nat)], [(mkPeriod 10 20, 1%nat); (mkPeriod 20 35, 2%nat)].
  split; [cbn; unfold nonempty; cbn; lia|]. split; [cbn; unfold nonempty; cbn; lia|]. split; reflexivity.
Qed.
Example C99_fuel_case : exists before qs after g1 gq g2, em_periods = before ++ qs ++ after /\ qs <> [] /\ before <> [] /\ after <> [] /\
  em_reg = g1 ++ gq ++ g2 /\ List.length g1 = List.length before /\ List.length gq = List.length qs /\ List.length g2 = List.length after /\ gq = [1%Qc].
Proof.
  exists [mkPeriod 0 86400], [mkPeriod 86400 172800], [mkPeriod 172800 259200], [qc 1 2], [1%Qc], [0%Qc]. repeat split; try reflexivity; discriminate.
Qed.
Example C99_power_case : exists values usage, List.length values = 3%nat /\
  match fuel_consumer_power em_vm em_reg (mkConsumerResult em_periods usage (Some (mkSeries em_periods values MEGA_WATT))) with Ok (Some s) => List.length (r_values s) | _ => 0%nat end = 3%nat /\
  fuel_consumer_power em_vm em_reg (mkConsumerResult em_periods usage (Some (mkSeries [mkPeriod 0 86400] [Some (qz 1)] MEGA_WATT))) = Ok None.
Proof. exists [Some (qz 1); None; Some (qz 3)], (mkSeries em_periods [] STANDARD_CUBIC_METER_PER_DAY). split; [reflexivity|]. split; vm_compute; reflexivity. Qed.
Definition em_fuels : list (period * fuel_type) :=
  [(mkPeriod 0 86400, [make_emission "CO2" [TNum (qz 2000)]]); (mkPeriod 86400 259200, [make_emission "CO2" [TRef "x"]; make_emission "NOX" [TNum (qz 500)]])].
Example C99_emissions_case : disjoint_entries em_fuels /\ (forall e, In e em_fuels -> nonempty (fst e)) /\
  (forall q m, In (q, m) em_fuels -> no_cut em_periods (p_start q) /\ no_cut em_periods (p_end q)) /\
  (forall q m, In (q, m) em_fuels -> NoDup (map fst m)) /\
  (forall q m name ts, In (q, m) em_fuels -> In (name, ts) m -> exists v, evaluate (fun x _ => x) ts em_vars 3 = Ok v) /\
  em_shown (fuel_consumer_emissions (fun x _ => x) em_vm em_reg em_fuels
     (mkConsumerResult em_periods (mkSeries em_periods [Some (qz 1); Some (qz 5); Some (qz 4)] STANDARD_CUBIC_METER_PER_DAY) None)) =
    em_shown (Ok [("co2"%string, mkRate [] [Some (qz 2); Some (qc 30 1000); Some (qc 32 1000)] NONE STREAM_DAY []); ("nox"%string, mkRate [] [Some (qz 0); Some (qc 5 2); Some (qz 2)] NONE STREAM_DAY [])]).
Proof.
  split.
  { intros i j e f d He Hf. destruct i as [|[|i]], j as [|[|j]]; cbn in He, Hf; try (destruct i; discriminate); try (destruct j; discriminate);
      injection He as <-; injection Hf as <-; unfold In_period; cbn; intros; lia. }
  split; [intros e [<-|[<-|[]]]; unfold nonempty; cbn; lia|]. split.
  { intros q m [E|[E|[]]]; injection E as <- <-; split; intros p [<-|[<-|[<-|[]]]]; cbn; lia. }
  split. { intros q m [E|[E|[]]]; injection E as <- <-; vm_compute; repeat constructor; cbn; intuition discriminate. }
  split. { intros q m name ts [E|[E|[]]] Hm; injection E as <- <-; cbn in Hm; repeat (destruct Hm as [Hm|Hm]; [injection Hm as <- <-; eexists; vm_compute; reflexivity|]); try contradiction; injection Hm as <- <-; eexists; vm_compute; reflexivity. }
  vm_compute. reflexivity.
Qed.

(** C26, C27, C30, C49, C52, C53, C54: fuels, generator sets, power loss, regularity, turbines, cable loss, rates. *)
From Coq Require Import PeanoNat String.
From Verif Require Import QcTac Base BaseLemmas Time_Model Time_Spec Time_Proofs Num Expr_Model Vars_Model
  Units_Model Rates_Model Input_Model Interp_Model Interp_Spec Interp_Proofs Energy_Model Energy_Proofs Energy_Proofs2 Energy_Proofs3.
Local Open Scope list_scope.
Local Open Scope Z_scope.

(** C26: the emissions reported are exactly those of the fuels; in every period each is the fuel rate times the factor
    of the fuel in force (kilograms to tons), zero if that fuel does not have it. *)
Theorem C26_emissions : forall pow first rest vars vm (tm : list (period * fuel_type)) fuel,
  let ps := first :: rest in
  let n := length ps in
  make_variables_map ps vars = Ok vm -> contiguous ps ->
  (forall r l, dict_get String.eqb r vars = Some l -> length l = n) ->
  disjoint_entries tm -> (forall e, In e tm -> nonempty (fst e)) ->
  (forall q m, In (q, m) tm -> no_cut ps (p_start q) /\ no_cut ps (p_end q)) ->
  (* a fuel does not list an emission twice *)
  (forall q m, In (q, m) tm -> NoDup (map fst m)) ->
  (forall q m name ts, In (q, m) tm -> In (name, ts) m -> exists v, evaluate pow ts vars n = Ok v) ->
  length fuel = n ->
  exists d, evaluate_emissions pow vm tm fuel = Ok d /\
    NoDup (map fst d) /\
    (forall name, In name (map fst d) <-> exists q m, In (q, m) tm /\ In name (map fst m)) /\
    forall name values, In (name, values) d -> length values = n /\
      forall k p, nth_error ps k = Some p ->
        (forall t m ts, In_period t p -> in_force tm t m -> In (name, ts) m ->
           exists v f x, evaluate pow ts vars n = Ok v /\ nth_error fuel k = Some f /\ nth_error v k = Some x /\
             nth_error values k = Some (nmul f (Some (x / qz 1000)%Qc))) /\
        ((forall t m, In_period t p -> in_force tm t m -> ~ In name (map fst m)) -> nth_error values k = Some (Some 0%Qc)).
Proof. exact emissions_proof. Qed.
Print Assumptions C26_emissions.

(** C26 fails: the names are lower-cased, so a fuel with CO2 and co2 is an assertion failure. *)
Theorem C26_duplicate_refuted : exists ps vars vm (tm : list (period * fuel_type)) fuel,
  make_variables_map ps vars = Ok vm /\ contiguous ps /\
  tm = [(mkPeriod 0 30, [make_emission "CO2" [TNum (qz 2)]; make_emission "co2" [TNum (qz 3)]])] /\
  length fuel = length ps /\ forall pow, evaluate_emissions pow vm tm fuel = Err AssertionError.
Proof. exact emissions_duplicate_refuted_proof. Qed.
Print Assumptions C26_duplicate_refuted.

Definition fuels3 : list (period * fuel_type) :=
  [(mkPeriod 0 20, [make_emission "CO2" [TNum (qz 2000)]]);
   (mkPeriod 20 30, [make_emission "CO2" [TRef "x"]; make_emission "NOX" [TNum (qz 500)]])].
Example C26_case : make_variables_map grid3 [("x"%string, [qz 1; qz 2; qz 3])] = Ok vm3 /\ contiguous grid3 /\
  disjoint_entries fuels3 /\ (forall e, In e fuels3 -> nonempty (fst e)) /\
  (forall q m, In (q, m) fuels3 -> no_cut grid3 (p_start q) /\ no_cut grid3 (p_end q)) /\
  (forall q m, In (q, m) fuels3 -> NoDup (map fst m)) /\
  (forall q m name ts, In (q, m) fuels3 -> In (name, ts) m ->
     exists v, evaluate (fun x _ => x) ts [("x"%string, [qz 1; qz 2; qz 3])] 3 = Ok v) /\
  exists d, evaluate_emissions (fun x _ => x) vm3 fuels3 [Some (qz 1); Some (qz 5); Some (qz 4)] = Ok d /\
    map fst d = ["co2"; "nox"]%string /\
    map (fun e => map (option_map this) (snd e)) d =
      [map (option_map this) [Some (qz 2); Some (qz 10); Some (qc 12 1000)];
       map (option_map this) [Some (qz 0); Some (qz 0); Some (qz 2)]].
Proof.
  split; [reflexivity|]. split; [cbn; unfold nonempty; cbn; lia|]. split.
  { intros i j e f d He Hf. destruct i as [|[|i]], j as [|[|j]]; cbn in He, Hf; try (destruct i; discriminate); try (destruct j; discriminate);
      injection He as <-; injection Hf as <-; unfold In_period; cbn; intros; lia. }
  split; [intros e [<-|[<-|[]]]; unfold nonempty; cbn; lia|]. split.
  { intros q m [E|[E|[]]]; injection E as <- <-; split; intros p [<-|[<-|[<-|[]]]]; cbn; lia. }
  split. { intros q m [E|[E|[]]]; injection E as <- <-; vm_compute; repeat constructor; cbn; intuition discriminate. }
  split. { intros q m name ts [E|[E|[]]] Hm; injection E as <- <-; cbn in Hm; repeat (destruct Hm as [Hm|Hm]; [injection Hm as <- <-; eexists; vm_compute; reflexivity|]); try contradiction; injection Hm as <- <-; eexists; vm_compute; reflexivity. }
  eexists. split; [vm_compute; reflexivity|]. split; vm_compute; reflexivity.
Qed.

(** C27: the power requirement of consumers with finite power is their sum. *)
Theorem C27_power_requirement : forall (consumers : list (option (list Qc))) n,
  (forall v, In (Some v) consumers -> length v = n) ->
  exists r, power_requirement (map (option_map (map Some)) consumers) = Ok r /\
    (present consumers = [] -> r = None) /\
    (present consumers <> [] -> exists total, r = Some total /\ length total = n /\
       forall k, (k < n)%nat -> nth_error total k = Some (Some (qsum (map (fun v => nth k v 0%Qc) (present consumers))))).
Proof. exact power_requirement_proof. Qed.
Print Assumptions C27_power_requirement.

(** C27: fuel and margin of one generator set model: no fuel without power, the interpolated fuel in the table, the
    smallest and largest tabulated fuel outside it; the margin is the largest tabulated power minus the power. *)
Theorem C27_generator_set : forall t g, make_generator_set t = Ok g ->
  exists power fuel cap lo hi, column_of t "POWER" power /\ column_of t "FUEL" fuel /\ length power = length fuel /\
    maximum_of power cap /\ minimum_of fuel lo /\ maximum_of fuel hi /\
    (forall x, evaluate_power_capacity_margin g (Some x) = Some (cap - x)%Qc) /\
    (forall x, (x <= 0)%Qc -> evaluate_fuel_usage g (Some x) = Some 0%Qc) /\
    (NoDup power -> forall x, (0 < x)%Qc ->
       (in_range (combine power fuel) x -> exists y, interpolates (combine power fuel) x y /\ evaluate_fuel_usage g (Some x) = Some y) /\
       ((forall p, In p power -> (x < p)%Qc) -> evaluate_fuel_usage g (Some x) = Some lo) /\
       ((cap < x)%Qc -> evaluate_fuel_usage g (Some x) = Some hi)).
Proof. exact generator_set_proof. Qed.
Print Assumptions C27_generator_set.

(** C27: where a model is in force, fuel and margin are those of the requirement, and the period is invalid exactly
    when the margin is negative. *)
Theorem C27_result : forall first rest vars vm (tm : list (period * generator_set)) power,
  let ps := first :: rest in
  make_variables_map ps vars = Ok vm -> contiguous ps -> disjoint_entries tm -> (forall e, In e tm -> nonempty (fst e)) ->
  (forall q m, In (q, m) tm -> no_cut ps (p_start q) /\ no_cut ps (p_end q)) ->
  (* the models are tables *)
  (forall q g, In (q, g) tm -> exists t, make_generator_set t = Ok g) ->
  length power = length ps ->
  exists r, evaluate_process_model vm tm (Some power) = Ok r /\ gr_power r = power /\
    length (gr_valid r) = length ps /\ length (gr_margin r) = length ps /\ length (gr_fuel r) = length ps /\
    forall k p t g x, nth_error ps k = Some p -> In_period t p -> in_force tm t g -> nth_error power k = Some (Some x) ->
      nth_error (gr_fuel r) k = Some (evaluate_fuel_usage g (Some x)) /\
      (exists margin, nth_error (gr_margin r) k = Some (Some margin) /\
         evaluate_power_capacity_margin g (Some x) = Some margin /\
         (nth_error (gr_valid r) k = Some true <-> (0 <= margin)%Qc) /\
         (nth_error (gr_valid r) k = Some false <-> (margin < 0)%Qc)).
Proof. exact genset_result_proof. Qed.
Print Assumptions C27_result.

(** C27: where no model is in force the period is invalid, with margin 0. *)
Theorem C27_no_model : forall first rest vars vm (tm : list (period * generator_set)) power,
  let ps := first :: rest in
  make_variables_map ps vars = Ok vm -> contiguous ps -> disjoint_entries tm -> (forall e, In e tm -> nonempty (fst e)) ->
  (forall q m, In (q, m) tm -> no_cut ps (p_start q) /\ no_cut ps (p_end q)) -> length power = length ps ->
  exists r, evaluate_process_model vm tm (Some power) = Ok r /\
    forall k p x, nth_error ps k = Some p -> nth_error power k = Some x -> (forall t g, In_period t p -> ~ in_force tm t g) ->
      nth_error (gr_margin r) k = Some (Some 0%Qc) /\ nth_error (gr_valid r) k = Some false.
Proof. exact genset_no_model_proof. Qed.
Print Assumptions C27_no_model.

(** C27 fails there: the period is invalid, its margin is not negative and its fuel is 0 although power is required. *)
Theorem C27_margin_refuted : exists ps vars vm (tm : list (period * generator_set)) power r,
  make_variables_map ps vars = Ok vm /\ contiguous ps /\ make_generator_set table2 = Ok genset2 /\ tm = [(mkPeriod 10 30, genset2)] /\
  evaluate_process_model vm tm (Some power) = Ok r /\ nth_error power 0 = Some (Some (qz 5)) /\
  nth_error (gr_valid r) 0 = Some false /\ nth_error (gr_margin r) 0 = Some (Some 0%Qc) /\ nth_error (gr_fuel r) 0 = Some (Some 0%Qc).
Proof. exact genset_margin_refuted_proof. Qed.
Print Assumptions C27_margin_refuted.

Example C27_case : power_requirement [Some [Some (qz 1); Some (qz 12)]; None; Some [Some (qz 4); Some (qz 9)]] =
    Ok (Some [Some (qz 5); Some (qz 21)]) /\
  evaluate_fuel_usage genset2 (Some (qz 15)) = Some (qz 350) /\ evaluate_power_capacity_margin genset2 (Some (qz 21)) = Some (qz (-1)) /\
  in_force [(mkPeriod 10 30, genset2)] 15 genset2 /\ disjoint_entries [(mkPeriod 10 30, genset2)] /\
  no_cut grid3 10 /\ no_cut grid3 30.
Proof.
  split; [vm_compute; reflexivity|]. split; [num_compute|]. split; [num_compute|].
  split; [exists (mkPeriod 10 30); split; [now left|unfold In_period; cbn; lia]|].
  split. { intros i j e f d He Hf _ _. destruct i as [|[|i]], j as [|[|j]]; cbn in *; try discriminate; reflexivity. }
  split; intros p [<-|[<-|[<-|[]]]]; cbn; lia.
Qed.

(** C30: power loss. *)
Theorem C30_power_loss : forall usage factor, length usage = length factor ->
  exists usage', apply_power_loss (map Some usage) factor = Ok usage' /\ length usage' = length usage /\
    forall k u f, nth_error usage k = Some u -> nth_error factor k = Some f ->
      (f <> 1%Qc -> exists u', nth_error usage' k = Some (Some u') /\ (u' * (1 - f) = u)%Qc) /\
      (f = 0%Qc -> nth_error usage' k = Some (Some u)) /\
      (f = 1%Qc -> nth_error usage' k = Some None).
Proof. exact power_loss_proof. Qed.
Print Assumptions C30_power_loss.
Example C30_case : exists l, apply_power_loss [Some (qz 9); Some (qz 5)] [qc 1 10; qz 0] = Ok l /\ l = [Some (qz 10); Some (qz 5)].
Proof. eexists. split; [vm_compute; reflexivity|]. num_compute. Qed.

(** C49: a regularity is accepted exactly when every value written is between 0 and 1, and then has those values. *)
Theorem C49_regularity : forall pow first rest vars vm (data : temporal_data expression_input) target,
  let ps := first :: rest in
  let n := length ps in
  make_variables_map ps vars = Ok vm -> contiguous ps ->
  (forall r l, dict_get String.eqb r vars = Some l -> length l = n) ->
  data_well_formed data -> data_ordered data -> nonempty target -> p_end target <= DT_MAX ->
  (forall t p, t = p_start target \/ t = p_end target \/ In t (data_dates data) -> In p ps -> ~ (p_start p < t < p_end p)) ->
  (forall e, In e (data_models data) -> exists v, evaluate pow (input_tokens e) vars n = Ok v) ->
  data <> TDPlain (INumber 0%Qc) -> data <> TDPlain (IText []) ->
  (* x is the value written for period k *)
  let written k x := exists p d e v, nth_error ps k = Some p /\ In_period d p /\ In_period d target /\
    data_in_force data d e /\ evaluate pow (input_tokens e) vars n = Ok v /\ nth_error v k = Some x in
  ((forall k x, written k x -> (0 <= x)%Qc /\ (x <= 1)%Qc) ->
     exists values, regularity_values pow (Some data) target vm = Ok values /\ length values = n /\
       forall k x, written k x -> nth_error values k = Some x) /\
  ((exists k x, written k x /\ ~ ((0 <= x)%Qc /\ (x <= 1)%Qc)) -> regularity_values pow (Some data) target vm = Err ValidationError).
Proof. exact regularity_proof. Qed.
Print Assumptions C49_regularity.

(** C49 fails for the number 0: like no regularity at all it means 1. *)
Theorem C49_zero_refuted : forall pow first rest vars vm target,
  let ps := first :: rest in
  make_variables_map ps vars = Ok vm -> contiguous ps ->
  (forall r l, dict_get String.eqb r vars = Some l -> length l = length ps) ->
  p_start target <= p_start first -> p_end (last rest first) <= p_end target -> p_end target <= DT_MAX ->
  regularity_values pow (Some (TDPlain (INumber 0%Qc))) target vm = Ok (repeat 1%Qc (length ps)) /\
  regularity_values pow None target vm = Ok (repeat 1%Qc (length ps)).
Proof. exact regularity_zero_proof. Qed.
Print Assumptions C49_zero_refuted.

Definition C49_data : temporal_data expression_input := TDDates (0, INumber 0%Qc) [(20, IText [TRef "x"; TOp "{/}"; TNum (qz 6)])].
Example C49_case : data_well_formed C49_data /\ data_ordered C49_data /\ C49_data <> TDPlain (INumber 0%Qc) /\ C49_data <> TDPlain (IText []) /\
  (forall t p, t = 0 \/ t = 30 \/ In t (data_dates C49_data) -> In p grid3 -> ~ (p_start p < t < p_end p)) /\
  (exists l, regularity_values (fun x _ => x) (Some C49_data) (mkPeriod 0 30) vm3 = Ok l /\ map this l = map this [qz 0; qz 0; qc 1 2]) /\
  regularity_values (fun x _ => x) (Some (TDPlain (IText [TRef "x"]))) (mkPeriod 0 30) vm3 = Err ValidationError /\
  (exists l, regularity_values (fun x _ => x) (Some (TDPlain (INumber 0%Qc))) (mkPeriod 0 30) vm3 = Ok l /\ map this l = map this [qz 1; qz 1; qz 1]).
Proof.
  split; [cbn; unfold DT_MAX; intuition lia|]. split; [exact I|]. split; [discriminate|]. split; [discriminate|].
  split. { cbn. intros t p Ht Hp. destruct Hp as [<-|[<-|[<-|[]]]]; cbn; lia. }
  split; [eexists; split; [vm_compute; reflexivity|]; vm_compute; reflexivity|]. split; [vm_compute; reflexivity|].
  eexists; split; [vm_compute; reflexivity|]; vm_compute; reflexivity.
Qed.

(** C52: turbines. *)
Theorem C52_turbine : forall loads efficiencies lhv a b t fuel_lhv, make_turbine loads efficiencies lhv a b = Ok t ->
  NoDup loads -> (0 < a)%Qc ->
  length loads = length efficiencies /\
  let heat := if Qcltb 0 fuel_lhv then fuel_lhv else lhv in
  (* positive power in the table *)
  (forall x, (0 < x)%Qc -> in_range (combine loads efficiencies) ((x + b) / a) -> (0 < heat)%Qc ->
     exists e, interpolates (combine loads efficiencies) ((x + b) / a)%Qc e /\ (0 <= e)%Qc /\ (e <= 1)%Qc /\
       let r := turbine_evaluate t fuel_lhv (Some x) in
       tr_load r = Some ((x + b) / a)%Qc /\ tr_efficiency r = Some e /\
       (e <> 0%Qc -> exists u, tr_usage r = Some u /\ (u * e * heat = (x + b) / a * qz 86400)%Qc)) /\
  (* no power, no fuel *)
  ((forall l, In l loads -> (0 <= l)%Qc) -> forall x, (x <= 0)%Qc -> tr_usage (turbine_evaluate t fuel_lhv (Some x)) = Some 0%Qc) /\
  (* the flag compares the power itself with the largest load *)
  (exists m, maximum_of loads m /\ turbine_max_power t = (m * a - b)%Qc /\
     (forall x, tr_exceeds (turbine_evaluate t fuel_lhv (Some x)) = true <-> (m < x)%Qc) /\
     (forall x, (m < (x + b) / a)%Qc <-> (turbine_max_power t < x)%Qc)).
Proof. exact turbine_proof. Qed.
Print Assumptions C52_turbine.

(** C52 fails: power within the maximum power is flagged as exceeding the maximum load. *)
Theorem C52_flag_refuted : exists loads efficiencies lhv a b t x,
  make_turbine loads efficiencies lhv a b = Ok t /\ (0 < a)%Qc /\
  (x < turbine_max_power t)%Qc /\ tr_exceeds (turbine_evaluate t 0%Qc (Some x)) = true.
Proof. exact turbine_flag_refuted_proof. Qed.
Print Assumptions C52_flag_refuted.

(** C52 fails: positive power below the smallest tabulated load uses no fuel and is not flagged. *)
Theorem C52_below_table_refuted : exists loads efficiencies lhv t x,
  make_turbine loads efficiencies lhv 1%Qc 0%Qc = Ok t /\ (0 < lhv)%Qc /\ (0 < x)%Qc /\
  tr_usage (turbine_evaluate t 0%Qc (Some x)) = Some 0%Qc /\ tr_exceeds (turbine_evaluate t 0%Qc (Some x)) = false.
Proof. exact turbine_below_refuted_proof. Qed.
Print Assumptions C52_below_table_refuted.

Example C52_case : exists t, make_turbine [qz 0; qz 10] [qc 1 10; qc 3 10] (qz 40) 1%Qc 0%Qc = Ok t /\
  tr_usage (turbine_evaluate t 0%Qc (Some (qz 5))) = Some (qz 54000).
Proof. eexists. split; [vm_compute; reflexivity|]. num_compute. Qed.

(** C53: cable loss is added exactly where the category is power from shore. *)
Theorem C53_cable_loss : forall (category : list (period * bool)) ps power loss,
  length power = length ps -> length loss = length ps -> (forall p, In p ps -> nonempty p) ->
  exists effective total, cable_loss_values category ps loss = Ok effective /\ power_production (map Some power) (Some effective) = Ok total /\
    length total = length ps /\
    forall k p x l, nth_error ps k = Some p -> nth_error power k = Some x -> nth_error loss k = Some l ->
      (* the whole period lies in an entry of the category model and the first such entry is power from shore *)
      (forall q c, find (fun e => contains_period (fst e) p) category = Some (q, c) ->
         nth_error total k = Some (Some (if c then x * (1 + l) else x)%Qc)) /\
      (find (fun e => contains_period (fst e) p) category = None -> nth_error total k = Some (Some x)).
Proof. exact cable_loss_proof. Qed.
Print Assumptions C53_cable_loss.
Example C53_case : exists e t, cable_loss_values [(mkPeriod 10 30, true)] grid3 [qc 1 10; qc 1 10; qc 1 5] = Ok e /\
  power_production [Some (qz 5); Some (qz 10); Some (qz 10)] (Some e) = Ok t /\ t = [Some (qz 5); Some (qz 11); Some (qz 12)].
Proof. eexists. eexists. split; [vm_compute; reflexivity|]. split; [vm_compute; reflexivity|]. num_compute. Qed.

(** C54: stream-day rates with a condition; negative rates are refused. *)
Theorem C54_flow_rates : forall mask values ty regularity, length regularity = length values ->
  (forall m, mask = Some m -> length m = length values) ->
  (* the rate the input means in period k *)
  let meant k r := exists v c g, nth_error values k = Some v /\ mask_value mask k = Some c /\ nth_error regularity k = Some g /\
    match ty with
    | STREAM_DAY => r = (if Qceqb c 0 then 0%Qc else v)
    | CALENDAR_DAY => if Qceqb c 0 then r = 0%Qc else if Qceqb g 0 then r = 0%Qc else (r * g)%Qc = v
    end in
  ((forall k r, meant k r -> (0 <= r)%Qc) ->
    exists rates, flow_rates mask (map Some values) ty (map Some regularity) = Ok rates /\ length rates = length values /\
      forall k r, meant k r -> nth_error rates k = Some (Some r)) /\
  ((exists k r, meant k r /\ (r < 0)%Qc) -> flow_rates mask (map Some values) ty (map Some regularity) = Err ValidationError).
Proof. exact flow_rate_proof. Qed.
Print Assumptions C54_flow_rates.
Example C54_case : exists l, flow_rates (Some [qz 1; qz 0; qz 2]) [Some (qz 5); Some (qz (-3)); Some (qz 7)] CALENDAR_DAY [Some (qc 1 2); Some 1%Qc; Some 0%Qc] = Ok l /\
  l = [Some (qz 10); Some 0%Qc; Some 0%Qc] /\
  flow_rates None [Some (qz (-3))] STREAM_DAY [Some 1%Qc] = Err ValidationError.
Proof. eexists. split; [vm_compute; reflexivity|]. split; [num_compute|reflexivity]. Qed.

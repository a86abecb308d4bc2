(** C100 to C103: the results of consumers whose energy usage models change over time. *)
From Coq Require Import PeanoNat String.
From Verif Require Import QcTac Num Base BaseLemmas Time_Model Time_Spec Time_Proofs Expr_Model Expr_Spec Vars_Model Vars_Proofs Units_Model Rates_Model Input_Model Interp_Model Interp_Spec Energy_Model Emitters_Spec
  Consumer_Model Consumer_Spec Consumer_Proofs Consumer_Proofs7 Consumer_Proofs9 Consumer_Proofs10.
Local Open Scope list_scope.
Local Open Scope Z_scope.

(** C100: the results of successive models become one series over all periods of the run: the values of each where it has
    periods, the fill value elsewhere; a result that may lack the attribute and does leaves none for the whole. *)
Theorem C100_concatenated : forall R V (periods : R -> list period) (attribute : R -> option (list V)) unit allow_none fill r rs all,
  let results := r :: rs in
  (* every result has periods, a value for each, and the same unit; the periods of the results follow each other *)
  (forall x, In x results -> periods x <> [] /\ unit x = unit r) ->
  (forall x vs, In x results -> attribute x = Some vs -> List.length vs = List.length (periods x)) ->
  contiguous (flat_map periods results) -> NoDup all -> (forall x p, In x results -> In p (periods x) -> In p all) ->
  (* the attribute is there, or may be missing *)
  ((forall x, In x results -> attribute x = None -> allow_none = false) ->
   exists s, concatenated periods attribute unit allow_none fill results all = Ok (Some s) /\
     s_periods s = all /\ s_unit s = unit r /\ List.length (s_values s) = List.length all /\
     forall k q, nth_error all k = Some q ->
       (forall x i vs, In x results -> nth_error (periods x) i = Some q -> attribute x = Some vs -> nth_error (s_values s) k = nth_error vs i) /\
       (forall x, In x results -> In q (periods x) -> attribute x = None -> nth_error (s_values s) k = Some fill) /\
       ((forall x, In x results -> ~ In q (periods x)) -> nth_error (s_values s) k = Some fill)) /\
  (* a result without the attribute: nothing is reported for any of them *)
  (forall x, In x results -> attribute x = None -> allow_none = true -> concatenated periods attribute unit allow_none fill results all = Ok None).
Proof. exact concatenated_proof. Qed.
Print Assumptions C100_concatenated.

(** C100: no results, results in different units, or results that do not follow each other are refused. *)
Theorem C100_refused : forall R V (periods : R -> list period) (attribute : R -> option (list V)) unit allow_none fill all,
  (* no results *)
  concatenated periods attribute unit allow_none fill [] all = Err AssertionError /\
  forall results, results <> [] -> (forall x, In x results -> periods x <> [] /\ exists vs, attribute x = Some vs /\ List.length vs = List.length (periods x)) ->
    (* different units *)
    ((exists x y, In x results /\ In y results /\ unit x <> unit y) ->
       concatenated periods attribute unit allow_none fill results all = Err AssertionError) /\
    (* a gap or an overlap: a result that neither begins where those before it end nor ends where they begin *)
    (forall before r x after b bs p ps q qs, results = (before ++ [r]) ++ x :: after -> (forall y, In y results -> unit y = unit r) ->
       contiguous (flat_map periods (before ++ [r])) -> flat_map periods (before ++ [r]) = b :: bs ->
       contiguous (periods x) -> periods r = p :: ps -> periods x = q :: qs ->
       p_end (last ps p) <> p_start q -> p_end (last qs q) <> p_start b ->
       concatenated periods attribute unit allow_none fill results all = Err ValueError).
Proof. exact concatenated_refused_proof. Qed.
Print Assumptions C100_refused.

(** C100: the numbers of the operational settings used count from one, and are zero where nothing was evaluated. *)
Theorem C100_settings : forall R (periods : R -> list period) (used : R -> list Z) r rs all,
  let results := r :: rs in
  (forall x, In x results -> periods x <> [] /\ List.length (used x) = List.length (periods x)) ->
  contiguous (flat_map periods results) -> NoDup all -> (forall x p, In x results -> In p (periods x) -> In p all) ->
  exists s, result_settings periods used results all = Ok (Some s) /\ s_periods s = all /\ List.length (s_values s) = List.length all /\
    forall k q, nth_error all k = Some q ->
      (forall x i u, In x results -> nth_error (periods x) i = Some q -> nth_error (used x) i = Some u -> nth_error (s_values s) k = Some (u + 1)) /\
      ((forall x, In x results -> ~ In q (periods x)) -> nth_error (s_values s) k = Some 0).
Proof. exact settings_proof. Qed.
Print Assumptions C100_settings.

Definition cn_periods : list period := [mkPeriod 0 86400; mkPeriod 86400 172800; mkPeriod 172800 259200].
Definition cn_first : function_result := mkFR [mkPeriod 86400 172800] [Some (qz 3)] MEGA_WATT (Some [Some (qz 3)]) [true].
Definition cn_second : function_result := mkFR [mkPeriod 172800 259200] [Some (qz 4)] MEGA_WATT None [false].
Definition cn_other : function_result := mkFR [mkPeriod 172800 259200] [Some (qz 4)] STANDARD_CUBIC_METER_PER_DAY None [false].
Lemma cn_nodup : NoDup cn_periods.
Proof. repeat constructor; cbn; intuition discriminate. Qed.
Example C100_concatenated_case : (forall x, In x [cn_first; cn_second] -> fr_periods x <> [] /\ fr_unit x = fr_unit cn_first) /\
  contiguous (flat_map fr_periods [cn_first; cn_second]) /\ NoDup cn_periods /\
  (forall x p, In x [cn_first; cn_second] -> In p (fr_periods x) -> In p cn_periods) /\
  match result_energy [cn_first; cn_second] cn_periods with Ok (Some s) => map (option_map this) (s_values s) | _ => [] end = map (option_map this) [Some (qz 0); Some (qz 3); Some (qz 4)] /\
  match result_valid [cn_first; cn_second] cn_periods with Ok (Some s) => s_values s | _ => [] end = [true; true; false] /\
  result_power [cn_first; cn_second] cn_periods = Ok None.
Proof.
  split. { intros x [<-|[<-|[]]]; (split; [discriminate|reflexivity]). } split; [cbn; unfold nonempty; cbn; lia|]. split; [exact cn_nodup|].
  split. { intros x p [<-|[<-|[]]] [<-|[]]; cbn; auto. } split; [vm_compute; reflexivity|]. split; [vm_compute; reflexivity|]. vm_compute. reflexivity.
Qed.
Example C100_refused_case : (exists x y, In x [cn_first; cn_other] /\ In y [cn_first; cn_other] /\ fr_unit x <> fr_unit y) /\
  result_energy [cn_first; cn_other] cn_periods = Err AssertionError /\
  result_energy [mkFR [mkPeriod 0 86400] [Some (qz 3)] MEGA_WATT None [true]; cn_second] cn_periods = Err ValueError.
Proof. split; [exists cn_first, cn_other; cbn; split; [auto|]; split; [auto|]; discriminate|]. split; vm_compute; reflexivity. Qed.
Example C100_settings_case : match result_settings fr_periods (fun r => [if unit_eqb (fr_unit r) MEGA_WATT then 2 else 0]) [cn_first; cn_other] cn_periods with Ok (Some s) => s_values s | _ => [] end = [0; 3; 1].
Proof. vm_compute. reflexivity. Qed.

(** C101: a consumer with direct energy usage models reports, in each period, the load of the model in force there (zero where
    its conditions do not hold, divided by the regularity when given per calendar day, with the losses added), and zero
    where none is; a model of the other kind or a negative fuel rate is refused. *)
Theorem C101_direct : forall pow consumes first rest vars vm input g (data : temporal_data direct_model) target,
  let ps := first :: rest in
  let n := List.length ps in
  consumer_setting pow first rest vars input data target ->
  make_variables_map ps vars = Ok vm -> regularity_values pow input (whole_of first rest) vm = Ok g ->
  (forall m, In m (data_models data) -> direct_ok pow vars n m) ->
  let run := evaluate_consumer pow (direct_evaluate pow consumes) input vm data target in
  (* some model in force, and every one in force is acceptable *)
  ((exists k m, in_force_at ps data target k m) ->
   (forall k m, in_force_at ps data target k m -> direct_acceptable pow vars n g consumes m k) ->
   exists s, run = Ok (Some s) /\ consumer_result ps consumes data target (fun m k e v => direct_energy pow vars n g m k e /\ v = true) s) /\
  (* a model in force that is not acceptable *)
  ((exists k m, in_force_at ps data target k m /\ ~ direct_acceptable pow vars n g consumes m k) -> run = Err ValidationError) /\
  (* no model in force *)
  ((forall k m, ~ in_force_at ps data target k m) -> run = Ok None).
Proof. exact direct_consumer_proof. Qed.
Print Assumptions C101_direct.

Definition cn_vars : variables_dict := [("x"%string, [qz 4; qz 6; qz 8]); ("on"%string, [qz 1; qz 1; qz 0])].
Definition cn_vm : variables_map := mkVM cn_periods [0; 86400; 172800; 259200] cn_vars.
Definition cn_head : period := mkPeriod 0 86400.
Definition cn_rest : list period := [mkPeriod 86400 172800; mkPeriod 172800 259200].
Definition cn_regularity : option (temporal_data expression_input) := Some (TDPlain (INumber (qc 1 2))).
Definition cn_load : direct_model := mkDirect POWER (IText [TRef "x"]) (Some CALENDAR_DAY) (mkCommon None (Some [IText [TRef "on"]; INumber (qz 2)]) (Some (INumber (qc 1 5)))).
Definition cn_switched : direct_model := mkDirect POWER (INumber (qz 3)) None (mkCommon (Some (IText [TRef "on"])) None None).
Definition cn_models : temporal_data direct_model := TDDates (86400, cn_load) [(172800, cn_switched)].
Lemma cn_lengths : forall r l, dict_get String.eqb r cn_vars = Some l -> List.length l = 3%nat.
Proof.
  intros r l. unfold cn_vars. cbn [dict_get]. destruct (String.eqb r "x"); [intros E; injection E as <-; reflexivity|].
  destruct (String.eqb r "on"); [intros E; injection E as <-; reflexivity|discriminate].
Qed.
Lemma cn_dates : forall M (a b : M), consumer_setting (fun x _ => x) cn_head cn_rest cn_vars cn_regularity (TDDates (86400, a) [(172800, b)]) (whole_of cn_head cn_rest).
Proof.
  intros M a b. split; [cbn; unfold nonempty; cbn; lia|]. split; [cbn; unfold DT_MAX; lia|]. split; [exact cn_lengths|].
  split. { split; [exact I|]. split; [exact I|]. split; [intros t p []|]. intros e [<-|[]]. exact I. }
  split; [discriminate|]. split; [split; [repeat constructor; cbn; lia|unfold DT_MAX; intros k [<-|[<-|[]]]; cbn [fst]; lia]|]. split; [unfold nonempty; cbn; lia|]. split; [cbn; lia|]. split; [cbn; lia|].
  intros t p Ht [<-|[<-|[<-|[]]]]; cbn [whole_of p_start p_end last data_dates map fst In cn_head cn_rest] in *; lia.
Qed.
Example C101_direct_case : consumer_setting (fun x _ => x) cn_head cn_rest cn_vars cn_regularity cn_models (whole_of cn_head cn_rest) /\
  make_variables_map (cn_head :: cn_rest) cn_vars = Ok cn_vm /\
  (forall m, In m (data_models cn_models) -> direct_ok (fun x _ => x) cn_vars 3 m) /\
  in_force_at cn_periods cn_models (whole_of cn_head cn_rest) 1 cn_load /\
  (forall g k m, in_force_at cn_periods cn_models (whole_of cn_head cn_rest) k m -> direct_acceptable (fun x _ => x) cn_vars 3 g POWER m k) /\
  match evaluate_consumer (fun x _ => x) (direct_evaluate (fun x _ => x) POWER) cn_regularity cn_vm cn_models (whole_of cn_head cn_rest) with
  | Ok (Some s) => map (option_map this) (s_values (cs_energy s)) | _ => [] end = map (option_map this) [Some (qz 0); Some (qz 15); Some (qz 0)].
Proof.
  split; [apply cn_dates|]. split; [reflexivity|]. split.
  { intros m [<-|[<-|[]]]; (split; [cbn; try exact I; eexists; vm_compute; reflexivity|]).
    - split; [discriminate|]. split; [|intros e E; injection E as <-; exact I]. intros es e E Ie. injection E as <-. destruct Ie as [<-|[<-|[]]]; [|exact I].
      exists 0%nat, (ERef "on"). split; [constructor|]. intros r [<-|[]]. eexists. reflexivity.
    - split; [|split; discriminate]. intros e E. injection E as <-. split; [eexists; vm_compute; reflexivity|]. split; [reflexivity|]. split; discriminate. }
  split. { exists (mkPeriod 86400 172800), 86400. split; [reflexivity|]. unfold In_period. cbn [p_start p_end whole_of cn_head cn_rest last]. split; [lia|]. split; [lia|].
    split; [unfold DT_MAX; lia|]. exists 86400. split; [now left|]. split; [lia|]. intros k m [E|[E|[]]] L; injection E as <- <-; lia. }
  split. { intros g k m (p & d & _ & _ & _ & F). cbn [data_in_force cn_models] in F. destruct F as [_ (t & [E|[E|[]]] & _)]; injection E as <- <-; (split; [reflexivity|discriminate]). }
  vm_compute. reflexivity.
Qed.
(** what is refused: a negative fuel rate *)
Definition cn_negative : direct_model := mkDirect FUEL (INumber (- qz 3)%Qc) None (mkCommon None None None).
Example C101_refused_case : ~ direct_acceptable (fun x _ => x) cn_vars 3 [1%Qc; 1%Qc; 1%Qc] FUEL cn_negative 1 /\
  evaluate_consumer (fun x _ => x) (direct_evaluate (fun x _ => x) FUEL) cn_regularity cn_vm (TDPlain cn_negative) (whole_of cn_head cn_rest) = Err ValidationError.
Proof.
  split; [|vm_compute; reflexivity]. intros [_ H]. specialize (H eq_refl (- qz 3)%Qc). apply (Qcle_not_lt _ _ (H ltac:(exists (- qz 3)%Qc, true, 1%Qc; split; [reflexivity|]; split; [|split; reflexivity]; split; [discriminate|]; intros (es & e & E & _); discriminate E))). reflexivity.
Qed.

(** C102: with a list of conditions the model is in use exactly where none of them is zero. *)
Theorem C102_conditions : forall pow (vars : variables_dict) n e es,
  (forall r l, dict_get String.eqb r vars = Some l -> List.length l = n) ->
  (forall x, In x (e :: es) -> well_written_input vars x) ->
  exists ts vec, map_condition None (Some (e :: es)) = Some ts /\ evaluate pow ts vars n = Ok vec /\ List.length vec = n /\
    forall k, (k < n)%nat -> nth_error vec k = Some 0%Qc <-> exists x, In x (e :: es) /\ input_at pow vars n x k 0%Qc.
Proof. exact conditions_proof. Qed.
Print Assumptions C102_conditions.

(** C102 fails for the condition 0, which counts as not given. *)
Theorem C102_zero_refuted : exists pow first rest vars vm g (m : direct_model),
  let ps := first :: rest in
  consumer_setting pow first rest vars None (TDPlain m) (whole_of first rest) /\
  make_variables_map ps vars = Ok vm /\ regularity_values pow None (whole_of first rest) vm = Ok g /\
  cl_condition (dm_common m) = Some (INumber 0%Qc) /\ dm_value m = INumber (qz 5) /\
  exists s, evaluate_consumer pow (direct_evaluate pow POWER) None vm (TDPlain m) (whole_of first rest) = Ok (Some s) /\
    map (option_map this) (s_values (cs_energy s)) = [Some (this (qz 5))].
Proof. exact condition_zero_refuted. Qed.
Print Assumptions C102_zero_refuted.

Example C102_conditions_case : (forall x, In x [IText [TRef "on"; TOp "{+}"; TNum (qz 0)]; INumber (qz 2); IText [TRef "x"; TOp ">"; TNum (qz 5)]] -> well_written_input cn_vars x) /\
  match map_condition None (Some [IText [TRef "on"; TOp "{+}"; TNum (qz 0)]; INumber (qz 2); IText [TRef "x"; TOp ">"; TNum (qz 5)]]) with
  | Some ts => match evaluate (fun x _ => x) ts cn_vars 3 with Ok l => map this l | Err _ => [] end | None => [] end = map this [qz 0; qz 2; qz 0].
Proof.
  split; [|vm_compute; reflexivity]. intros x [<-|[<-|[<-|[]]]]; cbn [well_written_input]; [|exact I|].
  - exists 0%nat, (EBin Add (ERef "on") (ENum (qz 0))). split; [apply (W_left 0 Add [TRef "on"] [TNum (qz 0)]); [reflexivity|lia|constructor|constructor]|]. intros r [<-|[]]. eexists. reflexivity.
  - exists 0%nat, (EBin Gt (ERef "x") (ENum (qz 5))). split; [apply (W_left 0 Gt [TRef "x"] [TNum (qz 5)]); [reflexivity|lia|constructor|constructor]|]. intros r [<-|[]]. eexists. reflexivity.
Qed.

(** C103: a consumer with tabulated energy usage models reports, in each period, the value read in the table of the model in
    force there at the values of its variables, by name; outside the table there is no number and the period is not valid. *)
Theorem C103_tabulated : forall pow nd consumes first rest vars vm input g (data : temporal_data tabulated_model) target,
  let ps := first :: rest in
  let n := List.length ps in
  consumer_setting pow first rest vars input data target ->
  make_variables_map ps vars = Ok vm -> regularity_values pow input (whole_of first rest) vm = Ok g ->
  (forall m, In m (data_models data) -> tabulated_ok pow vars n m) ->
  let run := evaluate_consumer pow (tabulated_evaluate pow nd consumes) input vm data target in
  (* some model in force, and every one in force is of the kind of the consumer and gives the variables of its table *)
  ((exists k m, in_force_at ps data target k m) ->
   (forall k m, in_force_at ps data target k m -> of_kind consumes m /\ names_match m) ->
   exists s, run = Ok (Some s) /\ consumer_result ps consumes data target (tabulated_energy pow nd vars n g) s) /\
  (* a model in force of the other kind *)
  ((forall k m, in_force_at ps data target k m -> names_match m) ->
   (exists k m, in_force_at ps data target k m /\ ~ of_kind consumes m) -> run = Err ValidationError) /\
  (* a model in force whose variables are not those of its table *)
  ((forall k m, in_force_at ps data target k m -> of_kind consumes m) ->
   (exists k m, in_force_at ps data target k m /\ ~ names_match m) -> run = Err OtherError) /\
  (* no model in force *)
  ((forall k m, ~ in_force_at ps data target k m) -> run = Ok None).
Proof. exact tabulated_consumer_proof. Qed.
Print Assumptions C103_tabulated.

Definition cn_table : tabular_data := mkTable ["RATE"; "POWER"]%string [[qz 0; qz 20; qz 10]; [qz 1; qz 6; qz 2]].
Definition cn_plane : tabular_data := mkTable ["POWER"; "a"; "b"]%string [[qz 1; qz 2; qz 3]; [qz 0; qz 1; qz 0]; [qz 0; qz 0; qz 1]].
Definition cn_read : tabulated_model := mkTabulated cn_table [("RATE"%string, IText [TRef "x"])] (mkCommon None None None).
Definition cn_read2 : tabulated_model := mkTabulated cn_plane [("b"%string, IText [TRef "x"]); ("a"%string, INumber (qz 2))] (mkCommon None None (Some (INumber (qc 1 2)))).
Definition cn_nd (t : tabular_data) (point : list num) : num := match point with [Some a; Some b] => Some (1 + a + (b + b))%Qc | _ => None end.
Definition cn_tables : temporal_data tabulated_model := TDDates (86400, cn_read) [(172800, cn_read2)].
Example C103_tabulated_case : consumer_setting (fun x _ => x) cn_head cn_rest cn_vars cn_regularity cn_tables (whole_of cn_head cn_rest) /\
  (forall m, In m (data_models cn_tables) -> tabulated_ok (fun x _ => x) cn_vars 3 m /\ of_kind POWER m /\ names_match m) /\
  match evaluate_consumer (fun x _ => x) (tabulated_evaluate (fun x _ => x) cn_nd POWER) cn_regularity cn_vm cn_tables (whole_of cn_head cn_rest) with
  | Ok (Some s) => map (option_map this) (s_values (cs_energy s)) | _ => [] end = map (option_map this) [Some (qz 0); Some (qc 28 10); Some (qz 38)].
Proof.
  split; [apply cn_dates|]. split; [|vm_compute; reflexivity]. intros m [<-|[<-|[]]].
  - split; [|split; [reflexivity|intros name; cbn; tauto]]. split.
    + split; [repeat constructor; cbn; intuition discriminate|]. split; [cbn; auto|]. split; [discriminate|]. split; [reflexivity|]. split; [exists 3%nat; split; [lia|]; intros c [<-|[<-|[]]]; reflexivity|].
      intros x xs E Ix. injection E as <-. destruct Ix as [E|[E|[]]]; [injection E as <-|discriminate E].
      repeat constructor; cbn; [intros [E|[E|[]]]; discriminate E|intros [E|[]]; discriminate E|intros []].
    + split; [discriminate|]. split; [intros name e [E|[]]; injection E as <- <-; eexists; vm_compute; reflexivity|]. split; [discriminate|]. split; discriminate.
  - split; [|split; [reflexivity|intros name; cbn; tauto]]. split.
    + split; [repeat constructor; cbn; intuition discriminate|]. split; [cbn; auto|]. split; [discriminate|]. split; [reflexivity|]. split; [exists 3%nat; split; [lia|]; intros c [<-|[<-|[<-|[]]]]; reflexivity|].
      intros x xs E Ix. discriminate E.
    + split; [discriminate|]. split; [intros name e [E|[E|[]]]; injection E as <- <-; [eexists; vm_compute; reflexivity|exact I]|]. split; [discriminate|]. split; [discriminate|]. intros e E. injection E as <-. exact I.
Qed.
(** outside the table: no number, not valid; and the variables of another table *)
Example C103_outside_case :
  match evaluate_consumer (fun x _ => x) (tabulated_evaluate (fun x _ => x) cn_nd POWER) None cn_vm (TDPlain (mkTabulated cn_table [("RATE"%string, INumber (qz 30))] (mkCommon (Some (IText [TRef "on"])) None None))) (whole_of cn_head cn_rest) with
  | Ok (Some s) => (map (option_map this) (s_values (cs_energy s)), s_values (cs_valid s)) | _ => ([], []) end = ([None; None; Some (this (qz 1))], [false; false; true]) /\
  evaluate_consumer (fun x _ => x) (tabulated_evaluate (fun x _ => x) cn_nd POWER) None cn_vm (TDPlain (mkTabulated cn_table [("rate"%string, INumber (qz 3))] (mkCommon None None None))) (whole_of cn_head cn_rest) = Err OtherError.
Proof. split; vm_compute; reflexivity. Qed.

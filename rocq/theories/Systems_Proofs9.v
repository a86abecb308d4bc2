(** Proofs about pump and compressor systems: the system as a consumer. *)
From Coq Require Import PeanoNat String.
From Verif Require Import Attributes_Proofs Attributes_Proofs2 QcTac Num Time_Model Time_Spec Time_Proofs Time_Proofs2 Units_Model Rates_Model Rates_Spec Rates_Proofs Rates_Proofs3 Rates_Proofs4
  Base BaseLemmas Expr_Model Expr_Spec Expr_Proofs Vars_Model Vars_Proofs Input_Model Interp_Model Energy_Model Energy_Proofs Energy_Proofs2 Energy_Proofs3 Export_Proofs2 Emitters_Proofs5 Emitters_Spec
  Consumer_Model Consumer_Spec Consumer_Proofs Consumer_Proofs2 Consumer_Proofs3 Consumer_Proofs4 Consumer_Proofs5 Consumer_Proofs6 Consumer_Proofs7 Consumer_Proofs8 Consumer_Proofs9
  Equipment_Model Equipment_Spec Equipment_Proofs Equipment_Proofs2 Equipment_Proofs3 Equipment_Proofs4 Equipment_Proofs5 System_Model System_Spec System_Proofs System_Proofs2 System_Proofs3 System_Proofs4 Systems_Model Systems_Spec Systems_Proofs Systems_Proofs2 Systems_Proofs3 Systems_Proofs4 Systems_Proofs5 Systems_Proofs6 Systems_Proofs7 Systems_Proofs8.
Local Open Scope list_scope.
Local Open Scope nat_scope.

Lemma system_consumer_proof : forall pow consumes (meaning_of : system_model -> list meaning) first rest vars vm input g data target,
  make_variables_map (first :: rest) vars = Ok vm -> consumer_setting pow first rest vars input data target ->
  regularity_values pow input (whole_of first rest) vm = Ok g ->
  let ps := first :: rest in let n := List.length ps in
  (forall m, In m (data_models data) -> system_ok pow vars n m /\ Forall2 means (map fst (sy_consumers m)) (meaning_of m)) ->
  (forall k m, in_force_at ps data target k m -> system_works pow vars n g m (meaning_of m) k) ->
  let run := evaluate_consumer pow (system_evaluate pow consumes) input vm data target in
  ((exists k m, in_force_at ps data target k m) ->
   (forall k m, in_force_at ps data target k m -> system_acceptable pow vars n g consumes m k) ->
   exists s, run = Ok (Some s) /\
     equipment_result ps consumes data target (fun m => system_usage pow vars n g m (meaning_of m))
       (fun m => system_power_at pow vars n g m (meaning_of m)) (fun _ => true) s) /\
  ((exists k m, in_force_at ps data target k m /\ ~ system_acceptable pow vars n g consumes m k) -> run = Err ValidationError) /\
  ((forall k m, ~ in_force_at ps data target k m) -> run = Ok None).
Proof.
  intros pow consumes meaning_of first rest vars vm input g data target Evm S Eg ps n Hok Wk run.
  pose proof S as (C & Mx & Un & Rok & NP & W & N & T1 & T2 & NC). fold ps in C, Un, Rok, NC. fold n in Un.
  assert (List.length g = n) as Lg by (destruct (regularity_slice pow first rest vars vm input g 0 1 Evm C Un Mx Rok Eg) as [L _]; [lia|cbn; lia|exact L]).
  split; [|split].
  - intros Ex Acc. refine (equipment_general pow (system_evaluate pow consumes) first rest vars vm input g data target Evm S Eg consumes _ _ _ _ Ex).
    intros m i j sub Im L1 L2 Es Hf. fold ps in Hf. destruct (Hok m Im) as [Ho Hm].
    destruct (system_part pow first rest vars vm Evm C Un g Lg meaning_of consumes m i j sub Ho Hm L1 L2 Es) as [[_ H]|[B _]].
    + destruct (H (fun k Hk => Wk k m (Hf k Hk))) as (r & Er & Pr). exists r. split; [exact Er|exact Pr].
    + exfalso. apply B. intros k Hk. apply (Acc k m (Hf k Hk)).
  - intros (k0 & m0 & F0 & Bad). apply (consumer_refused pow (system_evaluate pow consumes) first rest vars vm input g data target Evm S Eg ValidationError) with (k0 := k0) (m0 := m0); [|exact F0|].
    + intros m i j sub Im L1 L2 Es Hf. fold ps in Hf. destruct (Hok m Im) as [Ho Hm].
      destruct (system_part pow first rest vars vm Evm C Un g Lg meaning_of consumes m i j sub Ho Hm L1 L2 Es) as [[_ H]|[_ E]]; [left|right; exact E].
      destruct (H (fun k Hk => Wk k m (Hf k Hk))) as (r & Er & _). eauto.
    + intros i j sub Hk L2 Es. pose proof (in_force_model pow first rest vars input data target S k0 m0 F0) as Im. destruct (Hok m0 Im) as [Ho Hm].
      destruct (system_part pow first rest vars vm Evm C Un g Lg meaning_of consumes m0 i j sub Ho Hm ltac:(lia) L2 Es) as [[H _]|[_ E]]; [|exact E]. exfalso. apply Bad. now apply H.
  - apply (consumer_none pow (system_evaluate pow consumes) first rest vars vm input data target S).
Qed.

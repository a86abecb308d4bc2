(** Proofs about consumers: conditions by themselves, the settings used by a system, and statements that fail. *)
From Coq Require Import PeanoNat String Permutation.
From Verif Require Import Attributes_Proofs Attributes_Proofs2 QcTac Num Time_Model Time_Spec Time_Proofs Time_Proofs2 Units_Model Rates_Model Rates_Spec Rates_Proofs Rates_Proofs3 Rates_Proofs4
  Base BaseLemmas Expr_Model Expr_Spec Expr_Proofs Vars_Model Vars_Proofs Input_Model Interp_Model Interp_Spec Interp_Proofs Energy_Model Energy_Proofs Energy_Proofs2 Energy_Proofs3 Export_Proofs2 Emitters_Proofs5 Emitters_Spec
  Consumer_Model Consumer_Spec Consumer_Proofs Consumer_Proofs2 Consumer_Proofs3 Consumer_Proofs4 Consumer_Proofs5 Consumer_Proofs6 Consumer_Proofs7.
Local Open Scope list_scope.
Local Open Scope Z_scope.

Theorem settings_proof : forall R (periods : R -> list period) (used : R -> list Z) r rs all,
  let results := r :: rs in
  (forall x, In x results -> periods x <> [] /\ List.length (used x) = List.length (periods x)) ->
  contiguous (flat_map periods results) -> NoDup all -> (forall x p, In x results -> In p (periods x) -> In p all) ->
  exists s, result_settings periods used results all = Ok (Some s) /\ s_periods s = all /\ List.length (s_values s) = List.length all /\
    forall k q, nth_error all k = Some q ->
      (forall x i u, In x results -> nth_error (periods x) i = Some q -> nth_error (used x) i = Some u -> nth_error (s_values s) k = Some (u + 1)) /\
      ((forall x, In x results -> ~ In q (periods x)) -> nth_error (s_values s) k = Some 0).
Proof.
  intros R periods used r rs all results H C ND Sub.
  destruct (concatenated_proof R Z periods (fun r => Some (used r)) (fun _ => NONE) false (-1) r rs all) as [H1 _]; auto.
  { intros x I. destruct (H x I). auto. } { intros x vs I E. injection E as <-. now apply H. }
  destruct H1 as (s & E & P & _ & L & V). { intros x _ E. discriminate E. }
  unfold result_settings, results. rewrite E. cbn [bind]. eexists. split; [reflexivity|]. cbn [s_periods s_values]. split; [exact P|]. split; [now rewrite map_length|].
  intros k q K. destruct (V k q K) as (V1 & _ & V3). rewrite nth_error_map. split.
  - intros x i u Ix Ki Ku. rewrite (V1 x i (used x) Ix Ki eq_refl), Ku. cbn [option_map]. f_equal. lia.
  - intros Out. rewrite (V3 Out). reflexivity.
Qed.

Theorem conditions_proof : forall pow (vars : variables_dict) n e es,
  (forall r l, dict_get String.eqb r vars = Some l -> List.length l = n) ->
  (forall x, In x (e :: es) -> well_written_input vars x) ->
  exists ts vec, map_condition None (Some (e :: es)) = Some ts /\ evaluate pow ts vars n = Ok vec /\ List.length vec = n /\
    forall k, (k < n)%nat -> nth_error vec k = Some 0%Qc <-> exists x, In x (e :: es) /\ input_at pow vars n x k 0%Qc.
Proof.
  intros pow vars n e es Un H2.
  assert (exists xs, Forall2 (fun e x => expr_of e x /\ forall r, In r (references x) -> exists l, dict_get String.eqb r vars = Some l) (e :: es) xs) as (xs & F).
  { apply forall2_exists. intros d I. specialize (H2 d I). destruct d as [q|ts]; cbn [well_written_input] in H2.
    - exists (ENum q). split; [reflexivity|intros r []].
    - destruct H2 as (k & x & Wx & Rx). exists x. split; [now apply (writes_zero k)|exact Rx]. }
  inversion F as [|e' x es' xs' [Ex Rx] F']; subst. clear F.
  assert (writes 8 (join_conditions e es) (fold_left (EBin Mul) xs' x)) as Wj.
  { apply join_writes; [exact Ex|]. clear -F'. induction F' as [|a b l m [H _] F IH]; constructor; auto. }
  assert (forall r, In r (references (fold_left (EBin Mul) xs' x)) -> exists l, dict_get String.eqb r vars = Some l /\ List.length l = n) as Rj.
  { intros r I. assert (exists l, dict_get String.eqb r vars = Some l) as (l & El).
    { apply product_references in I as [I|(y & Iy & I)]; [now apply Rx|]. destruct (forall2_in_r _ _ _ _ _ _ F' Iy) as (d & _ & _ & Ry). now apply Ry. }
    exists l. split; [exact El|now apply (Un r)]. }
  destruct (evaluate_writes_proof pow _ _ _ vars n Wj Rj) as (vec & Evec & Lvec & Vvec). exists (join_conditions e es), vec. split; [reflexivity|]. split; [exact Evec|]. split; [exact Lvec|].
  intros k L. assert (nth_error vec k = Some (nth k vec 0%Qc)) as -> by (apply nth_error_nth'; lia).
  assert (forall d y, expr_of d y -> (forall r, In r (references y) -> exists l, dict_get String.eqb r vars = Some l) -> (value pow (env_at vars k) y = 0%Qc <-> input_at pow vars n d k 0%Qc)) as One.
  { intros d y Ed Rd. rewrite input_at_tokens by exact L. destruct (evaluate_writes_proof pow _ _ _ vars n (expr_of_writes d y Ed)) as (vd & Evd & Lvd & Vvd).
    { intros r I. destruct (Rd r I) as (l & El). exists l. split; [exact El|now apply (Un r)]. }
    rewrite <- (Vvd k L). unfold evaluates_at. rewrite Evd. split.
    - intros E. exists vd. split; [reflexivity|]. rewrite (nth_error_nth' vd 0%Qc) by lia. now rewrite E.
    - intros (l & E & K). injection E as <-. rewrite (nth_error_nth' vd 0%Qc) in K by lia. congruence. }
  rewrite (Vvec k L). split.
  - intros E. injection E as E. apply product_value in E as [E|(y & Iy & E)].
    + exists e. split; [now left|]. now apply (One e x Ex Rx).
    + destruct (forall2_in_r _ _ _ _ _ _ F' Iy) as (d & Id & Ed & Rd). exists d. split; [now right|]. now apply (One d y Ed Rd).
  - intros (d & I & A). f_equal. apply product_value. destruct I as [<-|I]; [left; now apply (One e x Ex Rx)|]. right.
    destruct (forall2_in_l _ _ _ _ _ _ F' I) as (y & Iy & Ed & Rd). exists y. split; [exact Iy|]. now apply (One d y Ed Rd).
Qed.

(** CONDITION: 0 does not switch the model off *)
Theorem condition_zero_refuted : exists pow first rest vars vm g (m : direct_model),
  let ps := first :: rest in
  consumer_setting pow first rest vars None (TDPlain m) (whole_of first rest) /\
  make_variables_map ps vars = Ok vm /\ regularity_values pow None (whole_of first rest) vm = Ok g /\
  cl_condition (dm_common m) = Some (INumber 0%Qc) /\ dm_value m = INumber (qz 5) /\
  exists s, evaluate_consumer pow (direct_evaluate pow POWER) None vm (TDPlain m) (whole_of first rest) = Ok (Some s) /\
    map (option_map this) (s_values (cs_energy s)) = [Some (this (qz 5))].
Proof.
  exists (fun x _ => x), (mkPeriod 0 86400), [], [], (mkVM [mkPeriod 0 86400] [0; 86400] []), [1%Qc], (mkDirect POWER (INumber (qz 5)) None (mkCommon (Some (INumber 0%Qc)) None None)).
  cbv zeta. split.
  { split; [cbn; unfold nonempty; cbn; lia|]. split; [cbn; unfold DT_MAX; lia|]. split; [discriminate|]. split; [exact I|]. split; [discriminate|]. split; [exact I|].
    split; [unfold nonempty; cbn; lia|]. split; [cbn; lia|]. split; [cbn; lia|]. intros t p Ht [<-|[]]. cbn [whole_of p_start p_end last data_dates In] in *. lia. }
  split; [reflexivity|]. split; [vm_compute; f_equal; f_equal; apply Qc_is_canon; reflexivity|]. split; [reflexivity|]. split; [reflexivity|].
  eexists. split; [vm_compute; reflexivity|]. vm_compute. reflexivity.
Qed.

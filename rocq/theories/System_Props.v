(** C28, C29: consumer systems and cross-over. *)
From Coq Require Import PeanoNat String Lia.
From Verif Require Import QcTac Base BaseLemmas Num Energy_Model System_Model System_Spec System_Proofs4 System_Proofs2.
Local Open Scope list_scope.

(** C28: in every period the system uses the first operational setting in which all its consumers have capacity, the
    last one if there is none, and reports the consumers' results of that setting. *)
Theorem C28_system : forall consumers fs settings n,
  consumers <> [] -> settings <> [] -> Forall2 pointwise consumers fs -> NoDup (map c_name consumers) ->
  (forall s, In s settings -> complete (length consumers) n s) ->
  (forall s, In s settings -> exists rates, rates_after_cross_over consumers s = Ok rates) ->
  exists r valid energy,
    evaluate_system consumers settings = Ok r /\ system_valid r = Ok valid /\ system_energy r None = Ok energy /\
    length (sr_setting_used r) = n /\ length valid = n /\ length energy = n /\
    map fst (sr_consumers r) = map c_name consumers /\
    forall k, (k < n)%nat -> exists j s rates ps,
      nth_error (sr_setting_used r) k = Some j /\ nth_error settings j = Some s /\
      rates_after_cross_over consumers s = Ok rates /\ points s rates k fs ps /\
      (* the setting is the first that works, the last if none does *)
      (works ps \/ S j = length settings) /\
      (forall i s' rates' ps', (i < j)%nat -> nth_error settings i = Some s' -> rates_after_cross_over consumers s' = Ok rates' ->
         points s' rates' k fs ps' -> ~ works ps') /\
      (* the results are those of that setting *)
      (forall i p name e, nth_error ps i = Some p -> nth_error (sr_consumers r) i = Some (name, e) ->
         nth_error (er_energy e) k = Some (pt_energy p) /\ nth_error (er_valid e) k = Some (pt_valid p) /\
         (forall l, er_power e = Some l -> nth_error l k = Some (pt_power p))) /\
      (nth_error valid k = Some true <-> works ps) /\
      nth_error energy k = Some (nsum (map pt_energy ps)) /\
      (* cross-over is reported where a consumer got more than it asked for *)
      (nth_error (sr_cross_over r) k = Some true <->
         exists i x y, at_ (os_rates s) i k (Some x) /\ at_ rates i k (Some y) /\ (x < y)%Qc).
Proof. exact system_proof. Qed.
Print Assumptions C28_system.

Theorem C28_validation : forall consumers settings,
  validate_system consumers settings = Ok tt <-> forall s, In s settings -> length (os_rates s) = length consumers.
Proof. exact system_validation_proof. Qed.
Print Assumptions C28_validation.

(** C28: the priority optimizer uses the first priority whose results are all valid, the last one if there is none. *)
Theorem C28_optimizer : forall (R : Type) (evaluator : string -> list (string * R * bool)) priorities,
  priorities <> [] -> (forall p, In p priorities -> evaluator p <> [] /\ NoDup (map (fun e => fst (fst e)) (evaluator p))) ->
  exists i p, nth_error priorities i = Some p /\
    optimize priorities (fun p => Ok (evaluator p)) = Ok (p, map (fun e => snd (fst e)) (evaluator p)) /\
    ((forall e, In e (evaluator p) -> snd e = true) \/ S i = length priorities) /\
    forall j q, (j < i)%nat -> nth_error priorities j = Some q -> exists e, In e (evaluator q) /\ snd e = false.
Proof. exact optimize_proof. Qed.
Print Assumptions C28_optimizer.

Definition C28_consumers := [constant_consumer "a" (qz 10); constant_consumer "b" (qz 20)].
Definition C28_fs : list point_function :=
  [fun x _ _ _ => mkPoint x None (match x with Some v => Qcleb v (qz 10) | None => false end);
   fun x _ _ _ => mkPoint x None (match x with Some v => Qcleb v (qz 20) | None => false end)].
Definition C28_pressures := [[Some 1%Qc; Some 1%Qc; Some 1%Qc]; [Some 1%Qc; Some 1%Qc; Some 1%Qc]].
Definition C28_settings :=
  [mkSetting [[Some (qz 5); Some (qz 12); Some (qz 50)]; [Some (qz 5); Some (qz 5); Some (qz 1)]] C28_pressures C28_pressures None None;
   mkSetting [[Some (qz 5); Some (qz 12); Some (qz 50)]; [Some (qz 5); Some (qz 5); Some (qz 1)]] C28_pressures C28_pressures (Some [2; 0]%Z) None].
Example C28_case : Forall2 pointwise C28_consumers C28_fs /\ NoDup (map c_name C28_consumers) /\
  (forall s, In s C28_settings -> complete 2 3 s) /\ (forall s, In s C28_settings -> exists rates, rates_after_cross_over C28_consumers s = Ok rates) /\
  exists r v, evaluate_system C28_consumers C28_settings = Ok r /\ sr_setting_used r = [0; 1; 1]%nat /\ sr_cross_over r = [false; true; true] /\
    system_valid r = Ok v /\ v = [true; true; false].
Proof.
  split. { repeat constructor; apply constant_consumer_pointwise. }
  split. { repeat constructor; cbn; intuition discriminate. }
  split. { intros s [<-|[<-|[]]]; (repeat split; try discriminate); intros l Hl; cbn in Hl; repeat (destruct Hl as [<-|Hl]; [reflexivity|]); destruct Hl. }
  split. { intros s [<-|[<-|[]]]; eexists; vm_compute; reflexivity. }
  eexists. eexists. split; [vm_compute; reflexivity|]. split; [reflexivity|]. split; [reflexivity|]. split; [vm_compute; reflexivity|reflexivity].
Qed.
Example C28_optimizer_case :
  optimize ["p"; "q"; "r"]%string (fun p => Ok [("x"%string, p, true); ("y"%string, p, negb (String.eqb p "p"))]) = Ok ("q"%string, ["q"; "q"]%string).
Proof. reflexivity. Qed.

(** C29: after cross-over a consumer has its rate, less what it sends, plus what it receives. *)
Theorem C29_cross_over : forall m n consumers s numbers rates maxima discharge, (0 < m)%nat ->
  finite_setting m n consumers s numbers rates maxima discharge ->
  exists after, rates_after_cross_over consumers s = Ok (map (map Some) after) /\
    length after = m /\ (forall l, In l after -> length l = n) /\
    forall i k, (i < m)%nat -> (k < n)%nat ->
      (val after i k = val rates i k - sent numbers rates maxima discharge i k + received m numbers rates maxima discharge i k)%Qc.
Proof. exact cross_over_proof. Qed.
Print Assumptions C29_cross_over.

(** C29: the total rate is unchanged. *)
Theorem C29_total : forall m n consumers s numbers rates maxima discharge, (0 < m)%nat ->
  finite_setting m n consumers s numbers rates maxima discharge ->
  exists after, rates_after_cross_over consumers s = Ok (map (map Some) after) /\
    forall k, (k < n)%nat -> qsum (map (fun i => val after i k) (seq 0 m)) = qsum (map (fun i => val rates i k) (seq 0 m)).
Proof. exact cross_over_total_proof. Qed.
Print Assumptions C29_total.

(** C29: a consumer that exceeds its maximum, may send and does not receive keeps exactly its maximum; a receiver that
    does not send gets the excess. *)
Theorem C29_keeps_maximum : forall m n consumers s numbers rates maxima discharge i j k,
  finite_setting m n consumers s numbers rates maxima discharge ->
  (i < m)%nat -> (j < m)%nat -> (k < n)%nat ->
  nth i numbers 0%Z = (Z.of_nat j + 1)%Z -> (val maxima i k < val rates i k)%Qc -> (val discharge i k <= val discharge j k)%Qc ->
  (forall a, (a < m)%nat -> nth a numbers 0%Z <> (Z.of_nat i + 1)%Z) ->
  exists after, rates_after_cross_over consumers s = Ok (map (map Some) after) /\
    val after i k = val maxima i k /\
    ((forall a, (a < m)%nat -> a <> i -> nth a numbers 0%Z <> (Z.of_nat j + 1)%Z) -> nth j numbers 0%Z = 0%Z ->
       (val after j k = val rates j k + (val rates i k - val maxima i k))%Qc).
Proof. exact cross_over_maximum_proof. Qed.
Print Assumptions C29_keeps_maximum.

(** C29 fails for a consumer that both sends and receives: it ends above its maximum although its own receiver has room. *)
Theorem C29_chain_refuted : exists consumers s rates maxima discharge numbers,
  finite_setting 3 1 consumers s numbers rates maxima discharge /\ nth 1 numbers 0%Z = 3%Z /\
  (val maxima 1 0 < val rates 1 0)%Qc /\ (val discharge 1 0 <= val discharge 2 0)%Qc /\
  exists after, rates_after_cross_over consumers s = Ok (map (map Some) after) /\ (val maxima 1 0 < val after 1 0)%Qc /\ (val after 2 0 < val maxima 2 0)%Qc.
Proof. exact cross_over_chain_refuted_proof. Qed.
Print Assumptions C29_chain_refuted.
Example C29_case : exists after, rates_after_cross_over C28_consumers (nth 1 C28_settings chain_setting) = Ok after /\
  map (map (option_map this)) after = map (map (option_map this)) [[Some (qz 5); Some (qz 10); Some (qz 10)]; [Some (qz 5); Some (qz 7); Some (qz 41)]].
Proof. eexists. split; vm_compute; reflexivity. Qed.

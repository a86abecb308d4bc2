(** C116: the machines behind compressor consumers. *)
From Coq Require Import PeanoNat String.
From Verif Require Import Search_Model Train_Model Train_Props.
From Verif Require Import QcTac Num Base BaseLemmas Interp_Model Energy_Model Sampled_Model Sampled_Spec Sampled_Proofs8 Sampled_Props Consumer_Model Equipment_Model Machines_Model Machines_Spec Machines_Proofs.
Local Open Scope list_scope.
Local Open Scope Qc_scope.

(** C116: a train evaluated for a series of periods gives what it gives for each period alone, also on a train with another
    history; and it fails with an error exactly if it fails so for one of the periods alone. *)
Theorem C116_train : forall d points state,
  tn_variable (dt_train d) = true \/ (exists v, t_speed (dt_state d) = Some v /\ t_speed state = Some v) ->
  let alone := co_run (train_compressor (mkDriven (dt_env d) (dt_train d) (dt_factor d) (dt_constant d) state)) in
  (forall outputs, train_evaluate d points = Ok outputs <-> Forall2 (fun p o => alone p = Ok o) points outputs) /\
  (forall e, train_evaluate d points = Err e -> exists p, In p points /\ alone p = Err e).
Proof. exact train_series_proof. Qed.
Print Assumptions C116_train.

Definition mc_train : driven_train := mkDriven C76_env (C76_one IndividualRate) (qz 2) 1 C76_fresh.
Definition mc_used : tstate := mk_tstate (Some (qz 17)) (fun _ => mk_modifier 0 (Some (qz 3)) None).
Definition mc_points : list operating_point :=
  [mkPoint [qz 18000] (Some (qz 30)) (Some (qz 33)) None None; mkPoint [0] (Some (qz 30)) (Some (qz 42)) None None; mkPoint [qz 18000] (Some (qz 30)) (Some (qz 42)) None None].
Definition mc_seen (o : compressor_output) : option Q * bool := (option_map this (co_energy o), compressor_valid (co_energy o) true o).
(** twice the power of the train and 1 MW, nothing added to a train that stands still *)
Example C116_train_case : tn_variable (dt_train mc_train) = true /\
  match train_evaluate mc_train mc_points with Ok l => Some (map mc_seen l) | Err _ => None end =
  match mapM (co_run (train_compressor (mkDriven C76_env (C76_one IndividualRate) (qz 2) 1 mc_used))) mc_points with Ok l => Some (map mc_seen l) | Err _ => None end /\
  match train_evaluate mc_train mc_points with Ok l => Some (map mc_seen l) | Err _ => None end = Some [(Some (3007 # 3000), true); (Some 0, true); (Some (126 # 125), true)]%Q.
Proof. split; [reflexivity|]. split; vm_compute; reflexivity. Qed.
(** an interstage pressure the train has no use for *)
Example C116_train_fails : train_evaluate mc_train [nth 0 mc_points (mkPoint [] None None None None); mkPoint [qz 18000] (Some (qz 30)) (Some (qz 42)) (Some (qz 35)) None] = Err ValidationError.
Proof. vm_compute. reflexivity. Qed.

(** C116: a sampled compressor evaluated for a series of periods gives in each period what it gives for that period alone. *)
Theorem C116_sampled : forall m rates suction discharge points res, points_of rates suction discharge points ->
  evaluate_sampled m (Some rates) suction discharge = Ok res ->
  exists outputs, Forall2 (fun p o => co_run (sampled_compressor m) p = Ok o) points outputs /\
    map co_energy outputs = Sampled_Model.sr_usage res /\ map (fun o => compressor_valid (co_energy o) true o) outputs = Sampled_Model.sr_valid res /\
    Sampled_Model.sr_power res = (if co_has_power (sampled_compressor m) then Some (map co_power outputs) else None).
Proof. exact sampled_series_proof. Qed.
Print Assumptions C116_sampled.

Definition mc_rates : list Qc := [0; qz 3 + tiny; qz 5].
Definition mc_suction : list Qc := [qz 5; qz 5; qz 5].
Definition mc_samples : list operating_point := map (fun r => mkPoint [r] (Some (qz 5)) None None None) mc_rates.
Example C116_sampled_case : points_of mc_rates (Some mc_suction) None mc_samples /\
  match make_sampled triangles C89_samples with
  | Ok m => match evaluate_sampled m (Some mc_rates) (Some mc_suction) None, mapM (co_run (sampled_compressor m)) mc_samples with
            | Ok r, Ok outputs => Some (map (option_map this) (Sampled_Model.sr_usage r), map mc_seen outputs)
            | _, _ => None
            end
  | Err _ => None
  end = Some ([Some 0; Some 30; None], [(Some 0, true); (Some 30, true); (None, false)])%Q.
Proof.
  split; [|vm_compute; reflexivity]. split; [reflexivity|]. intros [|[|[|k]]] p E; try (injection E as <-; eexists; repeat split; reflexivity). destruct k; discriminate.
Qed.

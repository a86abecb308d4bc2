(** C114: the totals of an asset, from its text. *)
From Coq Require Import PeanoNat String.
From Verif Require Import QcTac Num Base BaseLemmas Time_Model Time_Spec Time_Proofs Expr_Model Expr_Spec Vars_Model Units_Model Rates_Model Input_Model Interp_Model Energy_Model Emitters_Model
  Consumer_Model Graph_Model Asset_Model Asset_Spec Report_Spec Asset_Proofs11 Asset_Props.
Local Open Scope list_scope.
Local Open Scope Z_scope.

(** C114: what is reported for the asset.  In every period the fuel is the sum over the installations of regularity times
    the fuel of what burns fuel there; the electrical power is that of what the generator sets supply, the mechanical power
    that of what is driven by its own engine; an emission is the sum of what the fuels in force and the emitters give; and
    the cumulatives are running sums of these. *)
Theorem C114_totals : forall M np_pow (usage : energy_usage_type -> M -> list Qc -> variables_map -> result function_result)
    first rest vars vm target fuels tables name installations a mp results,
  let ps := first :: rest in
  make_variables_map ps vars = Ok vm -> run_setting ps target -> (forall i, In i installations -> installation_written ps i) ->
  report_setting np_pow ps vars fuels installations ->
  (forall m reg vm' fr, usage FUEL m reg vm' = Ok fr -> fr_unit fr = STANDARD_CUBIC_METER_PER_DAY) ->
  map_model np_pow vm target fuels tables name installations = Ok (a, mp) ->
  evaluate_energy_usage np_pow usage vm target (mp_registered mp) = Ok results ->
  exists g root below t, build (map fst (mp_registered mp)) = Ok g /\ get_root g = Ok root /\
    shows (mp_registered mp) g results root (Shown name None None below) /\
    Forall2 (installation_shown np_pow usage vm target fuels tables) installations below /\
    report np_pow vm a results = Ok t /\ totals_reported np_pow ps vars vm target installations below t.
Proof. exact report_proof. Qed.
Print Assumptions C114_totals.

Definition as_both : list (yaml_installation direct_model) := [as_site; as_remote].
Lemma as_report_setting : report_setting (fun x _ => x) as_periods as_vars as_fuels as_both.
Proof.
  split; [discriminate|]. split.
  { intros r l E. unfold as_vars, dict_get in E. destruct (String.eqb r "x"); [now injection E as <-|]. destruct (String.eqb r "on"); [now injection E as <-|discriminate]. }
  split.
  { intros f fuel E. unfold as_fuels, dict_get in E. destruct (String.eqb f "gas"); [injection E as <-|destruct (String.eqb f "diesel"); [injection E as <-|discriminate]].
    - split; [repeat constructor; intros []|]. intros name ts [E|[]]. injection E as <- <-. eexists. vm_compute. reflexivity.
    - split; [repeat constructor; intros H; cbn in H; intuition discriminate|]. intros name ts [E|[E|[]]]; injection E as <- <-; eexists; vm_compute; reflexivity. }
  intros i [<-|[<-|[]]]; split.
  - intros data [E|[(y & [<-|[]] & E)|(y & [<-|[<-|[]]] & E)]]; try discriminate E; injection E as <-; intros t I; cbn in I; [destruct I|].
    destruct I as [<-|[<-|[]]]; intros p [<-|[<-|[<-|[]]]]; cbn; lia.
  - intros y [<-|[]] name r [E|[]]. injection E as <- <-. split; [now left|]. split; [eexists; vm_compute; reflexivity|]. intros c E. discriminate.
  - intros data [E|[(y & [] & E)|(y & [<-|[]] & E)]]; [|discriminate E]. injection E as <-. intros t [].
  - intros y [].
Qed.
Definition as_shows (l : list num) : list (option Q) := map (option_map this) l.
(** fuel; electrical power; export; the emissions and what has been emitted so far *)
Definition as_reported (r : result (asset direct_model * mapping direct_model))
  : option (list (option Q) * option (list (option Q)) * list (option Q) * list (string * list (option Q) * list (option Q))) :=
  match r with
  | Ok (a, mp) =>
      match evaluate_energy_usage (fun x _ => x) (direct_evaluate (fun x _ => x)) as_vm as_run (mp_registered mp) with
      | Ok results =>
          match report (fun x _ => x) as_vm a results with
          | Ok t => Some (as_shows (r_values (Totals_Model.t_energy t)), option_map (fun r => as_shows (r_values r)) (Totals_Model.t_electrical t),
                          as_shows (r_values (Totals_Model.t_export t)),
                          map (fun e => (fst (fst e), as_shows (r_values (snd (fst e))), as_shows (s_values (snd e)))) (Totals_Model.t_emissions t))
          | Err _ => None
          end
      | Err _ => None
      end
  | Err _ => None
  end.
(** half of 17, 111 and 143 Sm3/d at the site, and 1 Sm3/d at the remote installation *)
Example C114_totals_case : make_variables_map as_periods as_vars = Ok as_vm /\ run_setting as_periods as_run /\
  (forall i, In i as_both -> installation_written as_periods i) /\ report_setting (fun x _ => x) as_periods as_vars as_fuels as_both /\
  (forall m reg vm fr, direct_evaluate (fun x _ => x) FUEL m reg vm = Ok fr -> fr_unit fr = STANDARD_CUBIC_METER_PER_DAY) /\
  as_reported (map_model (fun x _ => x) as_vm as_run as_fuels as_tables "asset" as_both) =
    Some (map (fun x => Some (this (qc x 2))) [19; 113; 145], Some (map (fun x => Some (this (qz x))) [4; 10; 11]), map (fun x => Some (this (qz x))) [4; 6; 8],
      [("co2"%string, map (fun x => Some (this (qc x 1000))) [17004; 111006; 135040], map (fun x => Some (this (qc x 1000))) [17004; 128010; 263050]);
       ("nox"%string, map (fun x => Some (this (qc x 2))) [1; 1; 5], map (fun x => Some (this (qc x 2))) [1; 2; 7]);
       ("CH4"%string, map (fun x => Some (this (qc x 1000))) [2; 3; 4], map (fun x => Some (this (qc x 1000))) [2; 5; 9])]).
Proof.
  split; [reflexivity|]. split; [exact as_setting|]. split; [exact as_written|]. split; [exact as_report_setting|]. split.
  - intros m reg vm fr E. unfold direct_evaluate in E. destruct (dm_type m); cbn [usage_type_eqb negb] in E; [discriminate|].
    repeat match type of E with bind ?r _ = _ => destruct r; [cbn [bind] in E|discriminate] end. unfold usage_result in E.
    match type of E with bind ?r _ = _ => destruct r; [cbn [bind] in E|discriminate] end. now injection E as <-.
  - vm_compute. reflexivity.
Qed.

(** Evaluating the registered components one after the other. *)
From Coq Require Import PeanoNat String Lia.
From Verif Require Import QcTac Base BaseLemmas Time_Model Num Expr_Model Vars_Model Units_Model Rates_Model Input_Model Interp_Model
  Energy_Model Emitters_Model Consumer_Model Graph_Model Graph_Spec Graph_Proofs Totals_Model Asset_Model.
Local Open Scope list_scope.

Notation entry M := (node_id * option node_id * component M)%type.
Definition entry_id {M} (e : entry M) : node_id := fst (fst e).

Lemma node_eqb_eq : forall a b, node_eqb a b = true <-> a = b.
Proof. intros a b. unfold node_eqb. destruct (node_eq_dec a b); intuition discriminate. Qed.
Lemma node_eqb_refl : forall a, node_eqb a a = true.
Proof. intros a. now apply node_eqb_eq. Qed.

Lemma dict_get_set_same : forall V (k : node_id) (v : V) d, dict_get node_eqb k (dict_set node_eqb k v d) = Some v.
Proof.
  intros V k v d. induction d as [|[k' v'] d IH]; cbn.
  - now rewrite node_eqb_refl.
  - destruct (node_eqb k k') eqn:E; cbn; rewrite E; auto.
Qed.
Lemma dict_get_set_other : forall V (k j : node_id) (v : V) d, j <> k -> dict_get node_eqb j (dict_set node_eqb k v d) = dict_get node_eqb j d.
Proof.
  intros V k j v d H. assert (Hf : node_eqb j k = false) by (destruct (node_eqb j k) eqn:E; auto; apply node_eqb_eq in E; contradiction).
  induction d as [|[k' v'] d IH]; cbn.
  - now rewrite Hf.
  - destruct (node_eqb k k') eqn:E; cbn.
    + apply node_eqb_eq in E as <-. now rewrite Hf.
    + destruct (node_eqb j k'); auto.
Qed.

(** the dict of the registered components *)
Lemma nodes_fold : forall M (l : list (entry M)) d id,
  ~ In id (map entry_id l) ->
  dict_get node_eqb id (fold_left (fun d r => dict_set node_eqb (fst (fst r)) (snd r) d) l d) = dict_get node_eqb id d.
Proof.
  intros M l; induction l as [|e l IH]; intros d id H; cbn; auto. rewrite IH by (intros X; apply H; right; auto).
  apply dict_get_set_other. intros ->. apply H. now left.
Qed.
Lemma container_of : forall M (l : list (entry M)) id p c, NoDup (map entry_id l) -> In (id, p, c) l -> get_energy_container l id = Ok c.
Proof.
  intros M l id p c H Hin. unfold get_energy_container, nodes_of.
  apply in_split in Hin as (a & b & ->). rewrite fold_left_app. cbn [fold_left fst snd].
  rewrite map_app in H. cbn [map] in H. apply NoDup_remove_2 in H.
  rewrite nodes_fold by (intros X; apply H, in_or_app; right; exact X).
  rewrite dict_get_set_same. reflexivity.
Qed.

Section Loop.
  Context {M : Type}.
  Variable np_pow : Qc -> Qc -> Qc.
  Variable usage : energy_usage_type -> M -> list Qc -> variables_map -> result function_result.
  Variable vm : variables_map.
  Variable target : period.
  Variable W : list (entry M).
  Variable g : graph.
  Hypothesis Hnd : NoDup (map entry_id W).
  (** the results are kept by the id of the component, which is the id it is registered with when it is evaluated *)
  Hypothesis Hids : forall id p c, In (id, p, c) W -> get_id c = id \/ forall results, evaluate_component np_pow usage vm target g results c = Ok None.

  Definition covers_results (a : list (entry M)) (results final : list (node_id * component_result)) : Prop :=
    forall id, In id (map entry_id a) -> dict_get node_eqb id results = dict_get node_eqb id final.

  Lemma evaluate_step : forall a id p c b results, W = a ++ (id, p, c) :: b ->
    evaluate_containers np_pow usage vm target W g (map entry_id ((id, p, c) :: b)) results =
    (do r <- evaluate_component np_pow usage vm target g results c;
     evaluate_containers np_pow usage vm target W g (map entry_id b)
       (match r with Some r => dict_set node_eqb id r results | None => results end)).
  Proof.
    intros a id p c b results HW. cbn [map evaluate_containers entry_id fst].
    assert (Hin : In (id, p, c) W) by (rewrite HW; apply in_elt).
    rewrite (container_of _ _ _ _ _ Hnd Hin). cbn [bind].
    destruct (Hids _ _ _ Hin) as [E|E].
    - rewrite E. reflexivity.
    - rewrite E. reflexivity.
  Qed.

  Lemma evaluate_ok : forall b a results final, W = a ++ b ->
    (forall id, In id (map entry_id b) -> dict_get node_eqb id results = None) ->
    evaluate_containers np_pow usage vm target W g (map entry_id b) results = Ok final ->
    covers_results a results final /\
    forall x id p c y, b = x ++ (id, p, c) :: y ->
      exists before, evaluate_component np_pow usage vm target g before c = Ok (dict_get node_eqb id final) /\ covers_results (a ++ x) before final.
  Proof.
    induction b as [|[[id p] c] b IH]; intros a results final HW Hno E.
    - cbn in E. injection E as <-. split; [intros k _; reflexivity|]. intros x ? ? ? y H. destruct x; discriminate.
    - rewrite (evaluate_step a id p c b results HW) in E.
      destruct (evaluate_component np_pow usage vm target g results c) as [r|] eqn:Er; cbn [bind] in E; [|discriminate].
      set (results' := match r with Some r => dict_set node_eqb id r results | None => results end) in *.
      assert (HW' : W = (a ++ [(id, p, c)]) ++ b) by (rewrite <- app_assoc; exact HW).
      pose proof Hnd as Hnd'. rewrite HW, map_app in Hnd'. cbn [map entry_id fst] in Hnd'.
      assert (Hid : ~ In id (map entry_id a) /\ ~ In id (map entry_id b)).
      { apply NoDup_remove_2 in Hnd'. split; intros X; apply Hnd', in_or_app; auto. }
      assert (Hno' : forall k, In k (map entry_id b) -> dict_get node_eqb k results' = None).
      { intros k Hk. unfold results'. destruct r as [r|]; [|apply Hno; right; exact Hk].
        rewrite dict_get_set_other; [apply Hno; right; exact Hk|]. intros ->. tauto. }
      destruct (IH _ _ _ HW' Hno' E) as [IH1 IH2].
      assert (Hprev : forall k, In k (map entry_id a) -> dict_get node_eqb k results' = dict_get node_eqb k results).
      { intros k Hk. unfold results'. destruct r as [r|]; [|reflexivity]. apply dict_get_set_other. intros ->. tauto. }
      assert (Hcov : covers_results a results final).
      { intros k Hk. rewrite <- Hprev by exact Hk. apply IH1. rewrite map_app. apply in_or_app. now left. }
      split; [exact Hcov|].
      intros x id' p' c' y Hx. destruct x as [|e x]; cbn in Hx.
      + injection Hx as <- <- <- <-. exists results. rewrite app_nil_r. split; [|exact Hcov]. rewrite Er. f_equal.
        rewrite <- (IH1 id) by (rewrite map_app; apply in_or_app; right; now left).
        unfold results'. destruct r as [r|]; [now rewrite dict_get_set_same|]. symmetry. apply Hno. now left.
      + injection Hx as <- Hb. destruct (IH2 x id' p' c' y Hb) as (before & B1 & B2). exists before. split; [exact B1|].
        rewrite <- app_assoc in B2. exact B2.
  Qed.

  Lemma evaluate_err : forall b a results e, W = a ++ b ->
    (forall id, In id (map entry_id b) -> dict_get node_eqb id results = None) ->
    evaluate_containers np_pow usage vm target W g (map entry_id b) results = Err e ->
    exists x id p c y before, b = x ++ (id, p, c) :: y /\ evaluate_component np_pow usage vm target g before c = Err e /\
      (forall k, In k (map entry_id a) -> dict_get node_eqb k before = dict_get node_eqb k results) /\
      (forall x1 id1 p1 c1 x2, x = x1 ++ (id1, p1, c1) :: x2 ->
         exists before1, evaluate_component np_pow usage vm target g before1 c1 = Ok (dict_get node_eqb id1 before)).
  Proof.
    induction b as [|[[id p] c] b IH]; intros a results e HW Hno E; [discriminate|].
    rewrite (evaluate_step a id p c b results HW) in E.
    destruct (evaluate_component np_pow usage vm target g results c) as [r|er] eqn:Er; cbn [bind] in E.
    - set (results' := match r with Some r => dict_set node_eqb id r results | None => results end) in *.
      assert (HW' : W = (a ++ [(id, p, c)]) ++ b) by (rewrite <- app_assoc; exact HW).
      pose proof Hnd as Hnd'. rewrite HW, map_app in Hnd'. cbn [map entry_id fst] in Hnd'.
      assert (Hid : ~ In id (map entry_id a) /\ ~ In id (map entry_id b)).
      { apply NoDup_remove_2 in Hnd'. split; intros X; apply Hnd', in_or_app; auto. }
      assert (Hno' : forall k, In k (map entry_id b) -> dict_get node_eqb k results' = None).
      { intros k Hk. unfold results'. destruct r as [r|]; [|apply Hno; right; exact Hk].
        rewrite dict_get_set_other; [apply Hno; right; exact Hk|]. intros ->. tauto. }
      destruct (IH _ _ _ HW' Hno' E) as (x & id' & p' & c' & y & before & B1 & B2 & B3 & B4).
      exists ((id, p, c) :: x), id', p', c', y, before. split; [cbn; now rewrite B1|]. split; [exact B2|]. split.
      + intros k Hk. rewrite B3 by (rewrite map_app; apply in_or_app; now left).
        unfold results'. destruct r as [r|]; [|reflexivity]. apply dict_get_set_other. intros ->. tauto.
      + intros x1 id1 p1 c1 x2 Hx. destruct x1 as [|e1 x1]; cbn in Hx.
        * injection Hx as <- <- <- <-. exists results. rewrite Er. f_equal.
          rewrite B3 by (rewrite map_app; apply in_or_app; right; now left).
          unfold results'. destruct r as [r|]; [now rewrite dict_get_set_same|]. symmetry. apply Hno. now left.
        * injection Hx as <- Hb. exact (B4 x1 id1 p1 c1 x2 Hb).
    - exists [], id, p, c, b, results. split; [reflexivity|]. split; [injection E as <-; exact Er|]. split; [auto|].
      intros x1 id1 p1 c1 x2 Hx. destruct x1; discriminate.
  Qed.
End Loop.

(** Proofs about emitters: what venting emitters report. *)
From Coq Require Import PeanoNat String.
From Verif Require Import QcTac Num Time_Model Time_Spec Time_Proofs Time_Proofs2 Time_Proofs3 Units_Model Rates_Model Rates_Spec Rates_Proofs Rates_Proofs2 Rates_Proofs3 Rates_Proofs4
  Base BaseLemmas Expr_Model Vars_Model Input_Model Interp_Model Energy_Model Energy_Proofs Energy_Proofs3 Emitters_Model Emitters_Spec Emitters_Proofs.
Local Open Scope list_scope.

Section Values.
  Variable pow : Qc -> Qc -> Qc.
  Variables (ps : list period) (vars : variables_dict) (vm : variables_map) (reg : list Qc).
  Let n := List.length ps.
  Hypothesis Evm : make_variables_map ps vars = Ok vm.
  Hypothesis Lvars : forall r l, dict_get String.eqb r vars = Some l -> List.length l = n.
  Hypothesis Lreg : List.length reg = n.

  Lemma vm_fields : vm_periods vm = ps /\ vm_variables vm = vars.
  Proof. unfold make_variables_map in Evm. destruct (all_dates ps); [|discriminate]. injection Evm as <-. split; reflexivity. Qed.
  Lemma vm_eval : forall ts, vm_evaluate pow vm ts = evaluate pow ts vars n.
  Proof. intros ts. unfold vm_evaluate. destruct vm_fields as [-> ->]. reflexivity. Qed.

  Lemma stream_values : forall r,
    (exists v, evaluate pow (ri_value r) vars n = Ok v) -> (forall c, ri_condition r = Some c -> exists m, evaluate pow c vars n = Ok m) ->
    exists l, stream_day_values pow vm reg r = Ok l /\ List.length l = n /\
      forall k v b g x, evaluates_at pow vars n (ri_value r) k v -> condition_at pow vars n (ri_condition r) k b -> nth_error reg k = Some g ->
        stream_rate_means (ri_type r) v b g x -> nth_error l k = Some (Some x).
  Proof.
    intros r (vs & Ev) Hc. unfold stream_day_values, masked_values. rewrite vm_eval, Ev. cbn [bind].
    assert (List.length vs = n) as Lv by (eapply evaluate_length; eauto).
    assert (exists masked, bind (match ri_condition r with Some c => bind (vm_evaluate pow vm c) (fun m => Ok (Some m)) | None => Ok None end) (fun mask => apply_mask mask (map Some vs)) = Ok masked /\
      List.length masked = n /\ forall k v b, nth_error vs k = Some v -> condition_at pow vars n (ri_condition r) k b -> nth_error masked k = Some (Some (if b then v else 0%Qc))) as (masked & Em & Lm & Hm).
    { destruct (ri_condition r) as [c|].
      - destruct (Hc c eq_refl) as (m & Emm). rewrite vm_eval, Emm. cbn [bind apply_mask]. assert (List.length m = n) as L2 by (eapply evaluate_length; eauto).
        rewrite np_broadcast_same by (rewrite map_length; lia). eexists. split; [reflexivity|]. split; [rewrite map2_length, map_length; lia|].
        intros k v b Hv (x & (l & El & Hx) & Hb). rewrite Emm in El. injection El as <-. rewrite nth_error_map2, nth_error_map, Hv, Hx. cbn [option_map].
        destruct b; destruct (Qceqb x 0) eqn:Q; auto.
        + apply Qceqb_eq in Q. apply Hb in Q. discriminate.
        + apply Qceqb_neq in Q. exfalso. apply Q. now apply Hb.
      - cbn [bind apply_mask]. eexists. split; [reflexivity|]. split; [now rewrite map_length|]. intros k v b Hv Hb. cbn in Hb. subst b. rewrite nth_error_map, Hv. reflexivity. }
    rewrite Em. cbn [bind]. destruct (ri_type r).
    - exists masked. split; [reflexivity|]. split; [exact Lm|]. intros k v b g x (l & El & Hv) Hb Hg Hx. rewrite Ev in El. injection El as <-. rewrite (Hm k v b Hv Hb).
      unfold stream_rate_means in Hx. destruct b; now rewrite Hx.
    - unfold rates_to_stream_day. rewrite np_broadcast_same by (rewrite map_length; lia). eexists. split; [reflexivity|]. split; [rewrite map2_length, map_length; lia|].
      intros k v b g x (l & El & Hv) Hb Hg Hx. rewrite Ev in El. injection El as <-. rewrite nth_error_map2, nth_error_map, (Hm k v b Hv Hb), Hg. cbn [option_map].
      unfold to_stream_day_value. cbn [nonzero]. unfold stream_rate_means in Hx. destruct b.
      + destruct Hx as [[G X]|[G X]].
        * replace (Qceqb g 0) with false by (symmetry; now apply Qceqb_neq). cbn. replace (Qceqb g 0) with false by (symmetry; now apply Qceqb_neq). do 2 f_equal. subst v. field. exact G.
        * replace (Qceqb g 0) with true by (symmetry; now apply Qceqb_eq). cbn. now rewrite X.
      + subst x. destruct (Qceqb g 0) eqn:Q; cbn; [reflexivity|]. rewrite Q. do 2 f_equal. apply Qceqb_neq in Q. unfold Qcdiv. ring.
  Qed.
  (** there is always exactly one rate meant *)
  Lemma means_total : forall ty v b g, exists x, stream_rate_means ty v b g x.
  Proof.
    intros [|] v [|] g; unfold stream_rate_means; try (eexists; reflexivity). destruct (Qc_eq_dec g 0) as [G|G].
    - exists 0%Qc. right. split; auto.
    - exists (v / g)%Qc. left. split; [exact G|]. field. exact G.
  Qed.
  Lemma condition_total : forall c k, (k < n)%nat -> (forall ts, c = Some ts -> exists m, evaluate pow ts vars n = Ok m) -> exists b, condition_at pow vars n c k b.
  Proof.
    intros [ts|] k Hk H; [|exists true; reflexivity]. destruct (H ts eq_refl) as (m & E). assert (List.length m = n) as L by (eapply evaluate_length; eauto).
    destruct (nth_error m k) as [x|] eqn:Ex; [|apply nth_error_None in Ex; lia]. exists (negb (Qceqb x 0)). exists x. split; [exists m; split; assumption|].
    rewrite negb_false_iff. apply Qceqb_eq.
  Qed.
End Values.

Lemma regularity_series_ok : forall ps vars vm reg, make_variables_map ps vars = Ok vm -> List.length reg = List.length ps -> regularity_series vm reg = Ok (mkSeries ps (map Some reg) NONE).
Proof.
  intros ps vars vm reg E L. unfold regularity_series. destruct (vm_fields ps vars vm E) as [-> _]. unfold make_series. now rewrite map_length, L, Nat.eqb_refl.
Qed.
Lemma with_regularity_ok : forall ps vars vm reg d, make_variables_map ps vars = Ok vm -> contiguous ps -> ps <> [] -> List.length reg = List.length ps ->
  (forall name s, In (name, s) d -> s_periods s = ps /\ s_unit s = TONS_PER_DAY /\ List.length (s_values s) = List.length ps) ->
  with_regularity vm reg d = Ok (map (fun e => (fst e, mkRate ps (s_values (snd e)) TONS_PER_DAY STREAM_DAY (map Some reg))) d).
Proof.
  intros ps vars vm reg d E C N L H. unfold with_regularity. rewrite (regularity_series_ok ps vars vm reg E L). cbn [bind].
  induction d as [|[name s] d IH]; [reflexivity|]. cbn [mapM map fst snd]. destruct (H name s (or_introl eq_refl)) as (P & U & V).
  destruct s as [sp sv su]. cbn [s_periods s_unit s_values] in *. subst sp su. rewrite regularity_all; auto; [|now rewrite map_length]. cbn [bind].
  rewrite IH; [reflexivity|]. intros nm s I. apply (H nm s). now right.
Qed.

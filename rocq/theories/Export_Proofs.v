(** Proofs about exports: sums. *)
From Coq Require Import String PeanoNat.
From Verif Require Import QcTac Num Time_Model Time_Spec Time_Proofs Time_Proofs2 Units_Model Rates_Model Rates_Spec Rates_Proofs Numbers_Model Base BaseLemmas Input_Proofs Export_Model Export_Spec.
Local Open Scope list_scope.

(** ** Filters *)
Lemma text_eqb_spec : forall a b, text_eqb a b = true <-> a = b.
Proof.
  intros [a|] [b|]; cbn; try (split; intros; congruence). split; [intros H; apply String.eqb_eq in H; congruence|intros [= ->]; apply String.eqb_refl].
Qed.
Lemma differs_spec : forall w v, differs w v = false <-> is_wanted w v.
Proof.
  intros [c|] v; unfold is_wanted; cbn [differs].
  - rewrite negb_false_iff, text_eqb_spec. split; [intros -> c' [= <-]; reflexivity|intros H; now apply H].
  - split; [intros _ c; discriminate|reflexivity].
Qed.
Lemma not_among_spec : forall w v, not_among w v = false <-> is_among w v.
Proof.
  intros [l|] v; unfold is_among; cbn [not_among].
  - destruct v as [x|].
    + rewrite negb_false_iff, existsb_exists. split.
      * intros (y & I & E) l' [= <-]. apply String.eqb_eq in E. subst. eauto.
      * intros H. destruct (H l eq_refl) as (c & [= <-] & I). exists x. split; [exact I|apply String.eqb_refl].
    + split; [discriminate|]. intros H. destruct (H l eq_refl) as (c & E & _). discriminate.
  - split; [intros _ l; discriminate|reflexivity].
Qed.
Lemma skipped_spec : forall q a, skipped q (a_meta a) = false <-> matches q a.
Proof.
  intros q a. unfold skipped, matches. destruct (q_kind q); rewrite ?orb_false_iff, ?differs_spec, ?not_among_spec; tauto.
Qed.
Lemma skipped_out : forall q a, skipped q (a_meta a) = true <-> ~ matches q a.
Proof. intros q a. rewrite <- skipped_spec. destruct (skipped q (a_meta a)); split; congruence. Qed.

Lemma period_eq_dec : forall a b : period, {a = b} + {a <> b}.
Proof. intros a b. destruct (period_eqb a b) eqn:E; [left; now apply period_eqb_spec|right; intros ->; rewrite (proj2 (period_eqb_spec b b) eq_refl) in E; discriminate]. Qed.

(** ** Sums *)
Definition chosen (q : query) (l : list attribute) : list (period * num) := flat_map (fun a => if skipped q (a_meta a) then [] else a_points a) l.
Lemma aggregated_points : forall q l, aggregated q l = fold_left add_point (chosen q l) [].
Proof.
  intros q l. unfold aggregated.
  enough (forall d, fold_left (fun d a => if skipped q (a_meta a) then d else fold_left add_point (a_points a) d) l d = fold_left add_point (chosen q l) d) as H by apply H.
  induction l as [|a l IH]; intros d; [reflexivity|]. unfold chosen. cbn [fold_left flat_map]. fold (chosen q l).
  rewrite fold_left_app, IH. destruct (skipped q (a_meta a)); reflexivity.
Qed.
Definition val (d : list (period * num)) (p : period) : num := match dict_get period_eqb p d with Some v => v | None => Some 0%Qc end.
Lemma val_add : forall d pv p, val (add_point d pv) p = if period_eqb p (fst pv) then nadd (val d p) (snd pv) else val d p.
Proof.
  intros d pv p. unfold val at 1, add_point. rewrite dict_get_set by apply period_eqb_spec.
  destruct (period_eqb p (fst pv)) eqn:E; [|reflexivity]. apply period_eqb_spec in E. now rewrite <- E.
Qed.
Lemma val_fold : forall pts d p x, (forall p' v, In (p', v) pts -> exists y, v = Some y) -> val d p = Some x -> val (fold_left add_point pts d) p = Some (x + points_in p pts)%Qc.
Proof.
  induction pts as [|[p' v] pts IH]; intros d p x F V; cbn [fold_left points_in]; [rewrite V; f_equal; ring|].
  destruct (F p' v) as (y & ->); [now left|]. assert (forall q w, In (q, w) pts -> exists y, w = Some y) as F' by (intros q w I; apply (F q w); now right).
  destruct (period_eqb p p') eqn:E.
  - rewrite (IH _ p (x + y)%Qc F'); [f_equal; cbn [nan_zero]; ring|]. rewrite val_add. cbn [fst snd]. now rewrite E, V.
  - rewrite (IH _ p x F'); [f_equal; ring|]. rewrite val_add. cbn [fst snd]. now rewrite E.
Qed.
Lemma add_keys : forall d pv p, In p (map fst (add_point d pv)) -> In p (map fst d) \/ p = fst pv.
Proof.
  intros d pv p H. unfold add_point in H. destruct (in_dec period_eq_dec (fst pv) (map fst d)) as [I|I].
  - rewrite dict_set_keys_in in H; auto. apply period_eqb_spec.
  - rewrite dict_set_keys_notin in H; [|apply period_eqb_spec|exact I]. rewrite map_app in H. apply in_app_or in H as [H|[H|[]]]; auto.
Qed.
Lemma add_nodup : forall d pv, NoDup (map fst d) -> NoDup (map fst (add_point d pv)).
Proof.
  intros d pv N. unfold add_point. destruct (in_dec period_eq_dec (fst pv) (map fst d)) as [I|I].
  - rewrite dict_set_keys_in; auto. apply period_eqb_spec.
  - rewrite dict_set_keys_notin; [|apply period_eqb_spec|exact I]. rewrite map_app. cbn. apply (Permutation_NoDup (l := fst pv :: map fst d)); [apply Permutation_cons_append|]. now constructor.
Qed.
Lemma fold_keys : forall pts d p, In p (map fst (fold_left add_point pts d)) -> In p (map fst d) \/ In p (map fst pts).
Proof.
  induction pts as [|pv pts IH]; intros d p H; cbn [fold_left] in H; [now left|]. apply IH in H as [H|H]; [|right; now right].
  apply add_keys in H as [H|H]; [now left|right; left; auto].
Qed.
Lemma fold_nodup : forall pts d, NoDup (map fst d) -> NoDup (map fst (fold_left add_point pts d)).
Proof. induction pts as [|pv pts IH]; intros d N; cbn [fold_left]; auto. apply IH. now apply add_nodup. Qed.

Lemma points_app : forall p a b, points_in p (a ++ b) = (points_in p a + points_in p b)%Qc.
Proof. induction a as [|[p' v] a IH]; intros b; cbn [app points_in]; [ring|]. rewrite IH. ring. Qed.
Lemma chosen_total : forall q p l, total_in (matches q) p l (points_in p (chosen q l)).
Proof.
  induction l as [|a l IH]; cbn [chosen flat_map]; [constructor|]. fold (chosen q l). destruct (skipped q (a_meta a)) eqn:E.
  - apply skipped_out in E. cbn [app]. now constructor.
  - apply skipped_spec in E. rewrite points_app. now constructor.
Qed.
Lemma total_unique : forall P p l x y, total_in P p l x -> total_in P p l y -> x = y.
Proof.
  intros P p l x y H. revert y. induction H as [|a l x Pa H IH|a l x Pa H IH]; intros y K; inversion K; subst; auto; try contradiction. f_equal. auto.
Qed.

(** ** Laying out *)
Lemma set_over : forall d base : list (period * num), NoDup (map fst base) -> NoDup (map fst d) -> (forall p, In p (map fst d) -> In p (map fst base)) ->
  let r := fold_left (fun acc pv => dict_set period_eqb (fst pv) (snd pv) acc) d base in
  map fst r = map fst base /\ forall p, dict_get period_eqb p r = match dict_get period_eqb p d with Some v => Some v | None => dict_get period_eqb p base end.
Proof.
  induction d as [|[p v] d IH]; intros base NB ND S; cbn zeta; [split; reflexivity|]. cbn [fold_left fst snd]. inversion ND as [|? ? NI ND']; subst.
  destruct (IH (dict_set period_eqb p v base)) as [K G].
  - rewrite dict_set_keys_in; auto; [apply period_eqb_spec|apply S; now left].
  - exact ND'.
  - intros p' I. rewrite dict_set_keys_in; [apply S; now right|apply period_eqb_spec|apply S; now left].
  - split; [rewrite K; apply dict_set_keys_in; [apply period_eqb_spec|apply S; now left]|]. intros p'. rewrite G. cbn [dict_get]. rewrite dict_get_set by apply period_eqb_spec.
    destruct (period_eqb p' p) eqn:E; [|reflexivity]. apply period_eqb_spec in E. subst p'.
    destruct (dict_get period_eqb p d) as [w|] eqn:Q; [|reflexivity]. apply dict_get_In in Q; [|apply period_eqb_spec]. exfalso. apply NI. exact (in_map fst _ _ Q).
Qed.
Lemma from_keys : forall ps acc, NoDup (map fst acc ++ ps) -> fold_left (fun acc p => dict_set period_eqb p (Some 0%Qc : num) acc) ps acc = acc ++ map (fun p => (p, Some 0%Qc)) ps.
Proof.
  induction ps as [|p ps IH]; intros acc N; cbn [fold_left map]; [now rewrite app_nil_r|].
  rewrite dict_set_keys_notin; [|apply period_eqb_spec|apply NoDup_remove_2 in N; intros I; apply N, in_or_app; now left].
  rewrite IH, <- app_assoc; [reflexivity|]. rewrite map_app, <- app_assoc. exact N.
Qed.
Lemma get_map : forall (g : period -> num) ps p, NoDup ps -> dict_get period_eqb p (map (fun p => (p, g p)) ps) = if in_dec period_eq_dec p ps then Some (g p) else None.
Proof.
  intros g ps p N. destruct (in_dec _ p ps) as [I|I].
  - apply dict_get_NoDup; [apply period_eqb_spec|rewrite map_map; cbn; now rewrite map_id|]. apply in_map_iff. eauto.
  - apply dict_get_None; [apply period_eqb_spec|]. rewrite map_map. cbn. now rewrite map_id.
Qed.
Lemma dict_same : forall (a b : list (period * num)), NoDup (map fst a) -> map fst a = map fst b -> (forall p, dict_get period_eqb p a = dict_get period_eqb p b) -> a = b.
Proof.
  induction a as [|[p v] a IH]; intros [|[p' v'] b] N E G; cbn in E; try discriminate; auto. injection E as <- E. inversion N as [|? ? NI N']; subst.
  assert (v = v') as ->. { specialize (G p). cbn [dict_get] in G. rewrite (proj2 (period_eqb_spec p p) eq_refl) in G. congruence. }
  f_equal. apply IH; auto. intros q. specialize (G q). cbn [dict_get] in G. destruct (period_eqb q p) eqn:Q; [|exact G].
  apply period_eqb_spec in Q. subst q. transitivity (@None num); [|symmetry]; apply dict_get_None; try apply period_eqb_spec; auto. now rewrite <- E.
Qed.
Lemma get_perm : forall (a b : list (period * num)) p, NoDup (map fst a) -> Permutation a b -> dict_get period_eqb p a = dict_get period_eqb p b.
Proof.
  intros a b p N P. assert (NoDup (map fst b)) as N' by (eapply Permutation_NoDup; [apply Permutation_map; exact P|exact N]).
  destruct (dict_get period_eqb p a) as [v|] eqn:E.
  - apply dict_get_In in E; [|apply period_eqb_spec]. symmetry. apply dict_get_NoDup; [apply period_eqb_spec|exact N'|]. now apply (Permutation_in _ P).
  - apply dict_get_None in E; [|apply period_eqb_spec]. symmetry. apply dict_get_None; [apply period_eqb_spec|]. intros I. apply E. apply (Permutation_in _ (Permutation_sym (Permutation_map fst P)) I).
Qed.
Lemma laid_out_ok : forall ps d, NoDup ps -> NoDup (map fst d) -> (forall p, In p (map fst d) -> In p ps) -> laid_out ps d = map (fun p => (p, val d p)) ps.
Proof.
  intros ps d N ND S. unfold laid_out. rewrite from_keys by exact N. cbn [app].
  pose proof (sort_perm _ (fun a b : period * num => period_leb (fst a) (fst b)) d) as PM. set (s := sort _ d) in *.
  assert (map fst (map (fun p => (p, Some 0%Qc : num)) ps) = ps) as K0 by (rewrite map_map; cbn; apply map_id).
  assert (NoDup (map fst s)) as NS by (eapply Permutation_NoDup; [apply Permutation_map; exact PM|exact ND]).
  destruct (set_over s (map (fun p => (p, Some 0%Qc)) ps)) as [K G].
  - now rewrite K0.
  - exact NS.
  - intros p I. rewrite K0. apply S. apply (Permutation_in _ (Permutation_sym (Permutation_map fst PM)) I).
  - apply dict_same.
    + now rewrite K, K0.
    + rewrite K, K0, map_map. cbn. now rewrite map_id.
    + intros p. rewrite G, <- (get_perm d s p ND PM), !get_map by exact N. unfold val. destruct (dict_get period_eqb p d) as [v|] eqn:E.
      * destruct (in_dec _ p ps) as [I|I]; [reflexivity|]. exfalso. apply I, S. apply dict_get_In in E; [|apply period_eqb_spec]. exact (in_map fst _ _ E).
      * destruct (in_dec _ p ps); reflexivity.
Qed.

(** ** The sums of an installation *)
Lemma sums_ok : forall q l ps, NoDup ps -> (forall a, In a l -> matches q a -> finite_on ps a) ->
  exists sums, Forall2 (fun p x => total_in (matches q) p l x) ps sums /\ laid_out ps (aggregated q l) = combine ps (map Some sums).
Proof.
  intros q l ps N F.
  assert (forall p v, In (p, v) (chosen q l) -> In p ps /\ exists y, v = Some y) as FC.
  { intros p v I. unfold chosen in I. apply in_flat_map in I as (a & Ia & I). destruct (skipped q (a_meta a)) eqn:E; [destruct I|]. apply skipped_spec in E. exact (F a Ia E p v I). }
  exists (map (fun p => points_in p (chosen q l)) ps). split.
  - clear N F FC. induction ps as [|p ps IH]; constructor; auto. apply chosen_total.
  - rewrite aggregated_points, laid_out_ok; auto.
    + assert (forall p, val (fold_left add_point (chosen q l) []) p = Some (points_in p (chosen q l))) as V.
      { intros p. rewrite (val_fold _ _ _ 0%Qc); [f_equal; ring|intros p' v I; apply (FC p' v I)|reflexivity]. }
      clear N F FC. induction ps as [|p ps IH]; cbn; [reflexivity|]. now rewrite V, IH.
    + apply fold_nodup. constructor.
    + intros p I. apply fold_keys in I as [[]|I]. apply in_map_iff in I as ([p' v] & <- & I). now apply FC in I.
Qed.

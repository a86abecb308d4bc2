(** Power from shore. *)
From Coq Require Import PeanoNat Lia.
From Verif Require Import QcTac Base BaseLemmas Time_Model Time_Spec Num Energy_Model Energy_Proofs3 Shore_Model Shore_Spec.
Local Open Scope list_scope.

Lemma is_shore_iff : forall c, is_shore c = true <-> c = PowerFromShore.
Proof. intros [|n]; cbn; split; intros E; try reflexivity; discriminate E. Qed.
Lemma any_shore : forall K (l : list (K * category)), existsb is_shore (map snd l) = true <-> exists k, In (k, PowerFromShore) l.
Proof.
  intros K l. rewrite existsb_exists. split.
  - intros (c & I & S). apply is_shore_iff in S. subst c. apply in_map_iff in I as ([k c] & E & I). cbn in E. subst c. eauto.
  - intros (k & I). exists PowerFromShore. split; [apply in_map_iff; exists (k, PowerFromShore); auto|reflexivity].
Qed.
Lemma validate_given : forall E (cable_loss max_usage : option E) d, cable_loss <> None \/ max_usage <> None ->
  (has_category d PowerFromShore -> validate_power_from_shore cable_loss max_usage d = Ok tt) /\ (~ has_category d PowerFromShore -> validate_power_from_shore cable_loss max_usage d = Err ValueError).
Proof.
  intros E cable_loss max_usage d G. unfold validate_power_from_shore. replace (is_some cable_loss || is_some max_usage) with true by (destruct cable_loss, max_usage; try reflexivity; destruct G; congruence).
  destruct d as [x|x rest|x rest]; cbn [has_category].
  - destruct (is_shore x) eqn:S; [apply is_shore_iff in S; subst x; split; [reflexivity|congruence]|]. split; [intros <-; discriminate S|reflexivity].
  - pose proof (any_shore _ (x :: rest)) as A. destruct (existsb is_shore (map snd (x :: rest))); split; auto; [intros N; destruct N; apply A; reflexivity|intros H; apply A in H; discriminate H].
  - pose proof (any_shore _ (x :: rest)) as A. destruct (existsb is_shore (map snd (x :: rest))); split; auto; [intros N; destruct N; apply A; reflexivity|intros H; apply A in H; discriminate H].
Qed.
Lemma category_dec : forall d, has_category d PowerFromShore \/ ~ has_category d PowerFromShore.
Proof.
  intros [x|x rest|x rest]; cbn [has_category].
  - destruct x; [left; reflexivity|right; discriminate].
  - pose proof (any_shore _ (x :: rest)) as A. destruct (existsb is_shore (map snd (x :: rest))); [left; apply A; reflexivity|right; intros H; apply A in H; discriminate H].
  - pose proof (any_shore _ (x :: rest)) as A. destruct (existsb is_shore (map snd (x :: rest))); [left; apply A; reflexivity|right; intros H; apply A in H; discriminate H].
Qed.
Lemma accepted_iff : forall E (cable_loss max_usage : option E) d,
  (validate_power_from_shore cable_loss max_usage d = Ok tt <-> (cable_loss = None /\ max_usage = None) \/ has_category d PowerFromShore) /\
  (validate_power_from_shore cable_loss max_usage d = Err ValueError <-> (cable_loss <> None \/ max_usage <> None) /\ ~ has_category d PowerFromShore).
Proof.
  intros E cable_loss max_usage d. assert (G : (cable_loss = None /\ max_usage = None) \/ (cable_loss <> None \/ max_usage <> None)).
  { destruct cable_loss; [right; left; discriminate|]. destruct max_usage; [right; right; discriminate|left; auto]. }
  destruct G as [[-> ->]|G].
  - cbn. split; [split; auto|]. split; [discriminate|]. intros [[N|N] _]; congruence.
  - destruct (validate_given E cable_loss max_usage d G) as [Y N]. destruct (category_dec d) as [H|H]; [rewrite (Y H)|rewrite (N H)].
    + split; [split; auto|]. split; [discriminate|]. intros [_ X]. contradiction.
    + split; [|split; auto]. split; [discriminate|]. intros [[-> ->]|X]; [destruct G; congruence|contradiction].
Qed.

(** the categories of the model are those given *)
Lemma dict_set_values : forall K V (eqb : K -> K -> bool) k (v : V) d x, In x (map snd (dict_set eqb k v d)) -> x = v \/ In x (map snd d).
Proof.
  intros K V eqb k v d x. induction d as [|[a b] d IH]; cbn [dict_set map In snd].
  - intros [<-|[]]. auto.
  - destruct (eqb k a); cbn [map In snd].
    + intros [<-|I]; auto.
    + intros [<-|I]; [auto|]. destruct (IH I); auto.
Qed.
Lemma dates_values : forall M (l : list (datetime * M)), map snd (dates_to_periods l) = map snd l.
Proof. intros M l. induction l as [|[d m] l IH]; [reflexivity|]. cbn [dates_to_periods map snd]. rewrite IH. reflexivity. Qed.
Lemma period_dict_values : forall M (l : list (period * M)) x, In x (map snd (period_dict l)) -> In x (map snd l).
Proof.
  intros M l x. unfold period_dict. assert (H : forall acc, In x (map snd (fold_left (fun acc e => dict_set period_eqb (fst e) (snd e) acc) l acc)) -> In x (map snd l) \/ In x (map snd acc)).
  { induction l as [|e l IH]; intros acc I; cbn [fold_left] in I; [auto|]. apply IH in I as [I|I]; [left; right; exact I|]. apply dict_set_values in I as [->|I]; [left; left; reflexivity|auto]. }
  intros I. destruct (H [] I) as [X|[]]; exact X.
Qed.
Lemma define_values : forall M (data : temporal_data M) target x, In x (map snd (define_time_model_for_period data target)) -> In x (map snd (default_temporal_model data target)).
Proof.
  intros M data target x. unfold define_time_model_for_period. generalize (default_temporal_model data target) as l. intros l.
  assert (H : forall acc, In x (map snd (fold_left (fun acc e => if intersects (fst e) target then match intersection (fst e) target with Some p => dict_set period_eqb p (snd e) acc | None => acc end else acc) l acc)) -> In x (map snd l) \/ In x (map snd acc)).
  { induction l as [|e l IH]; intros acc I; cbn [fold_left] in I; [auto|]. apply IH in I as [I|I]; [left; right; exact I|]. destruct (intersects (fst e) target); [|auto]. destruct (intersection (fst e) target); [|auto].
    apply dict_set_values in I as [->|I]; [left; left; reflexivity|auto]. }
  intros I. destruct (H [] I) as [X|[]]; exact X.
Qed.
Lemma model_categories : forall d target model c, temporal_model_create d target = Ok model -> In c (map snd model) -> has_category d c.
Proof.
  intros d target model c E I. unfold temporal_model_create, temporal_model_of_periods in E. destruct (list_eqb _ _ _); [|discriminate E]. injection E as <-. apply define_values in I. destruct d as [x|x rest|x rest]; cbn [default_temporal_model has_category] in *.
  - destruct I as [<-|[]]. reflexivity.
  - apply period_dict_values in I. rewrite dates_values in I. apply in_map_iff in I as ([t y] & E & I). cbn in E. subst y. eauto.
  - apply period_dict_values in I. apply in_map_iff in I as ([t y] & E & I). cbn in E. subst y. eauto.
Qed.

(** without power from shore a cable loss changes nothing *)
Lemma list_ext : forall A (l l' : list A), (forall k, nth_error l k = nth_error l' k) -> l = l'.
Proof.
  intros A. induction l as [|x l IH]; intros [|y l'] H; [reflexivity|discriminate (H 0%nat)|discriminate (H 0%nat)|]. pose proof (H 0%nat) as H0. cbn in H0. injection H0 as ->. f_equal. apply IH. intros k. exact (H (S k)).
Qed.
Lemma no_shore_no_loss : forall E (truthy : E -> bool) evaluate e d target ps power,
  ~ has_category d PowerFromShore -> List.length power = List.length ps -> List.length (evaluate e) = List.length ps -> (forall p, In p ps -> nonempty p) ->
  production truthy evaluate (Some e) d target ps (map Some power) = production truthy evaluate None d target ps (map Some power).
Proof.
  intros E truthy evaluate e d target ps power N Lp Le Ne. unfold production. destruct (temporal_model_create d target) as [model|] eqn:M; [|reflexivity]. cbn [bind]. destruct (truthy e); [|reflexivity].
  destruct (cable_loss_proof (map (fun x => (fst x, is_shore (snd x))) model) ps power (evaluate e) Lp Le Ne) as (effective & total & Ec & Et & Lt & H). rewrite Ec. cbn [bind]. rewrite Et. cbn [power_production]. f_equal. apply list_ext. intros k.
  destruct (nth_error ps k) as [p|] eqn:Kp.
  - assert (Lk : (k < List.length ps)%nat) by (apply nth_error_Some; congruence). destruct (nth_error power k) as [x|] eqn:Kx; [|apply nth_error_None in Kx; lia]. destruct (nth_error (evaluate e) k) as [l|] eqn:Kl; [|apply nth_error_None in Kl; lia].
    destruct (H k p x l Kp Kx Kl) as [H1 H2]. rewrite nth_error_map, Kx. cbn [option_map].
    destruct (find (fun e0 => contains_period (fst e0) p) (map (fun x0 => (fst x0, is_shore (snd x0))) model)) as [[q c]|] eqn:F; [|exact (H2 eq_refl)]. rewrite (H1 q c eq_refl). destruct c; [|reflexivity].
    exfalso. apply N. apply find_some in F as [F _]. apply in_map_iff in F as ([q' c] & E' & I). cbn in E'. assert (S : is_shore c = true) by congruence. apply is_shore_iff in S. subst c. eapply model_categories; [exact M|]. apply in_map_iff. exists (q', PowerFromShore). auto.
  - apply nth_error_None in Kp. rewrite (proj2 (nth_error_None total k)) by lia. symmetry. apply nth_error_None. rewrite map_length. lia.
Qed.
Lemma refused_harmless : forall E (truthy : E -> bool) evaluate e max_usage d target ps power,
  validate_power_from_shore (Some e) max_usage d <> Ok tt -> List.length power = List.length ps -> List.length (evaluate e) = List.length ps -> (forall p, In p ps -> nonempty p) ->
  production truthy evaluate (Some e) d target ps (map Some power) = production truthy evaluate None d target ps (map Some power).
Proof. intros E truthy evaluate e max_usage d target ps power V Lp Le Ne. apply no_shore_no_loss; auto. intros H. apply V. apply accepted_iff. auto. Qed.

(** accepted, but of no effect *)
Lemma before_run_refuted : exists d target ps, (forall E (e : E) m, validate_power_from_shore (Some e) m d = Ok tt) /\ ps <> [] /\ (forall p, In p ps -> nonempty p) /\
  forall power loss, List.length power = List.length ps -> List.length loss = List.length ps -> production (fun _ : unit => true) (fun _ => loss) (Some tt) d target ps (map Some power) = Ok (map Some power).
Proof.
  exists (TDDates (10, PowerFromShore) [(20, OtherCategory 1)]%Z), (mkPeriod 30 50), [mkPeriod 30 40; mkPeriod 40 50]. split; [reflexivity|]. split; [discriminate|]. split; [intros p [<-|[<-|[]]]; reflexivity|].
  intros [|a [|b [|]]] [|x [|y [|]]] Lp Ll; try discriminate. unfold production. cbn -[Qcmult Qcplus]. do 3 f_equal; f_equal; [ring|]. f_equal. f_equal. ring.
Qed.

(** Proofs about pump and compressor systems: the result of a system. *)
From Coq Require Import PeanoNat String.
From Verif Require Import Attributes_Proofs Attributes_Proofs2 QcTac Num Time_Model Time_Spec Time_Proofs Time_Proofs2 Units_Model Rates_Model Rates_Spec Rates_Proofs Rates_Proofs3 Rates_Proofs4
  Base BaseLemmas Expr_Model Expr_Spec Expr_Proofs Vars_Model Vars_Proofs Input_Model Interp_Model Energy_Model Energy_Proofs Energy_Proofs2 Energy_Proofs3 Export_Proofs2 Emitters_Proofs5 Emitters_Spec
  Consumer_Model Consumer_Spec Consumer_Proofs Consumer_Proofs2 Consumer_Proofs3 Consumer_Proofs4 Consumer_Proofs5 Consumer_Proofs6 Consumer_Proofs7 Consumer_Proofs8 Consumer_Proofs9
  Equipment_Model Equipment_Spec Equipment_Proofs Equipment_Proofs2 Equipment_Proofs3 System_Model System_Spec System_Proofs System_Proofs2 System_Proofs3 System_Proofs4 Systems_Model Systems_Spec Systems_Proofs Systems_Proofs2 Systems_Proofs3 Systems_Proofs4 Systems_Proofs5 Systems_Proofs6 Systems_Proofs7.
Local Open Scope list_scope.
Local Open Scope nat_scope.

Lemma kind_cases : forall pow consumes m gs sub, sy_consumers m <> [] ->
  (mapM (map_setting pow m gs sub) (sy_settings m) = Err ValidationError -> system_evaluate pow consumes m gs sub = Err ValidationError) /\
  forall settings, mapM (map_setting pow m gs sub) (sy_settings m) = Ok settings ->
    (kind_acceptable consumes m /\ system_evaluate pow consumes m gs sub = system_result_of pow m consumes sub settings) \/
    (~ kind_acceptable consumes m /\ system_evaluate pow consumes m gs sub = Err ValidationError).
Proof.
  intros pow consumes m gs sub Nc. unfold system_evaluate, kind_acceptable. destruct (sy_pumps m).
  - split.
    + intros ->. destruct consumes; reflexivity.
    + intros settings ->. destruct consumes; [left|right]; split; try reflexivity. discriminate.
  - split; [now intros ->|]. intros settings ->. cbn [bind]. destruct (sy_consumers m) as [|[c t] l]; [congruence|]. cbn [map snd system_consumes].
    destruct (forallb (usage_type_eqb t) (map snd l)) eqn:Ef; cbn [bind].
    + rewrite forallb_forall in Ef. assert (forall x, In x l -> snd x = t) as Same. { intros x I. symmetry. apply usage_type_eqb_eq. apply Ef. now apply in_map. }
      destruct (usage_type_eqb consumes t) eqn:Et; cbn [negb].
      * apply usage_type_eqb_eq in Et. subst t. left. split; [|reflexivity]. intros x [<-|I]; [reflexivity|now apply Same].
      * right. split; [|reflexivity]. intros H. specialize (H (c, t) (or_introl eq_refl)). cbn [snd] in H. subst t. rewrite (proj2 (usage_type_eqb_eq consumes consumes) eq_refl) in Et. discriminate.
    + right. split; [|reflexivity]. intros H. rewrite <- Bool.not_true_iff_false in Ef. apply Ef. apply forallb_forall. intros t' I. apply in_map_iff in I as (x & <- & I). apply usage_type_eqb_eq. rewrite (H x (or_intror I)). exact (H (c, t) (or_introl eq_refl)).
Qed.
Lemma combine_map_l : forall A B D (f : A -> B) (l : list A) (ys : list D) (h : B * D -> num), map h (combine (map f l) ys) = map (fun x => h (f (fst x), snd x)) (combine l ys).
Proof. intros A B D f l. induction l as [|a l IH]; intros [|y ys] h; cbn [map combine]; try reflexivity. now rewrite IH. Qed.
Lemma forall2_map_l : forall A B D (f : A -> B) (P : B -> D -> Prop) l l', Forall2 P (map f l) l' <-> Forall2 (fun a d => P (f a) d) l l'.
Proof.
  intros A B D f P l. induction l as [|a l IH]; intros l'; cbn [map]; split; intros F; inversion F; subst; constructor; auto; now apply IH.
Qed.
Lemma forall2_map_r : forall A B D (f : B -> D) (P : A -> D -> Prop) l l', Forall2 (fun a b => P a (f b)) l l' -> Forall2 P l (map f l').
Proof. intros A B D f P l l' F. induction F; constructor; auto. Qed.
Lemma with_loss : forall (x : result (list num)) ls us e, (do s <- x; with_power_loss None s) = Ok us -> apply_power_loss us ls = Ok e -> (do s <- x; with_power_loss (Some ls) s) = Ok e.
Proof. intros [s|er] ls us e E A; cbn [bind with_power_loss] in *; [|discriminate]. injection E as ->. exact A. Qed.

Section Result.
  Variable pow : Qc -> Qc -> Qc.
  Variables (first : period) (rest : list period) (vars : variables_dict) (vm : variables_map).
  Let ps := first :: rest.
  Let n := List.length ps.
  Hypothesis Evm : make_variables_map ps vars = Ok vm.
  Hypothesis C : contiguous ps.
  Hypothesis Un : forall r l, dict_get String.eqb r vars = Some l -> List.length l = n.
  Variable g : list Qc.
  Hypothesis Lg : List.length g = n.
  Variable meaning_of : system_model -> list meaning.

  Lemma acceptable_cells : forall m s rs sv dv rv k, setting_series pow first rest vars vm g m s rs sv dv rv -> k < n ->
    setting_acceptable pow vars n g m s k <-> forall c, c < List.length (sy_consumers m) -> cell_ok (sy_pumps m) g rs sv dv c k.
  Proof.
    intros m s rs sv dv rv k (Gr & Gs & Gd & Gv & V & _) Lk. fold ps in Gr, Gs, Gd, Gv, V. fold n in Gr, Gs, Gd, Gv, V. assert (nth_error g k = Some (nth k g 0%Qc)) as Eg by (apply nth_error_nth'; lia).
    unfold setting_acceptable, cell_ok. split.
    - intros H c Lc. apply (H (col k rs) (col k sv) (col k dv) (col k rv) c (cell rs c k) (cell sv c k) (cell dv c k) (nth k g 0%Qc)); [apply V; auto|exact Eg|apply (col_cell _ _ _ _ _ _ Gr); auto|apply (col_cell _ _ _ _ _ _ Gs); auto|apply (col_cell _ _ _ _ _ _ Gd); auto].
    - intros H xs ss ds rhos c x p d gk A Egk Kx Kp Kd. apply (V k xs ss ds rhos Lk) in A as (-> & -> & -> & ->). assert (gk = nth k g 0%Qc) as -> by congruence.
      apply (col_cell _ _ _ _ _ _ Gr) in Kx as [Lc ->]. apply (col_cell _ _ _ _ _ _ Gs) in Kp as [_ ->]. apply (col_cell _ _ _ _ _ _ Gd) in Kd as [_ ->]. now apply H.
  Qed.

  Definition quad := (list (list Qc) * list (list Qc) * list (list Qc) * list (list Qc))%type.
  Definition has_series (m : system_model) (s : system_setting) (q : quad) : Prop := let '(rs, sv, dv, rv) := q in setting_series pow first rest vars vm g m s rs sv dv rv.
  Definition part_of (m : system_model) (i j : nat) (x : system_setting * quad) : operational_setting :=
    let '(s, (rs, sv, dv, rv)) := x in part_setting (sy_pumps m) (ss_cross s) rs sv dv rv i j.
  Lemma all_series : forall m, system_ok pow vars n m -> exists sq : list (system_setting * quad), map (@fst _ quad) sq = sy_settings m /\ forall x, In x sq -> has_series m (fst x) (snd x).
  Proof.
    intros m Hm. assert (forall l, (forall s, In s l -> In s (sy_settings m)) -> exists sq : list (system_setting * quad), map (@fst _ quad) sq = l /\ forall x, In x sq -> has_series m (fst x) (snd x)) as G.
    { induction l as [|s l IH]; intros H; [exists []; split; [reflexivity|intros x []]|]. destruct IH as (sq & E & F); [intros s' I; apply H; now right|].
      destruct (setting_series_exists pow first rest vars vm Evm C Un g Lg m s Hm (H s (or_introl eq_refl))) as (rs & sv & dv & rv & Hs). exists ((s, (rs, sv, dv, rv)) :: sq). split; [cbn [map fst]; now rewrite E|].
      intros x [<-|I]; [exact Hs|now apply F]. }
    apply G. auto.
  Qed.
  Lemma settings_mapped : forall m sq i j sub, map (@fst _ quad) sq = sy_settings m -> (forall x, In x sq -> has_series m (fst x) (snd x)) -> i < j -> j <= n -> get_subset vm i j = Ok sub ->
    (mapM (map_setting pow m (slice i j g) sub) (sy_settings m) = Ok (map (part_of m i j) sq) /\ forall k s, i <= k < j -> In s (sy_settings m) -> setting_acceptable pow vars n g m s k) \/
    (mapM (map_setting pow m (slice i j g) sub) (sy_settings m) = Err ValidationError /\ ~ forall k s, i <= k < j -> In s (sy_settings m) -> setting_acceptable pow vars n g m s k).
  Proof.
    intros m sq i j sub Esq Hsq L1 L2 Es.
    destruct (mapM_cases (map_setting pow m (slice i j g) sub) ValidationError (fun s _ => forall k, i <= k < j -> setting_acceptable pow vars n g m s k) (map (@fst _ quad) sq) (map (part_of m i j) sq)) as [[E F]|[E F]].
    - clear Esq. induction sq as [|[s [[[rs sv] dv] rv]] sq IH]; cbn [map]; constructor; [|apply IH; intros x I; apply Hsq; now right]. pose proof (Hsq _ (or_introl eq_refl)) as H. cbn [fst snd has_series] in H. cbn [fst part_of].
      assert ((forall k, i <= k < j -> setting_acceptable pow vars n g m s k) <-> part_ok (sy_pumps m) g (List.length (sy_consumers m)) rs sv dv i j) as Q.
      { unfold part_ok. split; intros A.
        - intros c k Lc Hk. apply (proj1 (acceptable_cells m s rs sv dv rv k H ltac:(lia))); auto.
        - intros k Hk. apply (proj2 (acceptable_cells m s rs sv dv rv k H ltac:(lia))). intros c Lc. now apply A. }
      rewrite Q. destruct H as (_ & _ & _ & _ & _ & H). exact (H i j sub L1 L2 Es).
    - left. rewrite <- Esq. split; [exact E|]. intros k s Hk I. apply in_map_iff in I as (x & <- & I). destruct (forall2_in_l _ _ _ _ _ _ F (in_map (@fst _ quad) _ _ I)) as (y & _ & A). now apply A.
    - right. rewrite <- Esq. split; [exact E|]. intros A. apply F. clear -A. assert (forall l, (forall x, In x l -> In x (map (@fst _ quad) sq)) -> forall l' : list operational_setting, List.length l = List.length l' -> Forall2 (fun s (_ : operational_setting) => forall k, i <= k < j -> setting_acceptable pow vars n g m s k) l l') as G.
      { induction l as [|x l IH]; intros H [|y l'] L; try discriminate; constructor; [intros k Hk; apply A; [exact Hk|apply H; now left]|]. apply IH; [intros z I; apply H; now right|now injection L]. }
      apply G; [auto|now rewrite !map_length].
  Qed.

  Section OnePart.
  Variables (m : system_model) (mes : list meaning).
  Hypothesis Hok : system_ok pow vars n m.
  Hypothesis Hmean : Forall2 means (map fst (sy_consumers m)) mes.
  Let cs := map fst (sy_consumers m).
  Let count := List.length (sy_consumers m).
  Definition totals : list consumer := map (fun x : consumer * meaning => total (c_name (fst x)) (snd x)) (combine (map fst (sy_consumers m)) mes).
  Let ts := totals.
  Lemma cs_length : List.length cs = count.
  Proof. apply map_length. Qed.
  Lemma ts_length : List.length ts = count.
  Proof. unfold ts, totals. rewrite map_length, combine_length, <- (forall2_length_eq _ _ _ _ _ Hmean), Nat.min_id. apply map_length. Qed.
  Lemma ts_nth : forall i c t, nth_error cs i = Some c -> nth_error ts i = Some t -> exists me, nth_error mes i = Some me /\ means c me /\ t = total (c_name c) me.
  Proof.
    intros i c t Kc Kt. assert (i < List.length mes) as Li. { rewrite <- (forall2_length_eq _ _ _ _ _ Hmean). apply nth_error_Some. unfold cs in Kc. congruence. } destruct (nths _ mes i Li) as (me & Km). exists me. split; [exact Km|]. split; [exact (Forall2_nth2 _ _ _ _ _ _ _ _ Hmean Kc Km)|].
    unfold ts, totals in Kt. rewrite nth_error_map in Kt. destruct (nth_error (combine (map fst (sy_consumers m)) mes) i) as [x|] eqn:Kx; [|discriminate]. injection Kt as <-. fold cs in Kx.
    assert (x = (c, me)) as ->; [|reflexivity]. clear -Kc Km Kx. revert i mes Kc Km Kx. induction cs as [|a l IH]; intros [|i] [|b mes] Kc Km Kx; cbn [combine nth_error] in *; try discriminate; [congruence|now apply (IH i mes)].
  Qed.
  Lemma ts_means : Forall2 means_all ts mes.
  Proof.
    unfold ts, totals. revert Hmean. generalize (map fst (sy_consumers m)). intros l F. induction F as [|c me l l' H F IH]; cbn [combine map]; constructor; [apply total_means|exact IH].
  Qed.
  Lemma ts_names : map c_name ts = map c_name cs.
  Proof.
    unfold ts, totals, cs. revert Hmean. generalize (map fst (sy_consumers m)). intros l F. induction F as [|c me l l' H F IH]; cbn [combine map]; [reflexivity|]. now rewrite IH.
  Qed.
  Lemma some_consumers : 0 < count.
  Proof. destruct Hok as (Nc & _). unfold count. destruct (sy_consumers m); [congruence|cbn; lia]. Qed.

  Section InPart.
  Variables i j : nat.
  Hypothesis L1 : i < j.
  Hypothesis L2 : j <= n.
  Hypothesis Works : forall k, i <= k < j -> system_works pow vars n g m mes k.
  Lemma cross_numbers : forall s, In s (sy_settings m) -> forall numbers, ss_cross s = Some numbers -> numbers <> [] -> List.length numbers = count /\ forall z, In z numbers -> (0 <= z <= Z.of_nat count)%Z.
  Proof. intros s I. destruct Hok as (_ & _ & _ & _ & Hs). now destruct (Hs s I) as (_ & _ & _ & _ & _ & _ & H). Qed.
  Lemma part_good : forall s q, In s (sy_settings m) -> has_series m s q ->
    exists rates, rates_after_cross_over ts (part_of m i j (s, q)) = Ok rates /\
      good count (j - i) (fun c x p d rho => forall me, nth_error mes c = Some me -> me_takes me x p d rho) (part_of m i j (s, q)) rates /\
      rates_after_cross_over cs (part_of m i j (s, q)) = Ok rates.
  Proof.
    intros s [[[rs sv] dv] rv] I Hs. cbn [has_series part_of] in *.
    pose proof (cross_part pow first rest vars vm g m mes ts ts_means ts_length some_consumers s rs sv dv rv Hs (cross_numbers s I) i j L1 L2) as (after & Ea & Ga & Xa). fold count in Ga.
    destruct (grids pow first rest vars vm g m s rs sv dv rv Hs) as (Gr & Gs & Gd & Gv). fold ps in Gr, Gs, Gd, Gv. fold n in Gr, Gs, Gd, Gv. fold count in Gr, Gs, Gd, Gv.
    pose proof (part_complete pow first rest vars vm g m ts ts_length s rs sv dv rv Hs i j L1 L2) as Co. rewrite ts_length in Co.
    set (os := part_setting (sy_pumps m) (ss_cross s) rs sv dv rv i j) in *.
    pose proof (grid_slice _ _ _ i j Gs L1 L2) as Gs'. pose proof (grid_slice _ _ _ i j Gd L1 L2) as Gd'. pose proof (grid_slice _ _ _ i j Gv L1 L2) as Gv'.
    assert (forall v c k, grid count n v -> c < count -> k < j - i -> cell (map (slice i j) v) c k = cell v c (i + k)) as Cs by (intros v c k G Lc Lk; exact (grid_val count n v i j c k G L1 L2 Lc Lk)).
    assert (forall c k me, c < count -> k < j - i -> nth_error mes c = Some me -> me_takes me (cell after c k) (cell sv c (i + k)) (cell dv c (i + k)) (cell rv c (i + k)) /\ (forall numbers, ss_cross s = Some numbers -> nth c numbers 0%Z <> 0%Z -> me_max_known me (cell sv c (i + k)) (cell dv c (i + k)) (cell rv c (i + k)))) as Tk.
    { intros c k me Lc Lk Km. apply (Works (i + k) ltac:(lia) s (col k after) (col (i + k) sv) (col (i + k) dv) (col (i + k) rv) c me); try assumption.
      - apply (inputs_vec pow first rest vars vm g m mes ts ts_means ts_length some_consumers s rs sv dv rv Hs (cross_numbers s I) i j L1 L2 after k); auto.
      - apply (col_cell _ _ _ _ _ _ Ga). auto.
      - apply (col_cell _ _ _ _ _ _ Gs). auto.
      - apply (col_cell _ _ _ _ _ _ Gd). auto.
      - apply (col_cell _ _ _ _ _ _ Gv). auto. }
    exists (map (map Some) after). split; [exact Ea|]. split.
    - split; [exact Co|]. split; [rewrite map_length; apply Ga|]. split; [intros l Il; apply in_map_iff in Il as (x & <- & Il); rewrite map_length; now apply Ga|].
      intros c k Lc Lk. exists (cell after c k), (cell sv c (i + k)), (cell dv c (i + k)), (cell rv c (i + k)). split; [apply (at_cell _ _ _ _ _ _ Ga Lk); auto|].
      split; [apply (at_cell _ _ _ _ _ _ Gs' Lk); rewrite (Cs sv c k Gs Lc Lk); auto|]. split; [apply (at_cell _ _ _ _ _ _ Gd' Lk); rewrite (Cs dv c k Gd Lc Lk); auto|]. split.
      + unfold os, part_setting. cbn [os_density]. destruct (sy_pumps m) eqn:Ep; [apply (at_cell _ _ _ _ _ _ Gv' Lk); rewrite (Cs rv c k Gv Lc Lk); auto|].
        apply (density_one pow first rest vars vm g m s rs sv dv rv Hs c (i + k) Ep Lc). change (i + k < n). lia.
      + intros me Km. now apply Tk.
    - rewrite <- Ea. apply cross_same; [rewrite cs_length, ts_length; reflexivity|]. intros c cons t su di fd Kc Kt Esu Edi Efd (numbers & En & Nz). destruct (ts_nth c cons t Kc Kt) as (me & Km & Hme & ->).
      assert (c < count) as Lc by (rewrite <- cs_length; apply nth_error_Some; congruence).
      apply get_is in Esu, Edi. unfold os, part_setting in Esu, Edi, En. cbn [os_suction os_discharge os_cross] in Esu, Edi, En. rewrite nth_error_map in Esu, Edi.
      assert (forall v, grid count n v -> nth_error (map (slice i j) v) c = Some (slice i j (nth c v []))) as Nv by (intros v G; apply (slice_cell _ _ _ _ _ _ _ G); auto).
      rewrite (Nv sv Gs) in Esu. rewrite (Nv dv Gd) in Edi. injection Esu as <-. injection Edi as <-.
      assert (forall v : list (list Qc), grid count n v -> List.length (slice i j (nth c v [])) = j - i) as Lv by (intros v G; apply slice_length; rewrite (grid_nth _ _ _ _ G Lc); exact L2).
      assert (densities_are fd (slice i j (nth c rv []))) as Df.
      { unfold get_density, os, part_setting in Efd. cbn [os_density] in Efd. destruct (sy_pumps m) eqn:Ep.
        - apply bind_ok in Efd as (l & El & Efd). injection Efd as <-. apply get_is in El. rewrite nth_error_map, (Nv rv Gv) in El. now injection El as <-.
        - injection Efd as <-. cbn [densities_are]. rewrite (Lv rv Gv). apply list_ext_nth. intros k. destruct (Nat.lt_ge_cases k (j - i)) as [Lk|Lk].
          + rewrite (nth_error_repeat 1%Qc Lk). apply (slice_value _ _ _ _ _ _ _ _ Gv Lc L1 L2). split; [exact Lk|]. symmetry. apply (density_one pow first rest vars vm g m s rs sv dv rv Hs c (i + k) Ep Lc). change (i + k < n). lia.
          + rewrite (proj2 (nth_error_None _ _)) by (rewrite (Lv rv Gv); lia). symmetry. apply nth_error_None. rewrite repeat_length. lia. }
      apply (means_max cons me Hme (slice i j (nth c sv [])) (slice i j (nth c dv [])) (slice i j (nth c rv [])) fd); [rewrite !Lv; auto|rewrite !Lv; auto|exact Df|].
      intros k a b rho Ka Kb Kr. assert (k < j - i) as Lk by (rewrite <- (Lv sv Gs); apply nth_error_Some; congruence).
      apply (slice_value _ _ _ _ _ _ _ _ Gs Lc L1 L2) in Ka as [_ ->]. apply (slice_value _ _ _ _ _ _ _ _ Gd Lc L1 L2) in Kb as [_ ->]. apply (slice_value _ _ _ _ _ _ _ _ Gv Lc L1 L2) in Kr as [_ ->].
      apply (proj2 (Tk c k me Lc Lk Km) numbers En Nz).
  Qed.
  Lemma parts_same : forall sq, map (@fst _ quad) sq = sy_settings m -> (forall x, In x sq -> has_series m (fst x) (snd x)) -> evaluate_system cs (map (part_of m i j) sq) = evaluate_system ts (map (part_of m i j) sq).
  Proof.
    intros sq Esq Hsq. assert (forall x, In x sq -> In (fst x) (sy_settings m)) as Is by (intros x I; rewrite <- Esq; now apply in_map).
    assert (forall x, In x sq -> exists rates, rates_after_cross_over ts (part_of m i j x) = Ok rates /\ good count (j - i) (fun c x p d rho => forall me, nth_error mes c = Some me -> me_takes me x p d rho) (part_of m i j x) rates /\ rates_after_cross_over cs (part_of m i j x) = Ok rates) as G.
    { intros [s q] I. exact (part_good s q (Is _ I) (Hsq _ I)). }
    apply (system_same cs ts count (j - i) (map (part_of m i j) sq) (fun c x p d rho => forall me, nth_error mes c = Some me -> me_takes me x p d rho) cs_length ts_length).
    - intros c a t Kc Kt. destruct (ts_nth c a t Kc Kt) as (me & _ & _ & ->). reflexivity.
    - intros c a t Kc Kt rate su di rhos fd La Lb Ld Df H. destruct (ts_nth c a t Kc Kt) as (me & Km & Hme & ->). apply (means_agree a me Hme rate su di rhos fd La Lb Ld Df). intros k x p d rho K1 K2 K3 K4. now apply (H k x p d rho K1 K2 K3 K4).
    - intros s rates I E. apply in_map_iff in I as (x & <- & I). destruct (G x I) as (rates' & E' & Gd & _). assert (rates' = rates) as -> by congruence. exact Gd.
    - intros s I. apply in_map_iff in I as (x & <- & I). destruct (G x I) as (rates' & E' & _ & E2). congruence.
  Qed.
  End InPart.
  End OnePart.

  Lemma system_part : forall consumes m i j sub, system_ok pow vars n m -> Forall2 means (map fst (sy_consumers m)) (meaning_of m) -> i < j -> j <= n -> get_subset vm i j = Ok sub ->
    ((forall k, i <= k < j -> system_acceptable pow vars n g consumes m k) /\ ((forall k, i <= k < j -> system_works pow vars n g m (meaning_of m) k) -> exists r, system_evaluate pow consumes m (slice i j g) sub = Ok r /\
        part_result2 first rest consumes (fun m => system_usage pow vars n g m (meaning_of m)) (fun m => system_power_at pow vars n g m (meaning_of m)) (fun _ => true) m i j r)) \/
    (~ (forall k, i <= k < j -> system_acceptable pow vars n g consumes m k) /\ system_evaluate pow consumes m (slice i j g) sub = Err ValidationError).
  Proof.
    intros consumes m i j sub Hok Hmean L1 L2 Es. pose proof Hok as (Nc & Ns & (Nd & W) & Hc & Hs). set (mes := meaning_of m) in *.
    destruct (all_series m Hok) as (sq & Esq & Hsq). destruct (kind_cases pow consumes m (slice i j g) sub Nc) as [K1 K2].
    destruct (settings_mapped m sq i j sub Esq Hsq L1 L2 Es) as [[E A]|[E A]].
    2:{ right. split; [|now apply K1]. intros B. apply A. intros k s Hk I. now apply (B k Hk). }
    destruct (K2 _ E) as [[Kd ->]|[Kd ->]]; [|right; split; [|reflexivity]; intros B; apply Kd; apply (B i); lia].
    left. split; [intros k Hk; split; [exact Kd|]; intros s I; now apply A|]. intros Works.
    destruct (part_facts pow first rest vars vm Evm C Un i j sub L1 L2 Es) as (Pp & _ & _). fold ps in Pp.
    destruct (loss_of pow first rest vars vm Evm C Un (sy_common m) Hc) as (ls & Ll & Vl & Sl). fold ps in Ll, Vl, Sl. fold n in Ll, Vl, Sl.
    set (consumers := map fst (sy_consumers m)) in *. set (settings := map (part_of m i j) sq).
    assert (0 < List.length (sy_consumers m)) as Lc0 by (destruct (sy_consumers m); [congruence|cbn; lia]).
    set (ts := totals m mes). assert (List.length ts = List.length (sy_consumers m)) as Lts by now apply ts_length. pose proof (ts_means m mes Hmean) as Hts. fold ts in Hts. assert (List.length consumers = List.length (sy_consumers m)) as Lcs by apply map_length.
    assert (forall x, In x sq -> forall numbers, ss_cross (fst x) = Some numbers -> numbers <> [] -> List.length numbers = List.length (sy_consumers m) /\ forall z, In z numbers -> (0 <= z <= Z.of_nat (List.length (sy_consumers m)))%Z) as Hx.
    { intros x I. assert (In (fst x) (sy_settings m)) as I' by (rewrite <- Esq; now apply in_map). now destruct (Hs _ I') as (_ & _ & _ & _ & _ & _ & H). }
    assert (forall x, In x sq -> complete (List.length ts) (j - i) (part_of m i j x)) as Hcomp.
    { intros [s [[[rs sv] dv] rv]] I. exact (part_complete pow first rest vars vm g m ts Lts s rs sv dv rv (Hsq _ I) i j L1 L2). }
    assert (forall x, In x sq -> exists rates, rates_after_cross_over ts (part_of m i j x) = Ok rates /\ forall k pts, k < j - i -> points (part_of m i j x) rates k (map (fun me => lift (me_point me)) mes) pts <-> setting_points pow vars n g m mes (fst x) (i + k) pts) as Hpts.
    { intros [s [[[rs sv] dv] rv]] I. exact (points_setting pow first rest vars vm g m mes ts Hts Lts Lc0 s rs sv dv rv (Hsq _ I) (Hx _ I) i j L1 L2). }
    destruct (system_with_power ts (map (fun me => lift (me_point me)) mes) (map me_power mes) settings (j - i)) as (r & valid & energy & power & Er & Ev & Ee & Ep & Lv & Le & Lp & K).
    - intros X. rewrite X in Lts. cbn in Lts. lia.
    - intros X. unfold settings in X. apply map_eq_nil in X. subst sq. cbn in Esq. congruence.
    - apply forall2_map_r. clear -Hts. induction Hts as [|c me l l' H F IH]; [constructor|constructor; [apply H|exact IH]].
    - apply forall2_map_r. clear -Hts. induction Hts as [|c me l l' H F IH]; [constructor|constructor; [exact (proj2 (proj2 H))|exact IH]].
    - unfold ts. rewrite (ts_names m mes Hmean), map_map. exact Nd.
    - intros s I. apply in_map_iff in I as (x & <- & I). now apply Hcomp.
    - intros s I. apply in_map_iff in I as (x & <- & I). destruct (Hpts x I) as (rates & X & _). eauto.
    - assert (List.length (slice i j ls) = j - i) as Lls by (apply slice_length; lia).
      destruct (apply_loss_num energy (slice i j ls)) as (en & Een & Len & Ven); [congruence|]. destruct (apply_loss_num power (slice i j ls)) as (pw & Epw & Lpw & Vpw); [congruence|].
      unfold system_result_of. fold consumers. rewrite (proj2 (system_validation_proof consumers settings)).
      2:{ intros s I. apply in_map_iff in I as (x & <- & I). destruct (Hcomp x I) as (X & _). congruence. }
      cbn [bind]. unfold consumers, settings. rewrite (parts_same m mes Hok Hmean i j L1 L2 Works sq Esq Hsq). fold ts. fold settings. rewrite Er. cbn [bind]. rewrite (Sl i j sub L1 L2 Es). cbn [bind]. rewrite (with_loss _ (slice i j ls) energy en Ee Een : system_energy r (Some (slice i j ls)) = Ok en). cbn [bind]. rewrite (with_loss _ (slice i j ls) power pw Ep Epw : system_power r (Some (slice i j ls)) = Ok pw). cbn [bind]. rewrite Ev. cbn [bind].
      eexists. split; [reflexivity|]. unfold part_result2. cbn [fr_periods fr_unit fr_energy fr_valid fr_power]. fold ps. split; [exact Pp|]. split; [reflexivity|]. split; [congruence|]. split; [exact Lv|].
      assert (forall k, k < j - i -> exists pts, chosen_points pow vars n g m mes (i + k) pts /\ (nth_error valid k = Some true <-> works pts) /\ nth_error energy k = Some (nsum (map pt_energy pts)) /\
        nth_error power k = Some (nsum (map (fun x => if me_power (fst x) then pt_power (snd x) else Some 0%Qc) (combine mes pts))) /\ exists f, nth_error (slice i j ls) k = Some f /\ lost pow vars n (sy_common m) (i + k) f) as G.
      { intros k Lk. destruct (K k Lk) as (q & s & rates & pts & Ks & Er' & Pt & Wk & First & V & Ne & Np). exists pts. unfold settings in Ks. rewrite nth_error_map in Ks. destruct (nth_error sq q) as [x|] eqn:Kx; [|discriminate]. injection Ks as <-.
        assert (forall q x, nth_error sq q = Some x -> nth_error (sy_settings m) q = Some (fst x)) as Nq by (intros q' x' X; rewrite <- Esq, nth_error_map, X; reflexivity).
        split; [|split; [exact V|split; [exact Ne|split; [rewrite Np, combine_map_l; reflexivity|]]]].
        - exists q, (fst x). split; [now apply Nq|]. split. { destruct (Hpts x (nth_error_In _ _ Kx)) as (rates' & X & Y). assert (rates' = rates) as -> by congruence. now apply Y. }
          split. { destruct Wk as [Wk|Wk]; [now left|right]. unfold settings in Wk. rewrite map_length in Wk. rewrite <- Esq, map_length. exact Wk. }
          intros q' s' pts' Lq Ks' P'. rewrite <- Esq, nth_error_map in Ks'. destruct (nth_error sq q') as [x'|] eqn:Kx'; [|discriminate]. injection Ks' as <-. destruct (Hpts x' (nth_error_In _ _ Kx')) as (rates' & X & Y).
          apply (First q' (part_of m i j x') rates' pts' Lq); [unfold settings; now rewrite nth_error_map, Kx'|exact X|now apply Y].
        - exists (nth (i + k) ls 0%Qc). split; [exact (slice_nth first rest g Lg ls i j k L1 L2 Ll Lk)|]. apply Vl; [lia|apply nth_error_nth'; lia]. }
      split.
      + intros k e v Ke Kv. assert (k < j - i) as Lk by (rewrite <- Lv; apply nth_error_Some; congruence). destruct (G k Lk) as (pts & Ch & V & Ne & _ & f & Kf & Hf). exists pts, f. split; [exact Ch|]. split; [exact Hf|]. split; [exact (Ven k _ f e Ne Kf Ke)|].
        rewrite <- V, Kv. split; congruence.
      + exists pw. split; [reflexivity|]. split; [congruence|]. intros k w Kw. assert (k < j - i) as Lk by (rewrite <- Lp, <- Lpw; apply nth_error_Some; congruence). destruct (G k Lk) as (pts & Ch & _ & _ & Np & f & Kf & Hf). exists pts, f. split; [exact Ch|]. split; [exact Hf|]. exact (Vpw k _ f w Np Kf Kw).
  Qed.
End Result.

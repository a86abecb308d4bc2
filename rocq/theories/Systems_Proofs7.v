(** Proofs about pump and compressor systems: consumers on the values they take. *)
From Coq Require Import PeanoNat String.
From Verif Require Import Attributes_Proofs Attributes_Proofs2 QcTac Num Time_Model Time_Spec Time_Proofs Time_Proofs2 Units_Model Rates_Model Rates_Spec Rates_Proofs Rates_Proofs3 Rates_Proofs4
  Base BaseLemmas Expr_Model Expr_Spec Expr_Proofs Vars_Model Vars_Proofs Input_Model Interp_Model Energy_Model Energy_Proofs Energy_Proofs2 Energy_Proofs3 Export_Proofs2 Emitters_Proofs5 Emitters_Spec
  Consumer_Model Consumer_Spec Consumer_Proofs Consumer_Proofs2 Consumer_Proofs3 Consumer_Proofs4 Consumer_Proofs5 Consumer_Proofs6 Consumer_Proofs7 Consumer_Proofs8 Consumer_Proofs9
  Equipment_Model Equipment_Spec Equipment_Proofs Equipment_Proofs2 Equipment_Proofs3 System_Model System_Spec System_Proofs System_Proofs2 System_Proofs3 System_Proofs4 Systems_Model Systems_Spec Systems_Proofs Systems_Proofs2 Systems_Proofs3 Systems_Proofs4 Systems_Proofs5 Systems_Proofs6.
Local Open Scope list_scope.
Local Open Scope nat_scope.

Lemma all_some : forall n (l : list num), List.length l = n -> (forall k, k < n -> exists x, nth_error l k = Some (Some x)) -> exists q, l = map Some q /\ List.length q = n.
Proof.
  induction n as [|n IH]; intros [|a l] L H; try discriminate; [exists []; auto|]. destruct (H 0) as (x & E); [lia|]. injection E as ->. destruct (IH l) as (q & -> & Lq); [now injection L|intros k Lk; apply (H (S k)); lia|]. exists (x :: q). split; [reflexivity|cbn; lia].
Qed.
Lemma get_ok : forall A (l : list A) i x, nth_error l i = Some x -> get l i = Ok x.
Proof. intros A l i x E. unfold get. now rewrite E. Qed.
Lemma get_is : forall A (l : list A) i x, get l i = Ok x -> nth_error l i = Some x.
Proof. intros A l i x E. unfold get in E. destruct (nth_error l i); [now injection E as ->|discriminate]. Qed.

Section Ext.
  Variables (cs ts : list consumer) (count n : nat) (settings : list operational_setting) (D : nat -> Qc -> Qc -> Qc -> Qc -> Prop).
  Hypothesis Lcs : List.length cs = count.
  Hypothesis Lts : List.length ts = count.
  Hypothesis Names : forall i c t, nth_error cs i = Some c -> nth_error ts i = Some t -> c_name c = c_name t.
  Hypothesis Agree : forall i c t, nth_error cs i = Some c -> nth_error ts i = Some t ->
    forall rate suction discharge rhos fd, List.length suction = List.length rate -> List.length discharge = List.length rate -> List.length rhos = List.length rate -> densities_are fd rhos ->
      (forall k x s d rho, nth_error rate k = Some x -> nth_error suction k = Some s -> nth_error discharge k = Some d -> nth_error rhos k = Some rho -> D i x s d rho) ->
      c_evaluate c (map Some rate) (map Some suction) (map Some discharge) fd = c_evaluate t (map Some rate) (map Some suction) (map Some discharge) fd.
  Definition good (s : operational_setting) (rates : list (list num)) : Prop :=
    complete count n s /\ List.length rates = count /\ (forall l, In l rates -> List.length l = n) /\
    forall i k, i < count -> k < n -> exists x p d rho, at_ rates i k (Some x) /\ at_ (os_suction s) i k (Some p) /\ at_ (os_discharge s) i k (Some d) /\
      (match os_density s with None => rho = 1%Qc | Some l => at_ l i k (Some rho) end) /\ D i x p d rho.
  Hypothesis Good : forall s rates, In s settings -> rates_after_cross_over ts s = Ok rates -> good s rates.
  Hypothesis Cross : forall s, In s settings -> rates_after_cross_over cs s = rates_after_cross_over ts s.

  Lemma row_of : forall (v : list (list num)) i, i < List.length v -> (forall l, In l v -> List.length l = n) -> (forall k, k < n -> exists x, at_ v i k (Some x)) -> exists q, nth_error v i = Some (map Some q) /\ List.length q = n.
  Proof.
    intros v i Li Ll H. destruct (nth_error v i) as [l|] eqn:E; [|apply nth_error_None in E; lia]. destruct (all_some n l) as (q & -> & Lq); [apply Ll; now apply nth_error_In in E| |eauto].
    intros k Lk. destruct (H k Lk) as (x & l' & E' & K). assert (l' = l) as -> by congruence. eauto.
  Qed.
  Lemma one_same : forall s rates i c t, good s rates -> nth_error cs i = Some c -> nth_error ts i = Some t ->
    exists rate suction discharge fd, get rates i = Ok rate /\ get (os_suction s) i = Ok suction /\ get (os_discharge s) i = Ok discharge /\ get_density s i = Ok fd /\ c_evaluate c rate suction discharge fd = c_evaluate t rate suction discharge fd.
  Proof.
    intros s rates i c t (Co & Lr & Lrl & V) Kc Kt. assert (i < count) as Li by (rewrite <- Lcs; apply nth_error_Some; congruence). destruct Co as (C1 & C2 & C3 & C4 & C5).
    destruct (row_of rates i) as (xs & Ex & Lx); [lia|exact Lrl|intros k Lk; destruct (V i k Li Lk) as (x & p & d & rho & A & _); eauto|].
    destruct (row_of (os_suction s) i) as (sl & Es & Ls); [lia|intros l I; apply C5; rewrite !in_app_iff; auto|intros k Lk; destruct (V i k Li Lk) as (x & p & d & rho & _ & A & _); eauto|].
    destruct (row_of (os_discharge s) i) as (dl & Ed & Ld); [lia|intros l I; apply C5; rewrite !in_app_iff; auto|intros k Lk; destruct (V i k Li Lk) as (x & p & d & rho & _ & _ & A & _); eauto|].
    assert (exists fd rhos, get_density s i = Ok fd /\ List.length rhos = n /\ densities_are fd rhos /\ forall k x s' d rho, k < n -> nth_error xs k = Some x -> nth_error sl k = Some s' -> nth_error dl k = Some d -> nth_error rhos k = Some rho -> D i x s' d rho) as (fd & rhos & Ef & Lf & Df & H).
    { unfold get_density. destruct (os_density s) as [l|].
      - destruct (C4 l eq_refl) as [Ll Lll]. destruct (row_of l i) as (rl & Er & Lrr); [lia|exact Lll|intros k Lk; destruct (V i k Li Lk) as (x & p & d & rho & _ & _ & _ & A & _); eauto|].
        exists (Per (map Some rl)), rl. rewrite (get_ok _ _ _ _ Er). cbn [bind]. split; [reflexivity|]. split; [exact Lrr|]. split; [reflexivity|]. intros k x s' d rho Lk Kx Ks Kd Kr.
        destruct (V i k Li Lk) as (x1 & p1 & d1 & rho1 & (a1 & B1 & K1) & (a2 & B2 & K2) & (a3 & B3 & K3) & (a4 & B4 & K4) & HD).
        assert (a1 = map Some xs) as -> by congruence. assert (a2 = map Some sl) as -> by congruence. assert (a3 = map Some dl) as -> by congruence. assert (a4 = map Some rl) as -> by congruence.
        rewrite nth_error_map in K1, K2, K3, K4. rewrite Kx in K1. rewrite Ks in K2. rewrite Kd in K3. rewrite Kr in K4. injection K1 as <-. injection K2 as <-. injection K3 as <-. injection K4 as <-. exact HD.
      - exists One, (repeat 1%Qc n). split; [reflexivity|]. split; [apply repeat_length|]. split; [cbn [densities_are]; now rewrite repeat_length|]. intros k x s' d rho Lk Kx Ks Kd Kr. rewrite (nth_error_repeat 1%Qc Lk) in Kr. injection Kr as <-.
        destruct (V i k Li Lk) as (x1 & p1 & d1 & rho1 & (a1 & B1 & K1) & (a2 & B2 & K2) & (a3 & B3 & K3) & -> & HD).
        assert (a1 = map Some xs) as -> by congruence. assert (a2 = map Some sl) as -> by congruence. assert (a3 = map Some dl) as -> by congruence.
        rewrite nth_error_map in K1, K2, K3. rewrite Kx in K1. rewrite Ks in K2. rewrite Kd in K3. injection K1 as <-. injection K2 as <-. injection K3 as <-. exact HD. }
    exists (map Some xs), (map Some sl), (map Some dl), fd. split; [now apply get_ok|]. split; [now apply get_ok|]. split; [now apply get_ok|]. split; [exact Ef|].
    apply (Agree i c t Kc Kt xs sl dl rhos fd); try congruence; try exact Df. intros k x s' d rho Kx Ks Kd Kr. apply (H k); auto. rewrite <- Lx. apply nth_error_Some. congruence.
  Qed.
  Lemma setting_same : forall s rates, good s rates -> evaluate_setting cs s rates = evaluate_setting ts s rates.
  Proof.
    intros s rates G. unfold evaluate_setting. assert (forall cs' ts' o acc, List.length cs' = List.length ts' -> (forall q c, nth_error cs' q = Some c -> nth_error cs (o + q) = Some c) -> (forall q t, nth_error ts' q = Some t -> nth_error ts (o + q) = Some t) ->
      evaluate_setting_from s rates o cs' acc = evaluate_setting_from s rates o ts' acc) as H.
    { induction cs' as [|c cs' IH]; intros [|t ts'] o acc L Hc Ht; try discriminate; [reflexivity|]. cbn [evaluate_setting_from].
      pose proof (Hc 0 c eq_refl) as Kc. pose proof (Ht 0 t eq_refl) as Kt. rewrite Nat.add_0_r in Kc, Kt. destruct (one_same s rates o c t G Kc Kt) as (rate & su & di & fd & -> & -> & -> & -> & E). cbn [bind]. rewrite E. destruct (c_evaluate t rate su di fd); [|reflexivity]. cbn [bind].
      rewrite (Names o c t Kc Kt). apply IH; [now injection L|intros q c' K; rewrite Nat.add_succ_l, <- Nat.add_succ_r; now apply Hc|intros q t' K; rewrite Nat.add_succ_l, <- Nat.add_succ_r; now apply Ht]. }
    apply H; [congruence|auto|auto].
  Qed.

  Lemma used_good : forall rl i k number u, i < count -> (forall s rates, In (s, rates) (zip settings rl) -> good s rates) -> used_value (zip settings rl) i k number = Ok u ->
    exists x p d rho, u_rate u = Some x /\ u_suction u = Some p /\ u_discharge u = Some d /\ u_density u = Some rho /\ D i x p d rho.
  Proof.
    intros rl i k number u Li G E. unfold used_value in E. apply bind_ok in E as ([s rates] & Es & E). apply get_is in Es. pose proof (G s rates (nth_error_In _ _ Es)) as (_ & Lr & Lrl & V).
    apply bind_ok in E as (after & Ea & E). apply bind_ok in E as (before & _ & E). apply bind_ok in E as (cross & _ & E). apply bind_ok in E as (xc & _ & E). apply bind_ok in E as (rate & Er & E).
    apply bind_ok in E as (sl & Esl & E). apply bind_ok in E as (sk & Esk & E). apply bind_ok in E as (dl & Edl & E). apply bind_ok in E as (dk & Edk & E). apply bind_ok in E as (fd & Efd & E). apply bind_ok in E as (y & Ey & E). injection E as <-.
    cbn [u_rate u_suction u_discharge u_density]. apply get_is in Ea, Er, Esl, Esk, Edl, Edk. assert (k < n) as Lk. { rewrite <- (Lrl after (nth_error_In _ _ Ea)). apply nth_error_Some. congruence. }
    destruct (V i k Li Lk) as (x & p & d & rho & (a1 & B1 & K1) & (a2 & B2 & K2) & (a3 & B3 & K3) & A4 & HD). assert (a1 = after) as -> by congruence. assert (a2 = sl) as -> by congruence. assert (a3 = dl) as -> by congruence.
    exists x, p, d, rho. split; [congruence|]. split; [congruence|]. split; [congruence|]. split; [|exact HD]. unfold get_density in Efd. destruct (os_density s) as [l|].
    - apply bind_ok in Efd as (l' & El' & Efd). injection Efd as <-. apply get_is in El', Ey. destruct A4 as (a4 & B4 & K4). congruence.
    - injection Efd as <-. injection Ey as <-. now subst rho.
  Qed.
  Lemma final_same : forall rl numbers i c t us, (forall s rates, In (s, rates) (zip settings rl) -> good s rates) -> nth_error cs i = Some c -> nth_error ts i = Some t -> used_values_of (zip settings rl) numbers i = Ok us ->
    c_evaluate c (map u_rate us) (map u_suction us) (map u_discharge us) (Per (map u_density us)) = c_evaluate t (map u_rate us) (map u_suction us) (map u_discharge us) (Per (map u_density us)).
  Proof.
    intros rl numbers i c t us G Kc Kt E. assert (i < count) as Li by (rewrite <- Lcs; apply nth_error_Some; congruence). unfold used_values_of in E. apply mapM_Ok in E.
    assert (exists rate suction discharge rhos, map u_rate us = map Some rate /\ map u_suction us = map Some suction /\ map u_discharge us = map Some discharge /\ map u_density us = map Some rhos /\
      List.length suction = List.length rate /\ List.length discharge = List.length rate /\ List.length rhos = List.length rate /\
      forall k x s d rho, nth_error rate k = Some x -> nth_error suction k = Some s -> nth_error discharge k = Some d -> nth_error rhos k = Some rho -> D i x s d rho) as (rate & su & di & rhos & -> & -> & -> & -> & L1 & L2 & L3 & H).
    { induction E as [|e u es us Eu _ IH].
      - exists [], [], [], []. do 7 (split; [reflexivity|]). intros k x s d rho K. destruct k; discriminate.
      - destruct IH as (rate & su & di & rhos & E1 & E2 & E3 & E4 & L1 & L2 & L3 & H). destruct (used_good rl i (fst e) (snd e) u Li G Eu) as (x & p & d & rho & F1 & F2 & F3 & F4 & HD).
        exists (x :: rate), (p :: su), (d :: di), (rho :: rhos). cbn [map List.length]. rewrite E1, E2, E3, E4, F1, F2, F3, F4, L1, L2, L3. do 7 (split; [reflexivity|]).
        intros [|k] a b c' y Ka Kb Kc' Ky; cbn [nth_error] in *; [congruence|]. now apply (H k). }
    apply (Agree i c t Kc Kt rate su di rhos); auto. reflexivity.
  Qed.
  Lemma mapM_ext_in : forall A B (f h : A -> result B) l, (forall x, In x l -> f x = h x) -> mapM f l = mapM h l.
  Proof. intros A B f h l. induction l as [|a l IH]; intros H; [reflexivity|]. cbn [mapM]. rewrite (H a (or_introl eq_refl)), IH; [reflexivity|]. intros x I. apply H. now right. Qed.
  Lemma system_same : evaluate_system cs settings = evaluate_system ts settings.
  Proof.
    unfold evaluate_system. rewrite (mapM_ext_in _ _ _ _ settings Cross). destruct (mapM (rates_after_cross_over ts) settings) as [rl|] eqn:Erl; [|reflexivity]. cbn [bind].
    assert (forall s rates, In (s, rates) (zip settings rl) -> good s rates) as G.
    { apply mapM_Ok in Erl. intros s rates I. apply In_nth_error in I as (q & K). assert (nth_error settings q = Some s /\ nth_error rl q = Some rates) as [K1 K2].
      { unfold zip in K. clear -K. revert q rl K. induction settings as [|a l IH]; intros [|q] [|b rl] K; cbn [combine nth_error] in *; try discriminate; [injection K as -> ->; auto|now apply IH]. }
      apply Good; [now apply nth_error_In in K1|]. exact (Forall2_nth2 _ _ _ _ _ _ _ _ Erl K1 K2). }
    rewrite (mapM_ext_in _ _ (fun e => evaluate_setting cs (fst e) (snd e)) (fun e => evaluate_setting ts (fst e) (snd e))) by (intros [s rates] I; now apply setting_same, G).
    destruct (mapM _ (zip settings rl)) as [results|]; [|reflexivity]. cbn [bind]. destruct (number_used results) as [numbers|]; [|reflexivity]. cbn [bind]. rewrite Lcs, Lts.
    destruct (mapM (used_values_of (zip settings rl) numbers) (seq 0 count)) as [used|] eqn:Eu; [|reflexivity]. cbn [bind]. apply mapM_Ok in Eu.
    assert (mapM (fun e : consumer * list used_values => do r <- c_evaluate (fst e) (map u_rate (snd e)) (map u_suction (snd e)) (map u_discharge (snd e)) (Per (map u_density (snd e))); Ok (c_name (fst e), r)) (zip cs used) =
            mapM (fun e : consumer * list used_values => do r <- c_evaluate (fst e) (map u_rate (snd e)) (map u_suction (snd e)) (map u_discharge (snd e)) (Per (map u_density (snd e))); Ok (c_name (fst e), r)) (zip ts used)) as ->; [|reflexivity].
    assert (forall q c t us, nth_error cs q = Some c -> nth_error ts q = Some t -> nth_error used q = Some us -> used_values_of (zip settings rl) numbers q = Ok us) as Hu.
    { intros q c t us Kc Kt Ku. assert (q < count) as Lq by (rewrite <- Lcs; apply nth_error_Some; congruence). assert (nth_error (seq 0 count) q = Some q) as Kq by (rewrite (nth_error_nth' _ 0) by (rewrite seq_length; lia); f_equal; apply seq_nth; lia). exact (Forall2_nth2 _ _ _ _ _ _ _ _ Eu Kq Ku). }
    assert (List.length cs = List.length ts) as L by congruence.
    assert (forall q c t us, nth_error cs q = Some c -> nth_error ts q = Some t -> nth_error used q = Some us -> c_name c = c_name t /\ c_evaluate c (map u_rate us) (map u_suction us) (map u_discharge us) (Per (map u_density us)) = c_evaluate t (map u_rate us) (map u_suction us) (map u_discharge us) (Per (map u_density us))) as F.
    { intros q c t us Kc Kt Ku. split; [now apply (Names q)|]. apply (final_same rl numbers q c t us G Kc Kt). now apply (Hu q c t us). }
    clear -L F. revert cs ts used L F. induction cs as [|c l IH]; intros [|t l'] [|us used] L F; try discriminate; try reflexivity. unfold zip in *. cbn [combine mapM fst snd]. destruct (F 0 c t us eq_refl eq_refl eq_refl) as [-> ->].
    rewrite (IH l' used); [reflexivity|now injection L|]. intros q. exact (F (S q)).
  Qed.
End Ext.

(** what is meant is what the consumer for all inputs does *)
Lemma nths : forall A (l : list A) k, k < List.length l -> exists x, nth_error l k = Some x.
Proof. intros A l k L. destruct (nth_error l k) eqn:E; [eauto|]. apply nth_error_None in E. lia. Qed.
Lemma means_agree : forall c me, means c me -> forall rate suction discharge rhos fd, List.length suction = List.length rate -> List.length discharge = List.length rate -> List.length rhos = List.length rate -> densities_are fd rhos ->
  (forall k x s d rho, nth_error rate k = Some x -> nth_error suction k = Some s -> nth_error discharge k = Some d -> nth_error rhos k = Some rho -> me_takes me x s d rho) ->
  c_evaluate c (map Some rate) (map Some suction) (map Some discharge) fd = c_evaluate (total (c_name c) me) (map Some rate) (map Some suction) (map Some discharge) fd.
Proof.
  intros c me [H _] rate suction discharge rhos fd Ls Ld Lr Hd T. destruct (H (List.length rate) rate suction discharge rhos fd eq_refl Ls Ld Lr Hd T) as (r & E & Le & Lv & Hp & Lp & V). rewrite E. cbn [total c_evaluate]. f_equal.
  assert (forall k, k < List.length rate -> exists x s d rho, nth_error rate k = Some x /\ nth_error suction k = Some s /\ nth_error discharge k = Some d /\ nth_error rhos k = Some rho /\ total_point me (map Some rate) (map Some suction) (map Some discharge) fd k = me_point me x s d rho) as P.
  { intros k Lk. destruct (nths _ rate k Lk) as (x & Kx). destruct (nths _ suction k) as (s & Ks); [lia|]. destruct (nths _ discharge k) as (d & Kd); [lia|]. destruct (nths _ rhos k) as (rho & Kr); [lia|].
    exists x, s, d, rho. do 4 (split; [assumption|]). unfold total_point. assert (forall (l : list Qc) a, nth_error l k = Some a -> nth k (map Some l) None = Some a) as N by (intros l a K; apply nth_error_nth; now rewrite nth_error_map, K).
    rewrite (N rate x Kx), (N suction s Ks), (N discharge d Kd). assert (density_nth fd k = Some rho) as ->; [|reflexivity]. destruct fd as [|l]; cbn [densities_are density_nth] in *; [|subst l; now apply N].
    rewrite Hd in Kr. rewrite nth_error_repeat in Kr by lia. now injection Kr as <-. }
  rewrite map_length. destruct r as [en pw va]. cbn [er_energy er_power er_valid] in *. f_equal.
  - apply list_ext_nth. intros k. destruct (Nat.lt_ge_cases k (List.length rate)) as [Lk|Lk]; [|rewrite !(proj2 (nth_error_None _ _)); [reflexivity|rewrite map_length, seq_length; lia|lia]].
    rewrite nth_map_seq by exact Lk. destruct (P k Lk) as (x & s & d & rho & Kx & Ks & Kd & Kr & ->). now apply V.
  - destruct (me_power me); [|now apply Hp]. destruct pw as [pw|]; [|destruct Hp as [Hp _]; specialize (Hp eq_refl); discriminate]. f_equal. specialize (Lp pw eq_refl).
    apply list_ext_nth. intros k. destruct (Nat.lt_ge_cases k (List.length rate)) as [Lk|Lk]; [|rewrite !(proj2 (nth_error_None _ _)); [reflexivity|rewrite map_length, seq_length; lia|lia]].
    rewrite nth_map_seq by exact Lk. destruct (P k Lk) as (x & s & d & rho & Kx & Ks & Kd & Kr & ->). now apply (V k x s d rho Kx Ks Kd Kr).
  - apply list_ext_nth. intros k. destruct (Nat.lt_ge_cases k (List.length rate)) as [Lk|Lk]; [|rewrite !(proj2 (nth_error_None _ _)); [reflexivity|rewrite map_length, seq_length; lia|lia]].
    rewrite nth_map_seq by exact Lk. destruct (P k Lk) as (x & s & d & rho & Kx & Ks & Kd & Kr & ->). now apply V.
Qed.
Lemma means_max : forall c me, means c me -> forall suction discharge rhos fd, List.length discharge = List.length suction -> List.length rhos = List.length suction -> densities_are fd rhos ->
  (forall k s d rho, nth_error suction k = Some s -> nth_error discharge k = Some d -> nth_error rhos k = Some rho -> me_max_known me s d rho) ->
  c_max_rate c (map Some suction) (map Some discharge) fd = c_max_rate (total (c_name c) me) (map Some suction) (map Some discharge) fd.
Proof.
  intros c me [_ H] suction discharge rhos fd Ld Lr Hd T. destruct (H (List.length suction) suction discharge rhos fd eq_refl Ld Lr Hd T) as (mx & E & Lm & V). rewrite E. cbn [total c_max_rate]. f_equal. rewrite map_length.
  apply list_ext_nth. intros k. destruct (Nat.lt_ge_cases k (List.length suction)) as [Lk|Lk]; [|rewrite !(proj2 (nth_error_None _ _)); [reflexivity|rewrite map_length, seq_length; lia|rewrite map_length; lia]].
  rewrite nth_map_seq by exact Lk. destruct (nths _ suction k Lk) as (s & Ks). destruct (nths _ discharge k) as (d & Kd); [lia|]. destruct (nths _ rhos k) as (rho & Kr); [lia|].
  rewrite nth_error_map, (V k s d rho Ks Kd Kr). unfold total_max. assert (forall (l : list Qc) a, nth_error l k = Some a -> nth k (map Some l) None = Some a) as N by (intros l a K; apply nth_error_nth; now rewrite nth_error_map, K).
  rewrite (N suction s Ks), (N discharge d Kd). assert (density_nth fd k = Some rho) as ->; [|reflexivity]. destruct fd as [|l]; cbn [densities_are density_nth] in *; [|subst l; now apply N].
  rewrite Hd in Kr. rewrite nth_error_repeat in Kr by lia. now injection Kr as <-.
Qed.
(** cross-over with other consumers that have the same largest rates where they are used *)
Lemma cross_same : forall cs ts s, List.length cs = List.length ts ->
  (forall i c t suction discharge fd, nth_error cs i = Some c -> nth_error ts i = Some t -> get (os_suction s) i = Ok suction -> get (os_discharge s) i = Ok discharge -> get_density s i = Ok fd ->
     (exists numbers, os_cross s = Some numbers /\ nth i numbers 0%Z <> 0%Z) -> c_max_rate c suction discharge fd = c_max_rate t suction discharge fd) ->
  rates_after_cross_over cs s = rates_after_cross_over ts s.
Proof.
  intros cs ts s L H. unfold rates_after_cross_over. destruct (os_cross s) as [[|z zs]|]; try reflexivity. set (numbers := z :: zs) in *.
  assert (forall rest o rates, (forall q, nth q rest 0%Z = nth (o + q) numbers 0%Z) -> cross_over_from cs s rates o rest = cross_over_from ts s rates o rest) as G; [|now apply G].
  induction rest as [|x rest IH]; intros o rates Hr; [reflexivity|]. cbn [cross_over_from].
  assert (cross_over_step cs s rates o x = cross_over_step ts s rates o x) as ->.
  { unfold cross_over_step. destruct (Z.eqb_spec x 0) as [|Nx]; [reflexivity|]. destruct (get (os_discharge s) o) as [own|] eqn:E1; [|reflexivity]. cbn [bind]. destruct (of_option IndexError (py_index (length (os_discharge s)) (x - 1))) as [receiver|]; [|reflexivity]. cbn [bind]. destruct (get (os_discharge s) receiver) as [other|]; [|reflexivity]. cbn [bind].
    destruct (get (os_suction s) o) as [su|] eqn:E2; [|reflexivity]. cbn [bind]. destruct (get_density s o) as [fd|] eqn:E3; [|reflexivity]. cbn [bind]. change (get cs o) with (of_option IndexError (nth_error cs o)). change (get ts o) with (of_option IndexError (nth_error ts o)). destruct (nth_error cs o) as [c|] eqn:Kc; destruct (nth_error ts o) as [t|] eqn:Kt; cbn [of_option bind]; try reflexivity.
    - rewrite (H o c t su own fd Kc Kt E2 E1 E3); [reflexivity|]. exists numbers. split; [reflexivity|]. specialize (Hr 0). cbn [nth] in Hr. rewrite Nat.add_0_r in Hr. congruence.
    - apply nth_error_None in Kt. assert (o < List.length cs) by (apply nth_error_Some; congruence). lia.
    - apply nth_error_None in Kc. assert (o < List.length ts) by (apply nth_error_Some; congruence). lia. }
  destruct (cross_over_step ts s rates o x) as [rates'|]; [|reflexivity]. cbn [bind]. apply IH. intros q. rewrite Nat.add_succ_l, <- Nat.add_succ_r. rewrite <- Hr. reflexivity.
Qed.

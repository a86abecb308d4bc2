(** What is registered for every part of the text: a block of new ids. *)
From Coq Require Import PeanoNat String Lia.
From Verif Require Import QcTac Base BaseLemmas Time_Model Num Expr_Model Vars_Model Units_Model Rates_Model Input_Model Interp_Model
  Energy_Model Emitters_Model Consumer_Model Graph_Model Graph_Spec Totals_Model Asset_Model Asset_Proofs.
Local Open Scope list_scope.
Local Open Scope nat_scope.

Definition somes {A} (l : list (option A)) : list A := flat_map (fun o => match o with Some a => [a] | None => [] end) l.
(** the ids registered with [v] as parent *)
Definition kids {M} (v : node_id) (l : list (entry M)) : list node_id := children_of (map fst l) v.
Lemma kids_app : forall M v (a b : list (entry M)), kids v (a ++ b) = kids v a ++ kids v b.
Proof. intros. unfold kids, children_of. now rewrite map_app, filter_app, map_app. Qed.
Lemma kids_one : forall M v id p (c : component M), kids v [(id, Some p, c)] = if node_eqb p v then [id] else [].
Proof. intros. unfold kids, children_of. cbn. destruct (node_eqb p v); reflexivity. Qed.
Lemma kids_none : forall M v (l : list (entry M)), (forall e, In e l -> snd (fst e) <> Some v) -> kids v l = [].
Proof.
  intros M v l; induction l as [|[[id p] c] l IH]; intros H; [reflexivity|].
  change ((id, p, c) :: l) with ([(id, p, c)] ++ l). rewrite kids_app, IH by (intros; apply H; now right).
  unfold kids, children_of. cbn. destruct p as [p|]; [|reflexivity].
  destruct (node_eqb p v) eqn:E; [|reflexivity]. apply node_eqb_eq in E as ->. exfalso. apply (H (id, Some v, c)); [now left|reflexivity].
Qed.
Lemma kids_in : forall M v id (l : list (entry M)), In id (kids v l) -> exists e, In e l /\ entry_id e = id /\ snd (fst e) = Some v.
Proof.
  intros M v id l H. unfold kids, children_of in H. apply in_map_iff in H as ([i p] & <- & H). apply filter_In in H as [H1 H2].
  apply in_map_iff in H1 as ([[i' p'] c] & H1 & H3). cbn in H1. injection H1 as -> ->. exists (i, p, c). split; [exact H3|]. split; [reflexivity|].
  cbn in *. destruct p as [q|]; [|discriminate]. apply node_eqb_eq in H2 as ->. reflexivity.
Qed.

(** a block: ids from [n] on, below [n'], under the parent [k] or inside the block *)
Definition block_ok {M} (k n n' : nat) (blk : list (entry M)) : Prop :=
  n <= n' /\ NoDup (map entry_id blk) /\
  (forall e, In e blk -> exists j, entry_id e = NUuid j /\ n <= j < n') /\
  (forall e, In e blk -> exists j, snd (fst e) = Some (NUuid j) /\ (j = k \/ (n <= j < n' /\ In (NUuid j) (map entry_id blk)))) /\
  (forall e i j, In e blk -> entry_id e = NUuid i -> snd (fst e) = Some (NUuid j) -> j < i).

Lemma block_nil : forall M k n n', n <= n' -> block_ok k n n' (@nil (entry M)).
Proof. intros. split; [assumption|]. split; [constructor|]. split; [|split]; intros e; intros; contradiction. Qed.
Lemma nodup_app : forall A (l m : list A), NoDup l -> NoDup m -> (forall x, In x l -> In x m -> False) -> NoDup (l ++ m).
Proof.
  intros A l m Hl Hm H. induction Hl as [|a l Ha Hl IH]; cbn; auto. constructor.
  - rewrite in_app_iff. intros [X|X]; [auto|]. apply (H a); cbn; auto.
  - apply IH. intros x X Y. apply (H x); cbn; auto.
Qed.
Lemma block_app : forall M k n n1 n2 (a b : list (entry M)), block_ok k n n1 a -> block_ok k n1 n2 b -> block_ok k n n2 (a ++ b).
Proof.
  intros M k n n1 n2 a b (A0 & A1 & A2 & A3 & A4) (B0 & B1 & B2 & B3 & B4). split; [lia|]. split.
  - rewrite map_app. apply nodup_app; auto. intros x Hx Hy. apply in_map_iff in Hx as (e & <- & He). apply in_map_iff in Hy as (f & E & Hf).
    destruct (A2 e He) as (j & Ej & Hj). destruct (B2 f Hf) as (j' & Ej' & Hj'). rewrite Ej, Ej' in E. injection E as E. lia.
  - split; [|split]; [| |intros e i j He; apply in_app_or in He as [He|He]; eauto]; intros e He; apply in_app_or in He as [He|He].
    + destruct (A2 e He) as (j & Ej & Hj). exists j. split; auto. lia.
    + destruct (B2 e He) as (j & Ej & Hj). exists j. split; auto. lia.
    + destruct (A3 e He) as (j & Ej & Hj). exists j. split; auto. destruct Hj as [Hj|[Hj Hi]]; [now left|right]. split; [lia|].
      rewrite map_app. apply in_or_app. now left.
    + destruct (B3 e He) as (j & Ej & Hj). exists j. split; auto. destruct Hj as [Hj|[Hj Hi]]; [now left|right]. split; [lia|].
      rewrite map_app. apply in_or_app. now right.
Qed.
(** a block with its head last *)
Lemma block_head : forall M k n n' (a : list (entry M)) c, k < n -> block_ok n (S n) n' a -> block_ok k n n' (a ++ [(NUuid n, Some (NUuid k), c)]).
Proof.
  intros M k n n' a c Hk (A0 & A1 & A2 & A3 & A4). split; [lia|]. split.
  - rewrite map_app. apply nodup_app; auto; [repeat constructor; intros []|]. intros x Hx [<-|[]].
    apply in_map_iff in Hx as (e & E & He). destruct (A2 e He) as (j & Ej & Hj). rewrite Ej in E. injection E as E. lia.
  - split; [|split]; [| |intros e i j He; apply in_app_or in He as [He|[<-|[]]]; [eauto|cbn; intros X Y; injection X as <-; injection Y as <-; exact Hk]].
    all: intros e He; apply in_app_or in He as [He|[<-|[]]].
    + destruct (A2 e He) as (j & Ej & Hj). exists j. split; auto. lia.
    + exists n. split; [reflexivity|lia].
    + destruct (A3 e He) as (j & Ej & Hj). exists j. split; auto. right. rewrite map_app, in_app_iff.
      destruct Hj as [->|[Hj Hi]]; [split; [lia|right; now left]|split; [lia|now left]].
    + exists k. split; [reflexivity|now left].
Qed.

Section Many.
  Context {M A B : Type}.
  Variable P : A -> option B -> nat -> nat -> list (entry M) -> Prop.
  Inductive many : list A -> list (option B) -> nat -> nat -> list (entry M) -> Prop :=
  | many_nil : forall n, many [] [] n n []
  | many_cons : forall a l b bs n n1 n2 blk blks, P a b n n1 blk -> many l bs n1 n2 blks -> many (a :: l) (b :: bs) n n2 (blk ++ blks).

  Definition grows (f : A -> mapper M (option B)) : Prop :=
    forall a s b s', f a s = inl (b, s') -> exists blk, mp_registered s' = mp_registered s ++ blk /\ P a b (mp_next s) (mp_next s') blk.
  Lemma each_grows : forall f, grows f -> forall l s bs s', each f l s = inl (bs, s') ->
    exists os blk, mp_registered s' = mp_registered s ++ blk /\ many l os (mp_next s) (mp_next s') blk /\ bs = somes os.
  Proof.
    intros f Hf l; induction l as [|a l IH]; intros s bs s' E; cbn [each] in E.
    - unfold returns in E. injection E as <- <-. exists [], []. rewrite app_nil_r. repeat split. constructor.
    - unfold andthen, returns in E. destruct (f a s) as [[b s1]|] eqn:Ea; [|discriminate]. cbn [bind fst snd] in E.
      destruct (each f l s1) as [[bs1 s2]|] eqn:El; [|discriminate]. cbn [bind fst snd] in E. injection E as <- <-.
      destruct (Hf _ _ _ _ Ea) as (blk & E1 & E2). destruct (IH _ _ _ El) as (os & blks & E3 & E4 & E5).
      exists (b :: os), (blk ++ blks). split; [rewrite E3, E1; now rewrite app_assoc|]. split; [econstructor; eauto|].
      rewrite E5. destruct b; reflexivity.
  Qed.
  Lemma many_block : forall k, (forall a b n n' blk, k < n -> P a b n n' blk -> block_ok k n n' blk) ->
    forall l os n n' blk, k < n -> many l os n n' blk -> block_ok k n n' blk.
  Proof.
    intros k HP l os n n' blk Hk H. induction H; [now apply block_nil|].
    pose proof (HP _ _ _ _ _ Hk H) as X. apply block_app with n1; auto. apply IHmany. destruct X. lia.
  Qed.
  Lemma many_kids : forall k (tid : B -> node_id),
    (forall a b n n' blk, k < n -> P a b n n' blk -> n <= n' /\ kids (NUuid k) blk = map tid (somes [b])) ->
    forall l os n n' blk, k < n -> many l os n n' blk -> kids (NUuid k) blk = map tid (somes os).
  Proof.
    intros k tid HP l os n n' blk Hk H. induction H; [reflexivity|]. destruct (HP _ _ _ _ _ Hk H) as [X Y].
    rewrite kids_app, Y, IHmany by lia. rewrite <- map_app. f_equal. unfold somes. cbn. now rewrite app_nil_r.
  Qed.
End Many.

(** ids of a block are found below other parents nowhere else *)
Definition placed {M} (W : list (entry M)) (n n' : nat) (blk : list (entry M)) : Prop :=
  (exists pre post, W = pre ++ blk ++ post) /\ forall j, n <= j < n' -> kids (NUuid j) W = kids (NUuid j) blk.
Lemma placed_first : forall M (W : list (entry M)) k n n1 n2 a b, k < n -> block_ok k n n1 a -> block_ok k n1 n2 b ->
  placed W n n2 (a ++ b) -> placed W n n1 a /\ placed W n1 n2 b.
Proof.
  intros M W k n n1 n2 a b Hk (A0 & _ & _ & A3 & _) (B0 & _ & _ & B3 & _) [(pre & post & E) H]. split.
  - split; [exists pre, (b ++ post); rewrite E; now rewrite !app_assoc|]. intros j Hj. rewrite H by lia. rewrite kids_app.
    rewrite (kids_none _ _ b); [apply app_nil_r|]. intros e He. destruct (B3 e He) as (i & -> & Hi). intros X. injection X as ->. lia.
  - split; [exists (pre ++ a), post; rewrite E; now rewrite !app_assoc|]. intros j Hj. rewrite H by lia. rewrite kids_app.
    rewrite (kids_none _ _ a); [reflexivity|]. intros e He. destruct (A3 e He) as (i & -> & Hi). intros X. injection X as ->. lia.
Qed.
Lemma placed_head : forall M (W : list (entry M)) k n n' a c, k < n -> block_ok n (S n) n' a ->
  placed W n n' (a ++ [(NUuid n, Some (NUuid k), c)]) -> placed W (S n) n' a /\ kids (NUuid n) W = kids (NUuid n) a /\ In (NUuid n, Some (NUuid k), c) W.
Proof.
  intros M W k n n' a c Hk (A0 & _) [(pre & post & E) H]. split; [|split].
  - split; [exists pre, ((NUuid n, Some (NUuid k), c) :: post); rewrite E, <- app_assoc; reflexivity|].
    intros j Hj. rewrite H by lia. rewrite kids_app, kids_one. destruct (node_eqb (NUuid k) (NUuid j)) eqn:X; [|apply app_nil_r].
    apply node_eqb_eq in X. injection X as ->. lia.
  - rewrite H by lia. rewrite kids_app, kids_one. destruct (node_eqb (NUuid k) (NUuid n)) eqn:X; [|apply app_nil_r].
    apply node_eqb_eq in X. injection X as ->. lia.
  - rewrite E. apply in_or_app. right. apply in_or_app. left. apply in_or_app. right. now left.
Qed.

Section Mapping.
  Context {M : Type}.
  Variable np_pow : Qc -> Qc -> Qc.
  Variable vm : variables_map.
  Variable target : period.
  Variable fuels : list (string * fuel_type).
  Variable tables : list (string * tabular_data).

  (** the electricity consumers *)
  Definition electricity_block (r : regularity) (k : nat) (y : yaml_electricity_consumer M) (b : option (electricity_consumer M))
      (n n' : nat) (blk : list (entry M)) : Prop :=
    n' = S n /\
    match b with
    | None => define_time_model_for_period (ye_model y) target = [] /\ blk = []
    | Some c => define_time_model_for_period (ye_model y) target <> [] /\ c = mkEC (NUuid n) (ye_name y) r (ye_model y) /\
                blk = [(NUuid n, Some (NUuid k), CElectricity c)]
    end.
  Lemma usage_model_ok : forall (data : temporal_data M) o, map_usage_model target data = Ok o ->
    match o with
    | None => define_time_model_for_period data target = []
    | Some d => d = data /\ define_time_model_for_period data target <> []
    end.
  Proof.
    intros data o E. unfold map_usage_model in E. destruct (define_time_model_for_period data target) as [|e l] eqn:Ed.
    - injection E as <-. reflexivity.
    - destruct (refused _); [|discriminate]. cbn [bind] in E. injection E as <-. split; [reflexivity|discriminate].
  Qed.
  Lemma electricity_grows : forall r k, grows (electricity_block r k) (map_electricity_consumer target r (NUuid k)).
  Proof.
    intros r k y s b s' E. unfold map_electricity_consumer, andthen, new_id, lift in E. cbn [bind fst snd] in E.
    destruct (map_usage_model target (ye_model y)) as [o|] eqn:Eo; [|discriminate]. cbn [bind fst snd] in E.
    apply usage_model_ok in Eo. destruct o as [d|].
    - destruct Eo as [-> Hd]. cbn in E. injection E as <- <-. cbn. eexists. split; [reflexivity|].
      split; [reflexivity|]. split; [exact Hd|]. split; reflexivity.
    - injection E as <- <-. cbn. exists []. rewrite app_nil_r. split; [reflexivity|]. split; [reflexivity|]. split; [exact Eo|reflexivity].
  Qed.
  Lemma electricity_ok : forall r k a b n n' blk, k < n -> electricity_block r k a b n n' blk -> block_ok k n n' blk.
  Proof.
    intros r k a b n n' blk Hk (-> & H). destruct b as [c|].
    - destruct H as (_ & _ & ->). apply (block_head M k n (S n) [] (CElectricity c) Hk), block_nil. lia.
    - destruct H as (_ & ->). apply block_nil. lia.
  Qed.
  Lemma electricity_kids : forall r k a b n n' blk, k < n -> electricity_block r k a b n n' blk ->
    n <= n' /\ kids (NUuid k) blk = map ec_id (somes [b]).
  Proof.
    intros r k a b n n' blk Hk (-> & H). split; [lia|]. destruct b as [c|].
    - destruct H as (_ & -> & ->). rewrite kids_one, node_eqb_refl. reflexivity.
    - destruct H as (_ & ->). reflexivity.
  Qed.

  (** the fuel consumers *)
  Definition fuel_block (r : regularity) (default : option (temporal_data string)) (k : nat) (y : yaml_fuel_consumer M)
      (b : option (fuel_consumer M)) (n n' : nat) (blk : list (entry M)) : Prop :=
    n' = S n /\
    match b with
    | None => define_time_model_for_period (yf_model y) target = [] /\ blk = []
    | Some c => define_time_model_for_period (yf_model y) target <> [] /\
                (exists fuel, resolve_fuel target fuels (yf_fuel y) default = Ok fuel /\ c = mkFC (NUuid n) (yf_name y) r fuel (yf_model y)) /\
                blk = [(NUuid n, Some (NUuid k), CFuel c)]
    end.
  Lemma fuel_grows : forall r default k, grows (fuel_block r default k) (map_fuel_consumer target fuels r default (NUuid k)).
  Proof.
    intros r default k y s b s' E. unfold map_fuel_consumer, andthen, new_id, lift in E. cbn [bind fst snd] in E.
    destruct (map_usage_model target (yf_model y)) as [o|] eqn:Eo; [|discriminate]. cbn [bind fst snd] in E.
    apply usage_model_ok in Eo. destruct o as [d|].
    - destruct Eo as [-> Hd]. destruct (resolve_fuel target fuels (yf_fuel y) default) as [fuel|] eqn:Ef; [|discriminate]. cbn [bind fst snd] in E.
      destruct (make_fuel_consumer _ _); [|discriminate]. cbn in E. injection E as <- <-. cbn. eexists. split; [reflexivity|].
      split; [reflexivity|]. split; [exact Hd|]. split; [|reflexivity]. exists fuel. auto.
    - injection E as <- <-. cbn. exists []. rewrite app_nil_r. split; [reflexivity|]. split; [reflexivity|]. split; [exact Eo|reflexivity].
  Qed.
  Lemma fuel_ok : forall r default k a b n n' blk, k < n -> fuel_block r default k a b n n' blk -> block_ok k n n' blk.
  Proof.
    intros r default k a b n n' blk Hk (-> & H). destruct b as [c|].
    - destruct H as (_ & _ & ->). apply (block_head M k n (S n) [] (CFuel c) Hk), block_nil. lia.
    - destruct H as (_ & ->). apply block_nil. lia.
  Qed.
  Lemma fuel_kids : forall r default k a b n n' blk, k < n -> fuel_block r default k a b n n' blk ->
    n <= n' /\ kids (NUuid k) blk = map fu_id (somes [b]).
  Proof.
    intros r default k a b n n' blk Hk (-> & H). split; [lia|]. destruct b as [c|].
    - destruct H as (_ & (fuel & _ & ->) & ->). rewrite kids_one, node_eqb_refl. reflexivity.
    - destruct H as (_ & ->). reflexivity.
  Qed.

  (** the venting emitters *)
  Definition venting_block (r : regularity) (k : nat) (y : yaml_venting_emitter) (b : option venting_emitter)
      (n n' : nat) (blk : list (entry M)) : Prop :=
    n' = S n /\ exists c, b = Some c /\ c = mkVE (NUuid n) (yv_name y) r (yv_emitter y) /\ blk = [(NUuid n, Some (NUuid k), CVenting c)].
  Lemma venting_grows : forall r k, grows (venting_block r k) (map_venting_emitter r (NUuid k)).
  Proof.
    intros r k y s b s' E. unfold map_venting_emitter, andthen, new_id in E. cbn in E. injection E as <- <-. cbn. eexists. split; [reflexivity|].
    split; [reflexivity|]. eexists. repeat split.
  Qed.
  Lemma venting_ok : forall r k a b n n' blk, k < n -> venting_block r k a b n n' blk -> block_ok k n n' blk.
  Proof. intros r k a b n n' blk Hk (-> & c & _ & _ & ->). apply (block_head M k n (S n) [] (CVenting c) Hk), block_nil. lia. Qed.
  Lemma venting_kids : forall r k a b n n' blk, k < n -> venting_block r k a b n n' blk ->
    n <= n' /\ kids (NUuid k) blk = map ve_id (somes [b]).
  Proof. intros r k a b n n' blk Hk (-> & c & -> & -> & ->). split; [lia|]. rewrite kids_one, node_eqb_refl. reflexivity. Qed.

  (** the generator sets *)
  Definition genset_block (r : regularity) (default : option (temporal_data string)) (k : nat) (y : yaml_generator_set M)
      (b : option (generator_set_component M)) (n n' : nat) (blk : list (entry M)) : Prop :=
    exists fuel models os cblk c,
      resolve_fuel target fuels (yg_fuel y) default = Ok fuel /\ generator_set_models target tables (yg_electricity2fuel y) = Ok models /\
      many (electricity_block r n) (yg_consumers y) os (S n) n' cblk /\ c = mkGC (NUuid n) (yg_name y) r fuel models (somes os) /\
      b = Some c /\ blk = cblk ++ [(NUuid n, Some (NUuid k), CGenset c)].
  Lemma genset_grows : forall r default k, grows (genset_block r default k) (map_generator_set target fuels tables r default (NUuid k)).
  Proof.
    intros r default k y s b s' E. unfold map_generator_set, andthen, new_id, lift in E. cbn [bind fst snd] in E.
    destruct (resolve_fuel target fuels (yg_fuel y) default) as [fuel|] eqn:Ef; [|discriminate]. cbn [bind fst snd] in E.
    destruct (generator_set_models target tables (yg_electricity2fuel y)) as [models|] eqn:Em; [|discriminate]. cbn [bind fst snd] in E.
    destruct (each _ _ _) as [[cs s1]|] eqn:Ec; [|discriminate]. cbn [bind fst snd] in E.
    destruct (make_fuel_consumer _ _); [|discriminate]. cbn in E. injection E as <- <-. cbn.
    destruct (each_grows _ _ (electricity_grows r (mp_next s)) _ _ _ _ Ec) as (os & cblk & E1 & E2 & ->). cbn in E1, E2.
    exists (cblk ++ [(NUuid (mp_next s), Some (NUuid k), CGenset (mkGC (NUuid (mp_next s)) (yg_name y) r fuel models (somes os)))]).
    split; [rewrite E1; now rewrite app_assoc|]. exists fuel, models, os, cblk. eexists. repeat split; eauto.
  Qed.
  Lemma consumers_ok : forall r n l os n1 n' blk, n < n1 -> many (electricity_block r n) l os n1 n' blk -> block_ok n n1 n' blk.
  Proof. intros. eapply many_block; eauto. intros. eapply electricity_ok; eauto. Qed.
  Lemma genset_ok : forall r default k a b n n' blk, k < n -> genset_block r default k a b n n' blk -> block_ok k n n' blk.
  Proof.
    intros r default k a b n n' blk Hk (fuel & models & os & cblk & c & _ & _ & H & _ & _ & ->). apply block_head; [exact Hk|].
    apply consumers_ok in H; auto.
  Qed.
  Lemma genset_kids : forall r default k a b n n' blk, k < n -> genset_block r default k a b n n' blk ->
    n <= n' /\ kids (NUuid k) blk = map ge_id (somes [b]).
  Proof.
    intros r default k a b n n' blk Hk H. pose proof (genset_ok _ _ _ _ _ _ _ _ Hk H) as [X _]. split; [exact X|].
    destruct H as (fuel & models & os & cblk & c & _ & _ & H & -> & -> & ->). apply consumers_ok in H; [|lia].
    rewrite kids_app, kids_one, node_eqb_refl. rewrite (kids_none _ _ cblk); [reflexivity|].
    destruct H as (_ & _ & _ & H & _). intros e He. destruct (H e He) as (j & -> & Hj). intros Y. injection Y as ->. lia.
  Qed.

  (** the installations *)
  Definition installation_block (k : nat) (y : yaml_installation M) (b : option (installation_component M)) (n n' : nat)
      (blk : list (entry M)) : Prop :=
    exists values export og og' oy n1 n2 bg bf bv c,
      let r := mkRegularity (yi_regularity y) values in
      regularity_values np_pow (yi_regularity y) target vm = Ok values /\
      hydrocarbon_export np_pow (yi_export y) values target vm = Ok export /\
      many (genset_block r (yi_fuel y) n) (yi_generator_sets y) og (S n) n1 bg /\
      many (fuel_block r (yi_fuel y) n) (yi_fuel_consumers y) og' n1 n2 bf /\
      many (venting_block r n) (yi_venting_emitters y) oy n2 n' bv /\
      c = mkIC (NUuid n) (yi_name y) r export (map inl (somes og) ++ map inr (somes og')) (somes oy) /\
      b = Some c /\ blk = (bg ++ bf ++ bv) ++ [(NUuid n, Some (NUuid k), CInstallation c)].
  Lemma installation_grows : forall k, grows (installation_block k) (map_installation np_pow vm target fuels tables (NUuid k)).
  Proof.
    intros k y s b s' E. unfold map_installation, andthen, new_id, lift in E. cbn [bind fst snd] in E.
    destruct (regularity_values np_pow (yi_regularity y) target vm) as [values|] eqn:Er; [|discriminate]. cbn [bind fst snd] in E.
    destruct (hydrocarbon_export np_pow (yi_export y) values target vm) as [export|] eqn:Ee; [|discriminate]. cbn [bind fst snd] in E.
    destruct (each (map_generator_set _ _ _ _ _ _) _ _) as [[gs s1]|] eqn:Eg; [|discriminate]. cbn [bind fst snd] in E.
    destruct (each (map_fuel_consumer _ _ _ _ _) _ _) as [[fs s2]|] eqn:Ef; [|discriminate]. cbn [bind fst snd] in E.
    destruct (each (map_venting_emitter _ _) _ _) as [[vs s3]|] eqn:Ev; [|discriminate]. cbn [bind fst snd] in E.
    cbn in E. injection E as <- <-.
    destruct (each_grows _ _ (genset_grows _ _ (mp_next s)) _ _ _ _ Eg) as (og & bg & G1 & G2 & ->). cbn in G1, G2.
    destruct (each_grows _ _ (fuel_grows _ _ (mp_next s)) _ _ _ _ Ef) as (of & bf & F1 & F2 & ->).
    destruct (each_grows _ _ (venting_grows _ (mp_next s)) _ _ _ _ Ev) as (ov & bv & V1 & V2 & ->).
    cbn [mp_registered mp_next]. eexists. split; [rewrite V1, F1, G1, <- !app_assoc; reflexivity|].
    exists values, export, og, of, ov, (mp_next s1), (mp_next s2), bg, bf, bv. eexists. cbv zeta.
    do 5 (split; [eassumption|]). split; [reflexivity|]. split; [reflexivity|]. now rewrite <- !app_assoc.
  Qed.
  Lemma inner_ok : forall r default n l og n1 bg l' of n2 bf l'' ov n' bv,
    many (genset_block r default n) l og (S n) n1 bg -> many (fuel_block r default n) l' of n1 n2 bf -> many (venting_block r n) l'' ov n2 n' bv ->
    block_ok n (S n) n1 bg /\ block_ok n n1 n2 bf /\ block_ok n n2 n' bv.
  Proof.
    intros r default n l og n1 bg l' of n2 bf l'' ov n' bv Hg Hf Hv.
    assert (A : block_ok n (S n) n1 bg) by (eapply many_block; [|lia|exact Hg]; intros; eapply genset_ok; eauto).
    assert (L1 : S n <= n1) by exact (proj1 A).
    assert (B : block_ok n n1 n2 bf) by (eapply many_block; [|lia|exact Hf]; intros; eapply fuel_ok; eauto).
    assert (L2 : n1 <= n2) by exact (proj1 B).
    assert (C : block_ok n n2 n' bv) by (eapply many_block; [|lia|exact Hv]; intros; eapply venting_ok; eauto).
    auto.
  Qed.
  Lemma installation_ok : forall k a b n n' blk, k < n -> installation_block k a b n n' blk -> block_ok k n n' blk.
  Proof.
    intros k a b n n' blk Hk (values & export & og & of & ov & n1 & n2 & bg & bf & bv & c & _ & _ & Hg & Hf & Hv & _ & _ & ->).
    apply block_head; [exact Hk|]. destruct (inner_ok _ _ _ _ _ _ _ _ _ _ _ _ _ _ _ Hg Hf Hv) as (A & B & C).
    apply block_app with n1; auto. apply block_app with n2; auto.
  Qed.
  Lemma installation_kids : forall k a b n n' blk, k < n -> installation_block k a b n n' blk ->
    n <= n' /\ kids (NUuid k) blk = map ic_id (somes [b]).
  Proof.
    intros k a b n n' blk Hk H. pose proof (installation_ok _ _ _ _ _ _ Hk H) as [X _]. split; [exact X|].
    destruct H as (values & export & og & of & ov & n1 & n2 & bg & bf & bv & c & _ & _ & Hg & Hf & Hv & -> & -> & ->).
    destruct (inner_ok _ _ _ _ _ _ _ _ _ _ _ _ _ _ _ Hg Hf Hv) as (A & B & C).
    rewrite kids_app, kids_one, node_eqb_refl. rewrite (kids_none _ _ (bg ++ bf ++ bv)); [reflexivity|].
    assert (D : block_ok n (S n) n' (bg ++ bf ++ bv)) by (apply block_app with n1; auto; apply block_app with n2; auto).
    destruct D as (_ & _ & _ & D & _). intros e He. destruct (D e He) as (j & -> & Hj). intros Y. injection Y as ->. lia.
  Qed.

  (** the whole model *)
  Lemma map_model_ok : forall name l a mp, map_model np_pow vm target fuels tables name l = Ok (a, mp) ->
    exists oi n' blk, many (installation_block 1) l oi 2 n' blk /\ a = mkAsset (NUuid 0) name (somes oi) /\
      mp_registered mp = blk ++ [(NUuid 1, None, CAsset a)].
  Proof.
    intros name l a mp E. unfold map_model, map_asset, andthen, new_id in E. cbn [bind fst snd mp_next mp_registered] in E.
    destruct (each _ _ _) as [[is s1]|] eqn:Ei; [|discriminate]. cbn in E. injection E as <- <-.
    destruct (each_grows _ _ (installation_grows 1) _ _ _ _ Ei) as (oi & blk & E1 & E2 & ->). cbn in E1, E2.
    exists oi, (mp_next s1), blk. split; [exact E2|]. split; [reflexivity|]. cbn. now rewrite E1.
  Qed.
End Mapping.

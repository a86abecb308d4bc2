(** What is registered while mapping, also when the mapping fails: children before their parents. *)
From Coq Require Import PeanoNat String Lia.
From Verif Require Import QcTac Base BaseLemmas Time_Model Num Expr_Model Vars_Model Units_Model Rates_Model Input_Model Interp_Model
  Energy_Model Emitters_Model Consumer_Model Graph_Model Graph_Spec Totals_Model Asset_Model Asset_Proofs.
Local Open Scope list_scope.
Local Open Scope nat_scope.

(** no container is registered after its parent *)
Fixpoint tidy {M} (blk : list (entry M)) : Prop :=
  match blk with
  | [] => True
  | e :: rest => (forall e2, In e2 (e :: rest) -> snd (fst e2) <> Some (entry_id e)) /\ tidy rest
  end.
Lemma tidy_app : forall M (a b : list (entry M)), tidy a -> tidy b -> (forall e1 e2, In e1 a -> In e2 b -> snd (fst e2) <> Some (entry_id e1)) -> tidy (a ++ b).
Proof.
  intros M a b; induction a as [|e a IH]; intros Ha Hb H; cbn [app tidy]; auto. destruct Ha as [H1 H2]. split.
  - intros e2 [<-|Hin]; [apply H1; now left|]. apply in_app_or in Hin as [Hin|Hin]; [apply H1; now right|apply H; [now left|exact Hin]].
  - apply IH; auto. intros e1 e2 X Y. apply H; [now right|exact Y].
Qed.
Lemma tidy_split : forall M (W : list (entry M)) a e b, tidy W -> W = a ++ e :: b -> forall x, In x (e :: b) -> forall y, In y (a ++ [e]) -> snd (fst x) <> Some (entry_id y).
Proof.
  intros M W a; revert W; induction a as [|y a IH]; intros W e b H -> x Hx z Hz; cbn [app] in Hz.
  - destruct Hz as [<-|[]]. cbn [app tidy] in H. apply H. exact Hx.
  - cbn [app tidy] in H. destruct H as [H1 H2]. destruct Hz as [<-|Hz]; [apply H1; right; apply in_or_app; now right|]. eapply (IH (a ++ e :: b)); eauto.
Qed.

Definition orderly {M} (k n n' : nat) (blk : list (entry M)) : Prop :=
  n <= n' /\ tidy blk /\
  forall e, In e blk -> exists i p, entry_id e = NUuid i /\ snd (fst e) = Some (NUuid p) /\ n <= i < n' /\ (p = k \/ n <= p < n').
Lemma orderly_nil : forall M k n n', n <= n' -> orderly k n n' (@nil (entry M)).
Proof. intros. split; [assumption|]. split; [exact I|]. intros e []. Qed.
Lemma orderly_app : forall M k n n1 n2 (a b : list (entry M)), k < n -> orderly k n n1 a -> orderly k n1 n2 b -> orderly k n n2 (a ++ b).
Proof.
  intros M k n n1 n2 a b Hk (A0 & A1 & A2) (B0 & B1 & B2). split; [lia|]. split.
  - apply tidy_app; auto. intros e1 e2 H1 H2. destruct (A2 e1 H1) as (i & p & -> & _ & Hi & _). destruct (B2 e2 H2) as (i' & p' & _ & -> & _ & Hp).
    intros X. injection X as ->. lia.
  - intros e He. apply in_app_or in He as [He|He].
    + destruct (A2 e He) as (i & p & E1 & E2 & Hi & Hp). exists i, p. repeat split; auto; lia.
    + destruct (B2 e He) as (i & p & E1 & E2 & Hi & Hp). exists i, p. repeat split; auto; lia.
Qed.
(** a container with what is below it; the container itself comes last, or is not registered *)
Lemma orderly_under : forall M k n n' (a own : list (entry M)), k < n -> orderly n (S n) n' a ->
  (own = [] \/ exists c, own = [(NUuid n, Some (NUuid k), c)]) -> orderly k n n' (a ++ own).
Proof.
  intros M k n n' a own Hk (A0 & A1 & A2) Ho. split; [lia|]. split.
  - apply tidy_app; auto.
    + destruct Ho as [->|(c & ->)]; [exact I|]. split; [|exact I]. intros e2 [<-|[]]. cbn. intros X. injection X as ->. lia.
    + intros e1 e2 H1 H2. destruct Ho as [->|(c & ->)]; [destruct H2|]. destruct H2 as [<-|[]]. cbn. destruct (A2 e1 H1) as (i & p & -> & _ & Hi & _). intros X. injection X as ->. lia.
  - intros e He. apply in_app_or in He as [He|He].
    + destruct (A2 e He) as (i & p & E1 & E2 & Hi & Hp). exists i, p. repeat split; auto; lia.
    + destruct Ho as [->|(c & ->)]; [destruct He|]. destruct He as [<-|[]]. exists n, k. repeat split; auto; lia.
Qed.

Definition after {M A} (r : (A * mapping M) + (error * mapping M)) : mapping M := match r with inl (_, s) => s | inr (_, s) => s end.
(** [m] registers things under [k], in order *)
Definition steps {M A} (k : nat) (m : mapper M A) : Prop := forall s, k < mp_next s ->
  exists blk, mp_registered (after (m s)) = mp_registered s ++ blk /\ orderly k (mp_next s) (mp_next (after (m s))) blk.
(** [m] registers things under [i], then perhaps [i] itself under [k] *)
Definition body {M A} (k i : nat) (m : mapper M A) : Prop := forall s, i < mp_next s ->
  exists blk own, mp_registered (after (m s)) = mp_registered s ++ blk ++ own /\ orderly i (mp_next s) (mp_next (after (m s))) blk /\
    (own = [] \/ exists c, own = [(NUuid i, Some (NUuid k), c)]).

Lemma steps_returns : forall M A k (a : A), steps (M := M) k (returns a).
Proof. intros M A k a s Hs. exists []. cbn. rewrite app_nil_r. split; [reflexivity|]. now apply orderly_nil. Qed.
Lemma steps_lift : forall M A k (r : result A), steps (M := M) k (lift r).
Proof. intros M A k r s Hs. exists []. unfold lift. destruct r; cbn; rewrite app_nil_r; (split; [reflexivity|]); now apply orderly_nil. Qed.
Lemma steps_andthen : forall M A B k (m : mapper M A) (f : A -> mapper M B), steps k m -> (forall a, steps k (f a)) -> steps k (andthen m f).
Proof.
  intros M A B k m f Hm Hf s Hs. destruct (Hm s Hs) as (blk & E & O). unfold andthen. destruct (m s) as [[a s1]|[e s1]]; cbn [after fst snd] in *.
  - assert (Hs1 : k < mp_next s1) by (destruct O; lia). destruct (Hf a s1 Hs1) as (blk2 & E2 & O2). exists (blk ++ blk2). rewrite E2, E, <- app_assoc. split; [reflexivity|].
    eapply orderly_app; eauto.
  - exists blk. auto.
Qed.
Lemma steps_each : forall M A B k (f : A -> mapper M (option B)), (forall a, steps k (f a)) -> forall l, steps k (each f l).
Proof.
  intros M A B k f H l; induction l as [|a l IH]; cbn [each]; [apply steps_returns|]. apply steps_andthen; [apply H|]. intros b. apply steps_andthen; [exact IH|].
  intros bs. apply steps_returns.
Qed.
Lemma body_steps : forall M A k i (m : mapper M A), steps i m -> body k i m.
Proof. intros M A k i m H s Hs. destruct (H s Hs) as (blk & E & O). exists blk, []. rewrite app_nil_r. auto. Qed.
Lemma body_andthen : forall M A B k i (m : mapper M A) (f : A -> mapper M B), steps i m -> (forall a, body k i (f a)) -> body k i (andthen m f).
Proof.
  intros M A B k i m f Hm Hf s Hs. destruct (Hm s Hs) as (blk & E & O). unfold andthen. destruct (m s) as [[a s1]|[e s1]]; cbn [after fst snd] in *.
  - assert (Hs1 : i < mp_next s1) by (destruct O; lia). destruct (Hf a s1 Hs1) as (blk2 & own & E2 & O2 & Ho). exists (blk ++ blk2), own. rewrite E2, E, <- !app_assoc. split; [reflexivity|].
    split; [eapply orderly_app; eauto|exact Ho].
  - exists blk, []. rewrite app_nil_r. auto.
Qed.
Lemma body_register : forall M B k i (c : component M) (b : B), body k i (andthen (register (NUuid i) (Some (NUuid k)) c) (fun _ => returns b)).
Proof.
  intros M B k i c b s Hs. exists [], [(NUuid i, Some (NUuid k), c)]. cbn. split; [reflexivity|]. split; [now apply orderly_nil|]. right. now exists c.
Qed.
Lemma steps_new : forall M B k (f : node_id -> mapper M B), (forall i, body k i (f (NUuid i))) -> steps k (andthen new_id f).
Proof.
  intros M B k f H s Hs. unfold andthen, new_id. cbn [fst snd]. destruct (H (mp_next s) (mkMapping (S (mp_next s)) (mp_registered s)) ltac:(cbn; lia)) as (blk & own & E & O & Ho).
  cbn [mp_registered mp_next] in *. exists (blk ++ own). split; [exact E|]. apply orderly_under; auto.
Qed.

Section Mapper.
  Context {M : Type}.
  Variable np_pow : Qc -> Qc -> Qc.
  Variable vm : variables_map.
  Variable target : period.
  Variable fuels : list (string * fuel_type).
  Variable tables : list (string * tabular_data).

  Lemma electricity_steps : forall r k (y : yaml_electricity_consumer M), steps k (map_electricity_consumer target r (NUuid k) y).
  Proof.
    intros r k y. unfold map_electricity_consumer. apply steps_new. intros i. apply body_andthen; [apply steps_lift|]. intros [d|]; [|apply body_steps, steps_returns].
    apply body_register.
  Qed.
  Lemma fuel_steps : forall r default k (y : yaml_fuel_consumer M), steps k (map_fuel_consumer target fuels r default (NUuid k) y).
  Proof.
    intros r default k y. unfold map_fuel_consumer. apply steps_new. intros i. apply body_andthen; [apply steps_lift|]. intros [d|]; [|apply body_steps, steps_returns].
    apply body_andthen; [apply steps_lift|]. intros fuel. apply body_andthen; [apply steps_lift|]. intros _. apply body_register.
  Qed.
  Lemma genset_steps : forall r default k (y : yaml_generator_set M), steps k (map_generator_set target fuels tables r default (NUuid k) y).
  Proof.
    intros r default k y. unfold map_generator_set. apply steps_new. intros i. apply body_andthen; [apply steps_lift|]. intros fuel.
    apply body_andthen; [apply steps_lift|]. intros models. apply body_andthen; [apply steps_each; intros c; apply electricity_steps|]. intros cs.
    apply body_andthen; [apply steps_lift|]. intros _. apply body_register.
  Qed.
  Lemma venting_steps : forall r k (y : yaml_venting_emitter), steps k (map_venting_emitter (M := M) r (NUuid k) y).
  Proof. intros r k y. unfold map_venting_emitter. apply steps_new. intros i. apply body_register. Qed.
  Lemma installation_steps : forall k (y : yaml_installation M), steps k (map_installation np_pow vm target fuels tables (NUuid k) y).
  Proof.
    intros k y. unfold map_installation. apply steps_new. intros i. apply body_andthen; [apply steps_lift|]. intros values.
    apply body_andthen; [apply steps_lift|]. intros export.
    apply body_andthen; [apply steps_each; intros; apply genset_steps|]. intros gs.
    apply body_andthen; [apply steps_each; intros; apply fuel_steps|]. intros fs.
    apply body_andthen; [apply steps_each; intros; apply venting_steps|]. intros vs. apply body_register.
  Qed.

  (** the whole mapping *)
  Lemma asset_maps : forall name (l : list (yaml_installation M)), exists n' blk, orderly 1 2 n' blk /\
    match map_asset np_pow vm target fuels tables (NUuid 0) name l (mkMapping 1 []) with
    | inl (a, mp) => mp_registered mp = blk ++ [(NUuid 1, None, CAsset a)] /\ map_model np_pow vm target fuels tables name l = Ok (a, mp)
    | inr (e, mp) => mp_registered mp = blk /\ map_model np_pow vm target fuels tables name l = Err e
    end.
  Proof.
    intros name l. destruct (steps_each M _ _ 1 (map_installation np_pow vm target fuels tables (NUuid 1)) (installation_steps 1) l (mkMapping 2 []) ltac:(cbn; lia)) as (blk & E & O).
    exists (mp_next (after (each (map_installation np_pow vm target fuels tables (NUuid 1)) l (mkMapping 2 [])))), blk. split; [exact O|].
    unfold map_model. unfold andthen at 1. cbn [new_id fst snd mp_next mp_registered]. unfold map_asset, andthen. cbn [new_id fst snd mp_next mp_registered].
    destruct (each (map_installation np_pow vm target fuels tables (NUuid 1)) l (mkMapping 2 [])) as [[is s1]|[e s1]] eqn:Ei; cbn [after] in *; unfold new_id; cbn [mp_next mp_registered fst snd]; rewrite ?Ei; cbn [fst snd mp_registered].
    - unfold register, returns. cbn [mp_registered fst snd]. rewrite E. split; reflexivity.
    - split; [exact E|reflexivity].
  Qed.
End Mapper.

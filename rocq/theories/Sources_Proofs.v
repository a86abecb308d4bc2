(** The files of a model. *)
From Coq Require Import PeanoNat String Lia.
From Verif Require Import Base BaseLemmas Sources_Model Sources_Spec.
Local Open Scope list_scope.

Lemma good_unique : forall text R problem disk (parse : text -> R + problem) n r r', good disk parse n r -> good disk parse n r' -> r = r'.
Proof. intros text R problem disk parse n r r' (t & D & P) (t' & D' & P'). congruence. Qed.
Lemma set_nodup : forall V n (r : V) d, NoDup (map fst d) -> NoDup (map fst (dict_set String.eqb n r d)).
Proof.
  intros V n r d N. destruct (in_dec string_dec n (map fst d)) as [I|I].
  - rewrite dict_set_keys_in by (auto using String.eqb_eq). exact N.
  - rewrite dict_set_keys_notin by (auto using String.eqb_eq). rewrite map_app. cbn. apply NoDup_rev in N. rewrite <- (rev_involutive (map fst d)). change [n] with (rev [n]). rewrite <- rev_app_distr. apply NoDup_rev. constructor; [rewrite <- in_rev; exact I|exact N].
Qed.

(** reading *)
Lemma get_resources_ok : forall text R problem disk (parse : text -> R + problem) names found errors found' errors',
  get_resources disk parse names found errors = Ok (found', errors') -> NoDup (map fst found) -> (forall n r, In (n, r) found -> good disk parse n r) ->
  (exists reports, errors' = errors ++ map (fun x => mkInvalid (fst x) (snd x)) reports /\ reported disk parse names reports) /\
  NoDup (map fst found') /\ (forall n r, In (n, r) found' <-> In (n, r) found \/ (In n names /\ good disk parse n r)) /\ (forall n, In n names -> disk n <> NoText).
Proof.
  intros text R problem disk parse. induction names as [|a names IH]; intros found errors found' errors' E N G; cbn [get_resources] in E.
  - injection E as <- <-. split; [exists []; split; [symmetry; apply app_nil_r|constructor]|]. split; [exact N|]. split; [intros n r; split; [auto|intros [X|[[] _]]; exact X]|intros n []].
  - destruct (disk a) as [| |t] eqn:D.
    + apply IH in E as ((reports & -> & Rp) & N' & F & U); [|exact N|exact G]. split; [exists reports; split; [reflexivity|]; apply reported_other; [intros p (t & D' & _); congruence|exact Rp]|]. split; [exact N'|]. split.
      * intros n r. rewrite F. split; [intros [X|[X Y]]; [auto|right; split; [right; exact X|exact Y]]|]. intros [X|[[<-|X] Y]]; [auto| |auto]. destruct Y as (t & D' & _). congruence.
      * intros n [<-|X]; [congruence|auto].
    + discriminate E.
    + destruct (parse t) as [r0|p] eqn:P.
      * assert (Ga : good disk parse a r0) by (exists t; auto). apply IH in E as ((reports & -> & Rp) & N' & F & U); [|apply set_nodup; exact N|].
        -- split; [exists reports; split; [reflexivity|]; apply reported_other; [intros p (t' & D' & P'); congruence|exact Rp]|]. split; [exact N'|]. split.
           ++ intros n r. rewrite F. split.
              ** intros [X|[X Y]]; [|right; split; [right; exact X|exact Y]]. apply dict_get_NoDup with (eqb := String.eqb) in X; [|apply String.eqb_eq|apply set_nodup; exact N]. rewrite dict_get_set in X by apply String.eqb_eq.
                 destruct (String.eqb_spec n a) as [->|Q]; [injection X as <-; right; split; [left; reflexivity|exact Ga]|]. left. apply dict_get_In in X; [exact X|apply String.eqb_eq].
              ** intros H. destruct (String.eqb_spec n a) as [->|Q].
                 --- assert (r = r0) as ->. { apply (good_unique _ _ _ disk parse a); [|exact Ga]. destruct H as [H|[_ H]]; auto. }
                     left. apply dict_get_In with (eqb := String.eqb); [apply String.eqb_eq|]. rewrite dict_get_set by apply String.eqb_eq. rewrite String.eqb_refl. reflexivity.
                 --- destruct H as [H|[[H|H] Y]]; [|congruence|auto]. left. apply dict_get_In with (eqb := String.eqb); [apply String.eqb_eq|]. rewrite dict_get_set by apply String.eqb_eq.
                     destruct (String.eqb_spec n a); [contradiction|]. apply dict_get_NoDup; [apply String.eqb_eq|exact N|exact H].
           ++ intros n [<-|X]; [congruence|auto].
        -- intros n r X. apply dict_get_NoDup with (eqb := String.eqb) in X; [|apply String.eqb_eq|apply set_nodup; exact N]. rewrite dict_get_set in X by apply String.eqb_eq.
           destruct (String.eqb_spec n a) as [->|Q]; [injection X as <-; exact Ga|]. apply G. apply dict_get_In in X; [exact X|apply String.eqb_eq].
      * assert (B : broken disk parse a p) by (exists t; auto). apply IH in E as ((reports & -> & Rp) & N' & F & U); [|exact N|exact G]. split; [exists ((a, p) :: reports); split; [cbn [map]; rewrite <- app_assoc; reflexivity|]; constructor; assumption|]. split; [exact N'|]. split.
        -- intros n r. rewrite F. split; [intros [X|[X Y]]; [auto|right; split; [right; exact X|exact Y]]|]. intros [X|[[<-|X] Y]]; [auto| |auto]. destruct Y as (t' & D' & P'). congruence.
        -- intros n [<-|X]; [congruence|auto].
Qed.
Lemma get_resources_total : forall text R problem disk (parse : text -> R + problem) names found errors, (forall n, In n names -> disk n <> NoText) -> exists x, get_resources disk parse names found errors = Ok x.
Proof.
  intros text R problem disk parse. induction names as [|a names IH]; intros found errors U; [eexists; reflexivity|]. cbn [get_resources]. assert (U' : forall n, In n names -> disk n <> NoText) by (intros n I; apply U; right; exact I).
  destruct (disk a) as [| |t] eqn:D; [auto|destruct (U a (or_introl eq_refl) D)|]. destruct (parse t); auto.
Qed.
Lemma reported_all : forall text R problem disk (parse : text -> R + problem) names reports, reported disk parse names reports -> forall n p, In (n, p) reports <-> In n names /\ broken disk parse n p.
Proof.
  intros text R problem disk parse names reports H. induction H as [|a q names reports B H IH|a names reports NB H IH]; intros n p.
  - split; [intros []|intros [[] _]].
  - cbn. rewrite IH. split.
    + intros [E|[X Y]]; [injection E as -> ->; auto|auto].
    + intros [[->|X] Y]; [|auto]. left. destruct B as (t & D & P), Y as (t' & D' & P'). congruence.
  - rewrite IH. cbn. split; [intros [X Y]; auto|]. intros [[->|X] Y]; [destruct (NB p Y)|auto].
Qed.

(** the resources *)
Lemma resources_read : forall text R problem disk (parse : text -> R + problem) names found errors, get_resources disk parse names [] [] = Ok (found, errors) ->
  NoDup (map fst found) /\ (forall n r, In (n, r) found <-> In n names /\ good disk parse n r) /\ reported disk parse names (map (fun e => (ir_name e, ir_problem e)) errors).
Proof.
  intros text R problem disk parse names found errors E. apply get_resources_ok in E as ((reports & -> & Rp) & N & F & _); [|constructor|intros n r []].
  split; [exact N|]. split; [intros n r; rewrite F; split; [intros [[]|X]; exact X|auto]|]. cbn [app]. rewrite map_map. cbn. rewrite (map_ext _ (fun x => x)) by (intros [x y]; reflexivity). rewrite map_id. exact Rp.
Qed.
Lemma time_series_read : forall text resource series problem (from_string : bool -> text -> resource + problem) (to_series : resource -> series + problem) disk names found errors,
  get_time_series_resources from_string to_series disk names = Ok (found, errors) ->
  NoDup (map fst found) /\ (forall n r, In (n, r) found <-> In n names /\ good disk (series_reader from_string to_series) n r) /\
  reported disk (series_reader from_string to_series) names (map (fun e => (ir_name e, ir_problem e)) errors).
Proof. intros text resource series problem from_string to_series disk names found errors E. exact (resources_read _ _ _ disk (series_reader from_string to_series) names found errors E). Qed.
Lemma facilities_read : forall text resource problem (from_string : bool -> text -> resource + problem) disk names found errors,
  get_facility_resources from_string disk names = Ok (found, errors) ->
  NoDup (map fst found) /\ (forall n r, In (n, r) found <-> In n names /\ good disk (from_string false) n r) /\
  reported disk (from_string false) names (map (fun e => (ir_name e, ir_problem e)) errors).
Proof. intros text resource problem from_string disk names found errors E. exact (resources_read _ _ _ disk (from_string false) names found errors E). Qed.

(** the validation *)
Lemma file_seen : forall text R problem disk (parse : text -> R + problem) names found errors n, get_resources disk parse names [] [] = Ok (found, errors) ->
  (In n (map fst found) \/ In n (map ir_name errors) <-> In n names /\ exists t, disk n = FileText t).
Proof.
  intros text R problem disk parse names found errors n E. apply resources_read in E as (_ & F & Rp). pose proof (reported_all _ _ _ _ _ _ _ Rp) as A. split.
  - intros [I|I]; apply in_map_iff in I.
    + destruct I as ([k r] & <- & I). apply F in I as [I (t & D & _)]. eauto.
    + destruct I as (e & <- & I). destruct (A (ir_name e) (ir_problem e)) as [A1 _]. destruct A1 as [X (t & D & _)]; [apply in_map_iff; exists e; auto|eauto].
  - intros [I (t & D)]. destruct (parse t) as [r|p] eqn:P.
    + left. apply in_map_iff. exists (n, r). split; [reflexivity|]. apply F. split; [exact I|exists t; auto].
    + right. destruct (A n p) as [_ A2]. assert (X : In (n, p) (map (fun e => (ir_name e, ir_problem e)) errors)) by (apply A2; split; [exact I|exists t; auto]).
      apply in_map_iff in X as (e & X & I'). apply in_map_iff. exists e. split; [congruence|exact I'].
Qed.
Lemma errors_of_validation : forall text resource series problem config (from_string : bool -> text -> resource + problem) (to_series : resource -> series + problem) disk
    (configuration : list string -> list (string * series) -> list config) time_series facilities errors,
  validation_errors from_string to_series disk configuration time_series facilities = Ok errors ->
  exists reports reports' seen valid,
    reported disk (series_reader from_string to_series) time_series reports /\ reported disk (from_string false) facilities reports' /\
    (forall n, In n seen <-> (In n time_series \/ In n facilities) /\ exists t, disk n = FileText t) /\
    NoDup (map fst valid) /\ (forall n s, In (n, s) valid <-> In n time_series /\ good disk (series_reader from_string to_series) n s) /\
    errors = map (fun r => InResource (fst r) (snd r)) (reports ++ reports') ++ map InConfiguration (configuration seen valid).
Proof.
  intros text resource series problem config from_string to_series disk configuration time_series facilities errors E. unfold validation_errors in E.
  destruct (get_time_series_resources from_string to_series disk time_series) as [[ts e1]|] eqn:T; [|discriminate E]. destruct (get_facility_resources from_string disk facilities) as [[fac e2]|] eqn:F; [|discriminate E]. cbn [bind fst snd] in E. injection E as <-.
  exists (map (fun e => (ir_name e, ir_problem e)) e1), (map (fun e => (ir_name e, ir_problem e)) e2). eexists (map fst ts ++ map fst fac ++ map ir_name (e1 ++ e2)), ts.
  pose proof (time_series_read _ _ _ _ _ _ _ _ _ _ T) as (N & V & R1). pose proof (facilities_read _ _ _ _ _ _ _ _ F) as (_ & _ & R2). split; [exact R1|]. split; [exact R2|]. split; [|split; [exact N|split; [exact V|]]].
  - intros n. rewrite map_app, !in_app_iff. pose proof (file_seen _ _ _ _ _ _ _ _ n T) as S1. pose proof (file_seen _ _ _ _ _ _ _ _ n F) as S2. tauto.
  - rewrite <- map_app, map_map. reflexivity.
Qed.
Lemma validation_runs : forall text resource series problem config (from_string : bool -> text -> resource + problem) (to_series : resource -> series + problem) disk
    (configuration : list string -> list (string * series) -> list config) time_series facilities,
  (exists errors, validation_errors from_string to_series disk configuration time_series facilities = Ok errors) <-> forall n, In n time_series \/ In n facilities -> disk n <> NoText.
Proof.
  intros text resource series problem config from_string to_series disk configuration time_series facilities. unfold validation_errors. split.
  - intros (errors & E). destruct (get_time_series_resources from_string to_series disk time_series) as [[ts e1]|] eqn:T; [|discriminate E]. destruct (get_facility_resources from_string disk facilities) as [[fac e2]|] eqn:F; [|discriminate E].
    apply get_resources_ok in T as (_ & _ & _ & U1); [|constructor|intros n r []]. apply get_resources_ok in F as (_ & _ & _ & U2); [|constructor|intros n r []]. intros n [I|I]; auto.
  - intros U. destruct (get_resources_total _ _ _ disk (fun t => match from_string true t with inl r => to_series r | inr p => inr p end) time_series [] []) as (x & X); [auto|]. destruct (get_resources_total _ _ _ disk (from_string false) facilities [] []) as (y & Y); [auto|].
    unfold get_time_series_resources, get_facility_resources. rewrite X, Y. eexists. reflexivity.
Qed.
Lemma no_text_refuted : exists (disk : string -> file nat) time_series,
  (exists n p, In n time_series /\ broken disk (series_reader (fun _ t => if Nat.eqb t 0 then inr "empty"%string else inl t) (fun r => inl r)) n p) /\
  validation_errors (fun _ t => if Nat.eqb t 0 then inr "empty"%string else inl t) (fun r => inl (B := string) r) disk (fun _ _ => ["wrong keyword"%string]) time_series [] = Err OtherError.
Proof.
  exists (fun n => if String.eqb n "a.csv" then FileText 0%nat else NoText), ["a.csv"; "b.csv"]%string. split; [|reflexivity]. exists "a.csv"%string, "empty"%string. split; [left; reflexivity|]. exists 0%nat. split; reflexivity.
Qed.

(** Proofs about consumers: expressions, conditions and losses on a part of the run. *)
From Coq Require Import PeanoNat String.
From Verif Require Import Attributes_Proofs Attributes_Proofs2 QcTac Num Time_Model Time_Spec Time_Proofs Time_Proofs2 Units_Model Rates_Model Rates_Spec Rates_Proofs Rates_Proofs3 Rates_Proofs4
  Base BaseLemmas Expr_Model Expr_Spec Expr_Proofs Vars_Model Vars_Proofs Input_Model Interp_Model Energy_Model Energy_Proofs Energy_Proofs3 Export_Proofs2 Emitters_Proofs5 Emitters_Spec
  Consumer_Model Consumer_Spec Consumer_Proofs Consumer_Proofs2 Consumer_Proofs3 Consumer_Proofs4.
Local Open Scope list_scope.
Local Open Scope Z_scope.

(** ** Conditions joined are the product of the conditions *)
Lemma writes_zero : forall k ts e, writes k ts e -> writes 0 ts e.
Proof.
  intros k ts e H. destruct H; [apply W_num|apply W_ref|now apply W_paren|apply W_left; auto; lia|apply W_right; auto; lia].
Qed.
Definition expr_of (e : expression_input) (x : expr) : Prop :=
  match e with INumber q => x = ENum q | IText ts => writes 0 ts x end.
Lemma expr_of_writes : forall e x, expr_of e x -> writes 0 (input_tokens e) x.
Proof. intros [q|ts] x H; cbn [expr_of input_tokens] in *; [subst x; apply W_num|exact H]. Qed.
Lemma join_snoc : forall first rest c, join_conditions first (rest ++ [c]) = join_conditions first rest ++ TOp "{*}" :: TOp "(" :: input_tokens c ++ [TOp ")"].
Proof.
  intros first rest. revert first. induction rest as [|d rest IH]; intros first c.
  - cbn [app join_conditions]. rewrite <- ?app_assoc. cbn [app]. reflexivity.
  - cbn [app join_conditions]. rewrite IH. cbn [app]. rewrite <- ?app_assoc. cbn [app]. reflexivity.
Qed.
Lemma join_writes : forall first x rest xs, expr_of first x -> Forall2 expr_of rest xs ->
  writes 8 (join_conditions first rest) (fold_left (EBin Mul) xs x).
Proof.
  intros first x rest. induction rest as [|c rest IH] using rev_ind; intros xs Hx F.
  - inversion F; subst. cbn [join_conditions fold_left]. rewrite app_nil_r. cbn [app]. apply W_paren. now apply expr_of_writes.
  - apply Forall2_app_inv_l in F as (xs1 & xs2 & F1 & F2 & ->). inversion F2 as [|c' y l' l'' Hy F3]; subst. inversion F3; subst. rewrite fold_left_app. cbn [fold_left].
    rewrite join_snoc. apply (W_left 8 Mul); [reflexivity|cbn; lia|now apply IH|]. cbn [strength]. apply W_paren. now apply expr_of_writes.
Qed.
Lemma product_value : forall pow env xs x, value pow env (fold_left (EBin Mul) xs x) = 0%Qc <-> value pow env x = 0%Qc \/ exists y, In y xs /\ value pow env y = 0%Qc.
Proof.
  intros pow env xs. induction xs as [|y xs IH]; intros x; cbn [fold_left].
  - split; [auto|]. intros [H|(y & [] & _)]. exact H.
  - rewrite IH. cbn [value binop_value]. split.
    + intros [H|(z & I & Z)]; [|right; exists z; split; [now right|exact Z]]. apply Qcmult_integral in H as [H|H]; [now left|]. right. exists y. split; [now left|exact H].
    + intros [H|(z & [<-|I] & Z)]; [left; rewrite H; ring|left; rewrite Z; ring|]. right. exists z. auto.
Qed.
Lemma product_references : forall xs x r, In r (references (fold_left (EBin Mul) xs x)) -> In r (references x) \/ exists y, In y xs /\ In r (references y).
Proof.
  induction xs as [|y xs IH]; intros x r H; cbn [fold_left] in H; [now left|]. apply IH in H as [H|(z & I & Z)]; [|right; exists z; split; [now right|exact Z]].
  cbn [references] in H. apply in_app_iff in H as [H|H]; [now left|]. right. exists y. split; [now left|exact H].
Qed.

Section Parts.
  Variable pow : Qc -> Qc -> Qc.
  Variables (first : period) (rest : list period) (vars : variables_dict) (vm : variables_map).
  Let ps := first :: rest.
  Let n := List.length ps.
  Hypothesis Evm : make_variables_map ps vars = Ok vm.
  Hypothesis C : contiguous ps.
  Hypothesis Un : forall r l, dict_get String.eqb r vars = Some l -> List.length l = n.

  Lemma part_facts : forall i j sub, (i < j)%nat -> (j <= n)%nat -> get_subset vm i j = Ok sub -> vm_periods sub = slice i j ps /\ List.length (vm_periods sub) = (j - i)%nat /\
    forall ts v, evaluate pow ts vars n = Ok v -> vm_evaluate pow sub ts = Ok (slice i j v).
  Proof.
    intros i j sub L1 L2 E. destruct (get_subset_spec first rest vars vm i j C Evm L1 L2) as (sub' & E' & P & V). assert (sub' = sub) as -> by congruence.
    assert (List.length (vm_periods sub) = (j - i)%nat) as L by (rewrite P; now apply slice_length). split; [exact P|]. split; [exact L|].
    intros ts v Hv. unfold vm_evaluate. rewrite L, V. apply (evaluate_slice pow ts vars n i j v Un); auto. lia.
  Qed.
  Lemma vector_of : forall e, evaluable pow vars n e -> exists v, List.length v = n /\ (forall k x, (k < n)%nat -> input_at pow vars n e k x <-> nth_error v k = Some x) /\
    forall i j sub, (i < j)%nat -> (j <= n)%nat -> get_subset vm i j = Ok sub -> vm_evaluate pow sub (input_tokens e) = Ok (slice i j v).
  Proof.
    intros e H. apply evaluable_tokens in H as (v & Ev). exists v. split; [eapply evaluate_length; eauto|]. split.
    - intros k x L. rewrite input_at_tokens by exact L. unfold evaluates_at. rewrite Ev. split; [intros (l & E & K); congruence|]. intros K. exists v. auto.
    - intros i j sub L1 L2 E. now apply (part_facts i j sub L1 L2 E).
  Qed.
  Lemma loss_of : forall c, common_ok pow vars n c -> exists ls, List.length ls = n /\ (forall k f, (k < n)%nat -> lost pow vars n c k f <-> nth_error ls k = Some f) /\
    forall i j sub, (i < j)%nat -> (j <= n)%nat -> get_subset vm i j = Ok sub -> loss_values pow sub c = Ok (slice i j ls).
  Proof.
    intros c (_ & _ & H). unfold lost, loss_values. destruct (cl_loss c) as [e|].
    - apply (vector_of e (H e eq_refl)).
    - exists (repeat 0%Qc n). split; [apply repeat_length|]. split.
      + intros k f L. rewrite (nth_error_repeat _ L). split; congruence.
      + intros i j sub L1 L2 E. destruct (part_facts i j sub L1 L2 E) as (_ & L & _). rewrite L. f_equal. apply list_ext_nth. intros k. rewrite nth_error_slice.
        destruct (Nat.ltb_spec k (j - i)) as [K|K]; [rewrite !nth_error_repeat by lia; reflexivity|]. apply nth_error_None. now rewrite repeat_length.
  Qed.
  Lemma mask_of : forall c, common_ok pow vars n c -> exists mask, (forall m, mask = Some m -> List.length m = n) /\
    (forall k b, (k < n)%nat -> in_use pow vars n c k b <-> exists x, mask_value mask k = Some x /\ (b = false <-> x = 0%Qc)) /\
    forall i j sub, (i < j)%nat -> (j <= n)%nat -> get_subset vm i j = Ok sub -> condition_values pow sub c = Ok (option_map (slice i j) mask).
  Proof.
    intros c (H1 & H2 & _). unfold in_use, condition_values, map_condition. destruct (cl_condition c) as [e|] eqn:Ec.
    - destruct (H1 e eq_refl) as (Ev & Hc & T1 & T2). destruct (vector_of e Ev) as (v & Lv & Vv & Sv). exists (Some v).
      assert (truthy (TDPlain e) = true) as Te.
      { destruct e as [q|[|t ts]]; cbn [truthy]; [|congruence|reflexivity]. destruct (Qceqb q 0) eqn:Q; [|reflexivity]. apply Qceqb_eq in Q. congruence. }
      rewrite Te. split; [intros m E; congruence|]. split.
      + intros k b L. cbn [mask_value]. split; intros (x & X & B); exists x; (split; [now apply Vv|exact B]).
      + intros i j sub L1 L2 E. rewrite (Sv i j sub L1 L2 E). reflexivity.
    - destruct (cl_conditions c) as [[|e es]|] eqn:Es.
      + exists None. split; [discriminate|]. split; [|reflexivity]. intros k b L. cbn [mask_value]. split.
        * intros [B _]. exists 1%Qc. split; [reflexivity|]. split; [|intros E; discriminate E]. intros E. apply B in E as (es & e & E & I & _). injection E as <-. destruct I.
        * intros (x & X & B). split; [|intros (es & e & E & I & _); injection E as <-; destruct I]. intros E. apply B in E. subst x. injection X as X. discriminate X.
      + assert (exists xs, Forall2 (fun e x => expr_of e x /\ forall r, In r (references x) -> exists l, dict_get String.eqb r vars = Some l) (e :: es) xs) as (xs & F).
        { apply forall2_exists. intros d I. specialize (H2 _ d eq_refl I). destruct d as [q|ts]; cbn [well_written_input] in H2.
          - exists (ENum q). split; [reflexivity|intros r []].
          - destruct H2 as (k & x & Wx & Rx). exists x. split; [now apply (writes_zero k)|exact Rx]. }
        inversion F as [|e' x es' xs' [Ex Rx] F']; subst. clear F.
        assert (writes 8 (join_conditions e es) (fold_left (EBin Mul) xs' x)) as Wj.
        { apply join_writes; [exact Ex|]. clear -F'. induction F' as [|a b l m [H _] F IH]; constructor; auto. }
        assert (forall r, In r (references (fold_left (EBin Mul) xs' x)) -> exists l, dict_get String.eqb r vars = Some l /\ List.length l = n) as Rj.
        { intros r I. assert (exists l, dict_get String.eqb r vars = Some l) as (l & El).
          { apply product_references in I as [I|(y & Iy & I)]; [now apply Rx|]. destruct (forall2_in_r _ _ _ _ _ _ F' Iy) as (d & _ & _ & Ry). now apply Ry. }
          exists l. split; [exact El|now apply (Un r)]. }
        destruct (evaluate_writes_proof pow _ _ _ vars n Wj Rj) as (vec & Evec & Lvec & Vvec). exists (Some vec). split; [intros m E; congruence|]. split.
        * intros k b L. cbn [mask_value].
          assert (nth_error vec k = Some (nth k vec 0%Qc)) as Kn by (apply nth_error_nth'; lia).
          assert (nth k vec 0%Qc = 0%Qc <-> exists es0 e0, Some (e :: es) = Some es0 /\ In e0 es0 /\ input_at pow vars n e0 k 0%Qc) as Z.
          { rewrite (Vvec k L), product_value.
            assert (forall d y, expr_of d y -> (forall r, In r (references y) -> exists l, dict_get String.eqb r vars = Some l) -> (value pow (env_at vars k) y = 0%Qc <-> input_at pow vars n d k 0%Qc)) as One.
            { intros d y Ed Rd. rewrite input_at_tokens by exact L. destruct (evaluate_writes_proof pow _ _ _ vars n (expr_of_writes d y Ed)) as (vd & Evd & Lvd & Vvd).
              { intros r I. destruct (Rd r I) as (l & El). exists l. split; [exact El|now apply (Un r)]. }
              rewrite <- (Vvd k L). unfold evaluates_at. rewrite Evd.
              split.
              - intros E. exists vd. split; [reflexivity|]. rewrite (nth_error_nth' vd 0%Qc) by lia. now rewrite E.
              - intros (l & E & K). injection E as <-. rewrite (nth_error_nth' vd 0%Qc) in K by lia. congruence. }
            split.
            - intros [E|(y & Iy & E)].
              + exists (e :: es), e. split; [reflexivity|]. split; [now left|]. now apply (One e x Ex Rx).
              + destruct (forall2_in_r _ _ _ _ _ _ F' Iy) as (d & Id & Ed & Rd). exists (e :: es), d. split; [reflexivity|]. split; [now right|]. now apply (One d y Ed Rd).
            - intros (es0 & d & E & I & A). injection E as <-. destruct I as [<-|I]; [left; now apply (One e x Ex Rx)|]. right.
              destruct (forall2_in_l _ _ _ _ _ _ F' I) as (y & Iy & Ed & Rd). exists y. split; [exact Iy|]. now apply (One d y Ed Rd). }
          rewrite <- Z, Kn. split; [intros B; exists (nth k vec 0%Qc); auto|]. intros (y & Y & B). injection Y as <-. exact B.
        * intros i j sub L1 L2 E. destruct (part_facts i j sub L1 L2 E) as (_ & _ & P). rewrite (P _ _ Evec). reflexivity.
      + exists None. split; [discriminate|]. split; [|reflexivity]. intros k b L. cbn [mask_value]. split.
        * intros [B _]. exists 1%Qc. split; [reflexivity|]. split; [|intros E; discriminate E]. intros E. apply B in E as (es & e & E & _). discriminate E.
        * intros (x & X & B). split; [|intros (es & e & E & _); discriminate E]. intros E. apply B in E. subst x. injection X as X. discriminate X.
  Qed.
End Parts.

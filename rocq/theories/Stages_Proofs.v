(** The number of stages of a simplified train. *)
From Coq Require Import Reals List Lia Lra ZArith.
From Verif Require Import Base BaseLemmas Stages_Model Stages_Spec.
Import ListNotations.
Local Open Scope list_scope.
Local Open Scope R_scope.

Lemma max_from : forall l x, In (fold_left Rmax l x) (x :: l) /\ x <= fold_left Rmax l x /\ forall y, In y l -> y <= fold_left Rmax l x.
Proof.
  induction l as [|a l IH]; intros x; cbn [fold_left].
  - split; [left; reflexivity|]. split; [lra|intros y []].
  - destruct (IH (Rmax x a)) as (A & B & C). split.
    + destruct A as [A|A]; [|right; right; exact A]. rewrite <- A. unfold Rmax. destruct (Rle_dec x a); [right; left|left]; reflexivity.
    + pose proof (Rmax_l x a). pose proof (Rmax_r x a). split; [lra|]. intros y [<-|I]; [lra|apply C; exact I].
Qed.
Lemma max_ratio : forall periods, proper_periods periods -> exists top, py_max (map (fun p => snd p / fst p) periods) = Ok top /\ 0 < top /\
  (exists p, In p periods /\ top = snd p / fst p) /\ forall p, In p periods -> snd p / fst p <= top.
Proof.
  intros periods [N P]. destruct periods as [|q periods]; [congruence|]. cbn [map py_max]. destruct (max_from (map (fun p => snd p / fst p) periods) (snd q / fst q)) as (A & B & C).
  exists (fold_left Rmax (map (fun p => snd p / fst p) periods) (snd q / fst q)). split; [reflexivity|].
  assert (exists p, In p (q :: periods) /\ fold_left Rmax (map (fun p => snd p / fst p) periods) (snd q / fst q) = snd p / fst p) as X.
  { destruct A as [A|A]; [exists q; split; [left; reflexivity|symmetry; exact A]|]. apply in_map_iff in A as (p & E & I). exists p. split; [right; exact I|symmetry; exact E]. }
  split.
  - destruct X as (p & I & ->). destruct (P p I). apply Rdiv_lt_0_compat; assumption.
  - split; [exact X|]. intros p [<-|I]; [exact B|]. apply C. apply in_map_iff. exists p. auto.
Qed.
Lemma all_positive : forall periods, proper_periods periods -> forallb positive periods = true.
Proof.
  intros periods [_ P]. apply forallb_forall. intros p I. destruct (P p I). unfold positive. destruct (Rlt_dec 0 (fst p)); [|contradiction]. destruct (Rlt_dec 0 (snd p)); [reflexivity|contradiction].
Qed.
Lemma ceil_le : forall x m, (py_ceil x <= m)%Z <-> x <= IZR m.
Proof.
  intros x m. unfold py_ceil. destruct (base_Int_part (- x)) as [A B]. split.
  - intros L. assert (- m <= Int_part (- x))%Z as L' by lia. apply IZR_le in L'. rewrite opp_IZR in L'. lra.
  - intros L. assert (IZR (- m - 1) < IZR (Int_part (- x))) as L' by (rewrite minus_IZR, opp_IZR; lra). apply lt_IZR in L'. lia.
Qed.
Lemma ln_above_one : forall r, 1 < r -> 0 < ln r.
Proof. intros r H. rewrite <- ln_1. apply ln_increasing; lra. Qed.
Lemma enough_ln : forall r n p, 1 < r -> 0 < fst p -> 0 < snd p -> (snd p <= fst p * r ^ n <-> ln (snd p / fst p) <= INR n * ln r).
Proof.
  intros r n p H A B. assert (0 < r ^ n) as C by (apply pow_lt; lra). assert (0 < snd p / fst p) as D by (apply Rdiv_lt_0_compat; assumption).
  rewrite <- ln_pow by lra. transitivity (snd p / fst p <= r ^ n).
  - split; intros E.
    + apply (Rmult_le_reg_l (fst p)); [exact A|]. replace (fst p * (snd p / fst p)) with (snd p) by (field; lra). exact E.
    + apply (Rmult_le_compat_l (fst p)) in E; [|lra]. replace (fst p * (snd p / fst p)) with (snd p) in E by (field; lra). exact E.
  - split; intros E.
    + destruct E as [E|E]; [left; apply ln_increasing; assumption|right; rewrite E; reflexivity].
    + destruct E as [E|E]; [left; apply ln_lt_inv; assumption|right; apply ln_inv; assumption].
Qed.
Lemma number_is : forall r periods, 1 < r -> proper_periods periods -> exists n, calculate_number_of_stages r periods = Ok n /\
  forall m, enough r m periods <-> (n <= Z.of_nat m)%Z.
Proof.
  intros r periods H P. destruct (max_ratio periods P) as (top & E & T & (p & I & Ep) & U). pose proof (ln_above_one r H) as L.
  exists (py_ceil (ln top / ln r)). split.
  - unfold calculate_number_of_stages. rewrite (all_positive periods P). cbn [negb]. rewrite E. cbn [Base.bind]. unfold py_log. destruct (Rlt_dec 0 top); [|contradiction]. cbn [Base.bind].
    destruct (Rlt_dec 0 r); [|lra]. cbn [Base.bind]. unfold py_div. destruct (Req_EM_T (ln r) 0); [lra|]. reflexivity.
  - intros m. rewrite ceil_le. rewrite <- INR_IZR_INZ. assert (ln top / ln r <= INR m <-> ln top <= INR m * ln r) as X.
    { split; intros Q.
      - apply (Rmult_le_compat_r (ln r)) in Q; [|lra]. replace (ln top / ln r * ln r) with (ln top) in Q by (field; lra). exact Q.
      - apply (Rmult_le_reg_r (ln r)); [exact L|]. replace (ln top / ln r * ln r) with (ln top) by (field; lra). exact Q. }
    rewrite X. destruct P as [_ P]. split.
    + intros F. rewrite Ep. apply enough_ln; try apply P; auto.
    + intros Q q J. destruct (P q J) as [A B]. apply enough_ln; auto. apply (Rle_trans _ (ln top)); [|exact Q].
      assert (0 < snd q / fst q) as D by (apply Rdiv_lt_0_compat; assumption). destruct (U q J) as [V|V]; [left; apply ln_increasing; assumption|right; rewrite V; reflexivity].
Qed.
Lemma fewest_proof : forall r periods, 1 < r -> proper_periods periods -> exists n, calculate_number_of_stages r periods = Ok n /\ fewest r (Z.to_nat n) periods.
Proof.
  intros r periods H P. destruct (number_is r periods H P) as (n & E & F). exists n. split; [exact E|]. split; [apply F; lia|]. intros m M. apply F in M. lia.
Qed.
Lemma no_stage : forall r periods, 1 < r -> proper_periods periods -> (fewest r 0 periods <-> forall p, In p periods -> snd p <= fst p).
Proof.
  intros r periods H P. unfold fewest, enough. cbn [pow]. split.
  - intros [A _] p I. specialize (A p I). lra.
  - intros A. split; [intros p I; specialize (A p I); lra|intros; lia].
Qed.
Lemma fewest_unique : forall r a b periods, fewest r a periods -> fewest r b periods -> a = b.
Proof. intros r a b periods [A A'] [B B']. apply A' in B. apply B' in A. lia. Qed.

Lemma mapM_total : forall A B (f : A -> B) l, mapM (fun x => Ok (f x)) l = Ok (map f l).
Proof. intros A B f. induction l as [|x l IH]; cbn; [reflexivity|]. rewrite IH. reflexivity. Qed.
Lemma accepted_proof : forall r periods, 1 < r -> proper_periods periods ->
  ((exists stages, unknown_stages (Some r) periods = Ok stages) <-> exists p, In p periods /\ fst p < snd p) /\
  ((forall p, In p periods -> snd p <= fst p) -> unknown_stages (Some r) periods = Err ValueError).
Proof.
  intros r periods H P. destruct (fewest_proof r periods H P) as (n & E & F). cbn [unknown_stages]. rewrite E. cbn [Base.bind].
  assert ((forall p, In p periods -> snd p <= fst p) -> unknown_stages (Some r) periods = Err ValueError) as X.
  { intros A. apply (no_stage r periods H P) in A. cbn [unknown_stages]. rewrite E. cbn [Base.bind]. rewrite (fewest_unique r _ _ periods F A). destruct P as [N _]. destruct periods; [congruence|reflexivity]. }
  split; [|cbn [unknown_stages] in X; rewrite E in X; exact X]. split.
  - intros [stages S]. destruct (Exists_dec (fun p => fst p < snd p) periods (fun p => Rlt_dec (fst p) (snd p))) as [D|D]; [apply Exists_exists in D; exact D|]. exfalso.
    assert (forall p, In p periods -> snd p <= fst p) as A by (intros p I; apply Rnot_lt_le; intros W; apply D, Exists_exists; exists p; auto).
    specialize (X A). cbn [unknown_stages] in X. rewrite E in X. cbn [Base.bind] in X. rewrite S in X. discriminate X.
  - intros (p & I & L). destruct (Z.to_nat n) as [|k] eqn:K.
    + exfalso. pose proof (proj1 (no_stage r periods H P) F p I). lra.
    + unfold pressure_ratio_per_stage. rewrite (mapM_total (R * R) R (fun p => Rpower (snd p / fst p) (1 / INR (S k)))). eexists. reflexivity.
Qed.

(** ** pressures *)
Lemma root_pow : forall x n, 0 < x -> (0 < n)%nat -> 0 < Rpower x (1 / INR n) /\ Rpower x (1 / INR n) ^ n = x.
Proof.
  intros x n X N. split; [apply exp_pos|]. rewrite <- Rpower_pow by apply exp_pos. rewrite Rpower_mult. replace (1 / INR n * INR n) with 1; [apply Rpower_1; exact X|]. field. apply not_0_INR. lia.
Qed.
Lemma pow_le_inv : forall a b n, 0 < a -> 0 < b -> (0 < n)%nat -> a ^ n <= b ^ n -> a <= b.
Proof.
  intros a b n A B N L. apply Rnot_lt_le. intros W. assert (b ^ n < a ^ n); [|lra]. clear L. destruct n as [|n]; [lia|]. clear N. induction n as [|n IH]; [cbn; lra|].
  change (b * b ^ S n < a * a ^ S n). apply Rmult_le_0_lt_compat; try lra. apply pow_le. lra.
Qed.
Lemma pressures_length : forall n inlets ratios, List.length (pressures_of_stages n inlets ratios) = n.
Proof. induction n as [|n IH]; intros inlets ratios; cbn; [reflexivity|]. f_equal. apply IH. Qed.
Lemma pressures_chain : forall n inlets ratios i p q, nth_error inlets i = Some p -> nth_error ratios i = Some q ->
  exists one, Forall2 (fun stage io => nth_error stage i = Some io) (pressures_of_stages n inlets ratios) one /\ chain q p (p * q ^ n) one.
Proof.
  induction n as [|n IH]; intros inlets ratios i p q A B; cbn [pressures_of_stages].
  - exists []. split; [constructor|]. rewrite Rmult_1_r. constructor.
  - assert (nth_error (map2 Rmult inlets ratios) i = Some (p * q)) as C by (rewrite nth_error_map2, A, B; reflexivity).
    destruct (IH (map2 Rmult inlets ratios) ratios i (p * q) q C B) as (one & F & G). exists ((p, p * q) :: one). split.
    + constructor; [|exact F]. clear - A C. remember (map2 Rmult inlets ratios) as outlets. clear Heqoutlets. revert i outlets A C. induction inlets as [|x l IH]; intros [|i] [|y m] A C; try discriminate; cbn in *; [congruence|apply IH; assumption].
    + constructor; [ring|]. replace (p * q ^ S n) with (p * q * q ^ n) by (cbn; ring). exact G.
Qed.
Lemma stages_proof : forall r periods stages, 1 < r -> proper_periods periods -> unknown_stages (Some r) periods = Ok stages ->
  fewest r (List.length stages) periods /\
  forall i p, nth_error periods i = Some p -> exists ratio one, Forall2 (fun stage io => nth_error stage i = Some io) stages one /\
    chain ratio (fst p) (snd p) one /\ 0 < ratio /\ ratio <= r /\ (fst p <= snd p -> 1 <= ratio).
Proof.
  intros r periods stages H P E. destruct (fewest_proof r periods H P) as (z & N & F). cbn [unknown_stages] in E. rewrite N in E. cbn [Base.bind] in E.
  destruct (Z.to_nat z) as [|k] eqn:K.
  - exfalso. destruct P as [NE _]. destruct periods; [congruence|discriminate E].
  - unfold pressure_ratio_per_stage in E. rewrite (mapM_total (R * R) R (fun p => Rpower (snd p / fst p) (1 / INR (S k)))) in E. cbn [Base.bind] in E. remember (S k) as n. injection E as <-.
    rewrite pressures_length. split; [exact F|]. intros i p I.
    destruct (pressures_chain n (map fst periods) (map (fun p => Rpower (snd p / fst p) (1 / INR n)) periods) i (fst p) (Rpower (snd p / fst p) (1 / INR n))) as (one & A & B);
      [rewrite nth_error_map, I; reflexivity|rewrite nth_error_map, I; reflexivity|].
    exists (Rpower (snd p / fst p) (1 / INR n)), one. pose proof (nth_error_In _ _ I) as J. destruct (proj2 P p J) as [X Y]. assert (0 < snd p / fst p) as D by (apply Rdiv_lt_0_compat; assumption).
    destruct (root_pow (snd p / fst p) n D ltac:(lia)) as [G1 G2]. rewrite G2 in B. replace (fst p * (snd p / fst p)) with (snd p) in B by (field; lra).
    split; [exact A|]. split; [exact B|]. split; [exact G1|]. split.
    + apply (pow_le_inv _ r n); try lra; try lia. rewrite G2. destruct F as [F _]. specialize (F p J). apply (Rmult_le_reg_l (fst p)); [exact X|]. replace (fst p * (snd p / fst p)) with (snd p) by (field; lra). exact F.
    + intros L. apply (pow_le_inv 1 _ n); try lra; try lia. rewrite G2, pow1. apply (Rmult_le_reg_l (fst p)); [exact X|]. replace (fst p * (snd p / fst p)) with (snd p) by (field; lra). lra.
Qed.

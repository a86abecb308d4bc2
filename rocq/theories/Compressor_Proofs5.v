(** Falling lines and their inverse; the control margin. *)
From Coq Require Import PeanoNat.
From Verif Require Import QcTac Base BaseLemmas Num Interp_Model Interp_Spec Time_Proofs Interp_Proofs Chart_Model Chart_Spec
  Chart_Proofs Chart_Proofs2 Pump_Proofs Compressor_Model Compressor_Spec Compressor_Proofs Compressor_Proofs2 Compressor_Proofs3
  Compressor_Proofs4.
Local Open Scope list_scope.
Local Open Scope Qc_scope.

Lemma interpolates_np : forall pts x y, rising pts -> interpolates pts x y -> np_interp pts x = Some y.
Proof.
  intros pts x y R [H|(a & ya & b & yb & Ha & Hb & L1 & L2 & N & ->)]; [now apply np_interp_point|now apply np_interp_between].
Qed.

(** points whose second coordinates fall *)
Fixpoint falling (pts : list (Qc * Qc)) : Prop :=
  match pts with [] => True | p :: rest => (forall q, In q rest -> snd q < snd p) /\ falling rest end.

Lemma np_interp_top : forall pts p x y, rising (p :: pts) -> falling (p :: pts) -> fst p <= x -> np_interp (p :: pts) x = Some y -> y <= snd p.
Proof.
  intros pts p x y R F L E.
  destruct (bounded_list (map snd (p :: pts))) as (lo & hi0 & B).
  destruct (np_interp_bounds (p :: pts) lo (snd p) x p) as (z & Ez & _ & H); auto.
  - clear - R. revert p R. induction pts as [|q pts IH]; intros p R; (split; [|]); cbn in *; auto; try tauto.
    + intros r [<-|Hr]; apply Qclt_le_weak; apply R; cbn; auto.
    + apply IH. apply R.
  - intros q Hq. split; [apply B; now apply in_map|]. destruct Hq as [<-|Hq]; [apply Qcle_refl|]. apply Qclt_le_weak. now apply F.
  - congruence.
Qed.

Lemma line_below : forall a ya b yb x, a < b -> yb < ya -> x < b -> yb < ya + (yb - ya) / (b - a) * (x - a).
Proof.
  intros a ya b yb x L F X. replace (ya + (yb - ya) / (b - a) * (x - a)) with (yb + (ya - yb) * ((b - x) / (b - a))) by (field; apply lt_neq; qc_lra).
  assert (0 < (b - x) / (b - a)) as P by (apply div_pos; qc_lra). revert P. generalize ((b - x) / (b - a)). intros w P.
  assert (0 < (ya - yb) * w) by (apply mul_pos; [qc_lra|auto]). qc_lra.
Qed.
Lemma line_strict : forall a ya b yb x x', a < b -> yb < ya -> x < x' -> ya + (yb - ya) / (b - a) * (x' - a) < ya + (yb - ya) / (b - a) * (x - a).
Proof.
  intros a ya b yb x x' L F X.
  assert (0 < (ya - yb) / (b - a)) as P by (apply div_pos; qc_lra).
  replace ((yb - ya) / (b - a)) with (- ((ya - yb) / (b - a))) by (field; apply lt_neq; qc_lra). revert P. generalize ((ya - yb) / (b - a)). intros w P.
  assert (0 < w * (x' - x)) by (apply mul_pos; [auto|qc_lra]). qc_lra.
Qed.

Lemma np_interp_falls : forall pts x0 x x' y y', rising pts -> falling pts -> hd_error pts = Some x0 -> fst x0 <= x -> x < x' ->
  (exists z, In z pts /\ x' <= fst z) -> np_interp pts x = Some y -> np_interp pts x' = Some y' -> y' < y.
Proof.
  induction pts as [|[a ya] pts IH]; intros x0 x x' y y' R F E L X (z & Hz & Lz) E1 E2; [discriminate|].
  injection E as <-. cbn [fst] in L. destruct pts as [|[b yb] pts].
  - destruct Hz as [<-|[]]. cbn in Lz. exfalso. qc_lra.
  - destruct R as [Ra R]. destruct F as [Fa F]. pose proof (Ra (b, yb) (or_introl eq_refl)) as Hab. pose proof (Fa (b, yb) (or_introl eq_refl)) as Hyab.
    cbn [fst snd] in Hab, Hyab.
    cbn [np_interp] in E1, E2. destruct (Qcltb x' b) eqn:B'.
    + apply Qcltb_lt in B'. rewrite (proj2 (Qcltb_lt x b)) in E1 by qc_lra. injection E1 as <-. injection E2 as <-. now apply line_strict.
    + apply Qcltb_ge in B'. destruct (Qcltb x b) eqn:B.
      * apply Qcltb_lt in B. injection E1 as <-. pose proof (line_below a ya b yb x Hab Hyab B). pose proof (np_interp_top pts (b, yb) x' y' R F B' E2). cbn [snd] in *. qc_lra.
      * apply Qcltb_ge in B. apply (IH (b, yb) x x' y y'); auto. exists z. split; auto. destruct Hz as [<-|Hz]; auto. cbn [fst] in Lz. exfalso. qc_lra.
Qed.

(** larger abscissas have strictly smaller values, inside the range *)
Lemma falls : forall pts x x' y y', rising pts -> falling pts -> in_range pts x -> in_range pts x' -> x < x' ->
  interpolates pts x y -> interpolates pts x' y' -> y' < y.
Proof.
  intros pts x x' y y' R F [(a & ya & Ha & La) _] [_ (b & yb & Hb & Lb)] X I I'.
  destruct pts as [|[x0 y0] pts]; [destruct Ha|]. apply interpolates_np in I; auto. apply interpolates_np in I'; auto.
  refine (np_interp_falls ((x0, y0) :: pts) (x0, y0) x x' y y' R F eq_refl _ X _ I I'); [|exists (b, yb); auto].
  cbn [fst]. destruct Ha as [E|Ha]; [injection E as <- <-; auto|]. destruct R as [R _]. apply R in Ha. cbn [fst] in Ha. qc_lra.
Qed.

Definition swap (p : Qc * Qc) : Qc * Qc := (snd p, fst p).
Lemma falling_pairs : forall pts a ya b yb, rising pts -> falling pts -> In (a, ya) pts -> In (b, yb) pts -> (a < b <-> yb < ya) /\ (a = b <-> ya = yb).
Proof.
  assert (forall pts a ya b yb, rising pts -> falling pts -> In (a, ya) pts -> In (b, yb) pts -> (a = b /\ ya = yb) \/ (a < b /\ yb < ya) \/ (b < a /\ ya < yb)) as H.
  { induction pts as [|p pts IH]; intros a ya b yb R F Ha Hb; [destruct Ha|]. destruct R as [R1 R]. destruct F as [F1 F]. destruct Ha as [->|Ha], Hb as [E|Hb].
    - injection E as <- <-. auto.
    - right. left. split; [apply (R1 _ Hb)|apply (F1 _ Hb)].
    - subst p. right. right. split; [apply (R1 _ Ha)|apply (F1 _ Ha)].
    - eauto. }
  intros pts a ya b yb R F Ha Hb. destruct (H _ _ _ _ _ R F Ha Hb) as [[-> ->]|[[A B]|[A B]]].
  - repeat split; auto; intros X; exfalso; qc_lra.
  - repeat split; auto; intros X; exfalso; subst; qc_lra.
  - repeat split; auto; intros X; exfalso; subst; qc_lra.
Qed.

(** the inverse of a falling line *)
Lemma inverse : forall pts x y, rising pts -> falling pts -> interpolates (map swap pts) y x -> interpolates pts x y.
Proof.
  intros pts x y R F [H|(a & ya & b & yb & Ha & Hb & L1 & L2 & N & ->)].
  - left. apply in_map_iff in H as ([u v] & E & H). unfold swap in E. cbn in E. injection E as <- <-. exact H.
  - apply in_map_iff in Ha as ([u v] & E & Ha). unfold swap in E. cbn in E. injection E as <- <-.
    apply in_map_iff in Hb as ([u' v'] & E & Hb). unfold swap in E. cbn in E. injection E as <- <-.
    assert (u' < u) as Lu by (apply (falling_pairs pts u' v' u v); auto; qc_lra).
    assert (v' - v <> 0) as Nz by (apply lt_neq; qc_lra). assert (u - u' <> 0) as Nu by (apply lt_neq; qc_lra).
    assert (0 < (y - v) / (v' - v)) as P1 by (apply div_pos; qc_lra). assert (0 < (v' - y) / (v' - v)) as P2 by (apply div_pos; qc_lra).
    assert ((y - v) / (v' - v) = 1 - (v' - y) / (v' - v)) as P3 by (field; auto).
    right. exists u', v', u, v. split; auto. split; auto. split; [|split; [|split]].
    + replace (u + (u' - u) * ((y - v) / (v' - v))) with (u' + (u - u') * ((v' - y) / (v' - v))) by (field; auto).
      assert (0 < (u - u') * ((v' - y) / (v' - v))) by (apply mul_pos; [qc_lra|auto]). qc_lra.
    + assert (0 < (u - u') * ((y - v) / (v' - v))) as X by (apply mul_pos; [qc_lra|auto]).
      replace (u + (u' - u) * ((y - v) / (v' - v))) with (u - (u - u') * ((y - v) / (v' - v))) by ring. qc_lra.
    + intros c yc Hc. destruct (N yc c) as [X|X].
      * apply in_map_iff. exists (c, yc). auto.
      * right. destruct (falling_pairs pts c yc u v R F Hc Ha) as [A B]. destruct (Qclt_le_dec c u) as [C|C]; auto. apply A in C. exfalso. qc_lra.
      * left. destruct (falling_pairs pts u' v' c yc R F Hb Hc) as [A B]. destruct (Qclt_le_dec u' c) as [C|C]; auto. apply A in C. exfalso. qc_lra.
    + field. split; auto. 
Qed.

(** Proofs about pump and compressor systems: the points of a setting. *)
From Coq Require Import PeanoNat String.
From Verif Require Import Attributes_Proofs Attributes_Proofs2 QcTac Num Time_Model Time_Spec Time_Proofs Time_Proofs2 Units_Model Rates_Model Rates_Spec Rates_Proofs Rates_Proofs3 Rates_Proofs4
  Base BaseLemmas Expr_Model Expr_Spec Expr_Proofs Vars_Model Vars_Proofs Input_Model Interp_Model Energy_Model Energy_Proofs Energy_Proofs2 Energy_Proofs3 Export_Proofs2 Emitters_Proofs5 Emitters_Spec
  Consumer_Model Consumer_Spec Consumer_Proofs Consumer_Proofs2 Consumer_Proofs3 Consumer_Proofs4 Consumer_Proofs5 Consumer_Proofs6 Consumer_Proofs7 Consumer_Proofs8 Consumer_Proofs9
  Equipment_Model Equipment_Spec Equipment_Proofs Equipment_Proofs2 Equipment_Proofs3 System_Model System_Spec System_Proofs System_Proofs2 System_Proofs3 System_Proofs4 Systems_Model Systems_Spec Systems_Proofs Systems_Proofs2 Systems_Proofs3 Systems_Proofs4 Systems_Proofs5.
Local Open Scope list_scope.
Local Open Scope nat_scope.

Lemma grid_val : forall count n vs i j c k, grid count n vs -> i < j -> j <= n -> c < count -> k < j - i -> val (map (slice i j) vs) c k = cell vs c (i + k).
Proof.
  intros count n vs i j c k G L1 L2 Lc Lk. unfold val. assert (nth_error (map (slice i j) vs) c = Some (slice i j (nth c vs []))) as E by (apply (slice_cell _ _ _ _ _ _ _ G); auto).
  rewrite (nth_error_nth _ _ _ E). apply nth_error_nth. apply (slice_value _ _ _ _ _ _ _ _ G Lc L1 L2). auto.
Qed.
Lemma col_nth : forall count n vs c k, grid count n vs -> c < count -> nth c (col k vs) 0%Qc = cell vs c k.
Proof. intros count n vs c k G Lc. apply nth_error_nth. apply (col_cell _ _ _ _ _ _ G). auto. Qed.
Lemma col_length : forall k vs, List.length (col k vs) = List.length vs.
Proof. intros k vs. apply map_length. Qed.
Lemma col_slice : forall count n vs i j k, grid count n vs -> i < j -> j <= n -> k < j - i -> col k (map (slice i j) vs) = col (i + k) vs.
Proof.
  intros count n vs i j k G L1 L2 Lk. unfold col. rewrite map_map. apply map_ext_in. intros l I. apply nth_error_nth. rewrite nth_error_slice. destruct (Nat.ltb_spec k (j - i)) as [_|]; [|lia].
  apply nth_error_nth'. destruct G as [_ G]. rewrite (G l I). lia.
Qed.
Lemma at_cell : forall count n vs c k x, grid count n vs -> k < n -> at_ (map (map (@Some Qc)) vs) c k x <-> c < count /\ x = Some (cell vs c k).
Proof.
  intros count n vs c k x G Lk. unfold at_. split.
  - intros (v & E & K). rewrite nth_error_map in E. destruct (nth_error vs c) as [l|] eqn:El; [|discriminate]. injection E as <-. split; [destruct G as [G _]; rewrite <- G; apply nth_error_Some; congruence|].
    rewrite nth_error_map in K. destruct (nth_error l k) as [q|] eqn:Eq; [|discriminate]. injection K as <-. unfold cell. now rewrite (nth_error_nth _ _ _ El), (nth_error_nth _ _ _ Eq).
  - intros [Lc ->]. pose proof (grid_nth _ _ _ _ G Lc) as Ln. exists (map Some (nth c vs [])). split.
    + rewrite nth_error_map. rewrite (nth_error_nth' vs []) by (destruct G; lia). reflexivity.
    + rewrite nth_error_map. rewrite (nth_error_nth' _ 0%Qc) by lia. reflexivity.
Qed.

(** ** A consumer for all inputs, from what a consumer means *)
Definition lift (f : Qc -> Qc -> Qc -> Qc -> System_Spec.point) : point_function :=
  fun x s d y => match x, s, d, y with Some x, Some s, Some d, Some y => f x s d y | _, _, _, _ => mkPoint None None false end.
Definition density_nth (fd : density) (k : nat) : num := match fd with One => Some 1%Qc | Per l => nth k l None end.
Definition total_max (me : meaning) (s d : list num) (fd : density) (k : nat) : num :=
  match nth k s None, nth k d None, density_nth fd k with Some a, Some b, Some y => Some (me_max me a b y) | _, _, _ => None end.
Definition total_point (me : meaning) (x s d : list num) (fd : density) (k : nat) : System_Spec.point :=
  lift (me_point me) (nth k x None) (nth k s None) (nth k d None) (density_nth fd k).
Definition total (name : string) (me : meaning) : consumer := mkConsumer name
  (fun s d fd => Ok (map (total_max me s d fd) (seq 0 (List.length s))))
  (fun x s d fd => let ks := seq 0 (List.length x) in let p := total_point me x s d fd in
     Ok (mkER (map (fun k => pt_energy (p k)) ks) (if me_power me then Some (map (fun k => pt_power (p k)) ks) else None) (map (fun k => pt_valid (p k)) ks))).
Definition density_value (fd : density) (k : nat) (rho : Qc) : Prop :=
  match fd with One => rho = 1%Qc | Per l => nth_error l k = Some (Some rho) end.
Definition means_all (c : consumer) (me : meaning) : Prop :=
  pointwise c (lift (me_point me)) /\
  (forall n suction discharge fd, List.length suction = n -> List.length discharge = n -> (forall l, fd = Per l -> forall k, k < n -> exists rho, nth_error l k = Some (Some rho)) ->
     exists maxima, c_max_rate c (map Some suction) (map Some discharge) fd = Ok (map Some maxima) /\ List.length maxima = n /\
       forall k s d rho, nth_error suction k = Some s -> nth_error discharge k = Some d -> density_value fd k rho ->
         nth_error maxima k = Some (me_max me s d rho)) /\
  powered c (me_power me).
Lemma nth_map_seq : forall A (f : nat -> A) n k, k < n -> nth_error (map f (seq 0 n)) k = Some (f k).
Proof. intros A f n k L. rewrite nth_error_map, (nth_error_nth' _ 0) by now rewrite seq_length. rewrite seq_nth by exact L. reflexivity. Qed.
Lemma total_means : forall name me, means_all (total name me) me.
Proof.
  intros name me. split; [|split].
  - intros n x s d fd Lx Ls Ld Lf. eexists. split; [reflexivity|]. cbn [er_energy er_power er_valid]. rewrite !map_length, !seq_length, Lx. split; [reflexivity|]. split; [reflexivity|]. split.
    + intros p E. destruct (me_power me); [|discriminate]. injection E as <-. now rewrite map_length, seq_length.
    + intros k a b c y Ka Kb Kc Hy. assert (k < n) as Lk by (rewrite <- Lx; apply nth_error_Some; congruence).
      assert (total_point me x s d fd k = lift (me_point me) a b c y) as E.
      { unfold total_point. rewrite (nth_error_nth _ _ _ Ka), (nth_error_nth _ _ _ Kb), (nth_error_nth _ _ _ Kc). f_equal. destruct fd as [|l]; cbn [density_at density_nth] in *; [now symmetry|]. now apply nth_error_nth. }
      rewrite !nth_map_seq by exact Lk. rewrite E. split; [reflexivity|]. split; [reflexivity|]. intros p Ep. destruct (me_power me); [|discriminate]. injection Ep as <-. rewrite nth_map_seq by exact Lk. now rewrite E.
  - intros n s d fd Ls Ld Lf. cbn [total c_max_rate]. rewrite map_length, Ls.
    assert (forall k, k < n -> exists rho, density_value fd k rho) as Hd. { intros k Lk. destruct fd as [|l]; cbn [density_value]; [eauto|]. now apply (Lf l). }
    set (mx := map (fun k => match density_nth fd k with Some y => me_max me (nth k s 0%Qc) (nth k d 0%Qc) y | None => 0%Qc end) (seq 0 n)).
    assert (forall k rho, density_value fd k rho -> density_nth fd k = Some rho) as Dn. { intros k rho H. destruct fd as [|l]; cbn [density_value density_nth] in *; [now subst|now apply nth_error_nth]. }
    exists mx. split; [|split; [unfold mx; now rewrite map_length, seq_length|]].
    + f_equal. unfold mx. rewrite map_map. apply map_ext_in. intros k I. apply in_seq in I. destruct (Hd k) as (rho & H); [lia|]. unfold total_max. rewrite (Dn k rho H).
      assert (forall l : list Qc, List.length l = n -> nth k (map Some l) None = Some (nth k l 0%Qc)) as Nn. { intros l L. apply nth_error_nth. rewrite nth_error_map, (nth_error_nth' l 0%Qc) by lia. reflexivity. }
      rewrite !Nn by assumption. reflexivity.
    + intros k a b rho Ka Kb H. assert (k < n) as Lk by (rewrite <- Ls; apply nth_error_Some; congruence). unfold mx. rewrite nth_map_seq by exact Lk. rewrite (Dn k rho H). now rewrite (nth_error_nth _ _ _ Ka), (nth_error_nth _ _ _ Kb).
  - intros x s d fd r E. cbn [total c_evaluate] in E. injection E as <-. cbn [er_power]. destruct (me_power me); split; congruence.
Qed.

Section Points.
  Variable pow : Qc -> Qc -> Qc.
  Variables (first : period) (rest : list period) (vars : variables_dict) (vm : variables_map).
  Let ps := first :: rest.
  Let n := List.length ps.
  Variable g : list Qc.
  Variables (m : system_model) (mes : list meaning).
  Variable consumers : list consumer.
  Hypothesis Hm : Forall2 means_all consumers mes.
  Let count := List.length (sy_consumers m).
  Hypothesis Lcons : List.length consumers = count.
  Hypothesis Lc0 : 0 < count.
  Variable s : system_setting.
  Variables rs sv dv rv : list (list Qc).
  Hypothesis Ss : setting_series pow first rest vars vm g m s rs sv dv rv.
  Hypothesis Hx : forall numbers, ss_cross s = Some numbers -> numbers <> [] -> List.length numbers = count /\ forall z, In z numbers -> (0 <= z <= Z.of_nat count)%Z.

  Lemma mes_length : List.length mes = count.
  Proof. pose proof (forall2_length_eq _ _ _ _ _ Hm) as L. congruence. Qed.
  Definition no_meaning : meaning := mkMeaning (fun _ _ _ _ => False) (fun _ _ _ _ => mkPoint None None false) (fun _ _ _ => False) (fun _ _ _ => 0%Qc) false.
  (** the largest rates *)
  Definition maxima : list (list Qc) := map (fun c => map (fun k => me_max (nth c mes no_meaning) (cell sv c k) (cell dv c k) (cell rv c k)) (seq 0 n)) (seq 0 count).
  Lemma maxima_grid : grid count n maxima.
  Proof.
    split; [unfold maxima; now rewrite map_length, seq_length|]. intros l I. apply in_map_iff in I as (c & <- & _). now rewrite map_length, seq_length.
  Qed.
  Lemma maxima_cell : forall c k me, c < count -> k < n -> nth_error mes c = Some me -> cell maxima c k = me_max me (cell sv c k) (cell dv c k) (cell rv c k).
  Proof.
    intros c k me Lc Lk E. unfold cell at 1, maxima.
    assert (nth_error (map (fun c => map (fun k => me_max (nth c mes no_meaning) (cell sv c k) (cell dv c k) (cell rv c k)) (seq 0 n)) (seq 0 count)) c = Some (map (fun k => me_max (nth c mes no_meaning) (cell sv c k) (cell dv c k) (cell rv c k)) (seq 0 n))) as E1.
    { rewrite nth_error_map. rewrite (nth_error_nth' _ 0) by now rewrite seq_length. rewrite seq_nth by exact Lc. reflexivity. }
    rewrite (nth_error_nth _ _ _ E1). apply nth_error_nth. rewrite nth_error_map. rewrite (nth_error_nth' _ 0) by now rewrite seq_length. rewrite seq_nth by exact Lk. cbn [option_map Nat.add]. now rewrite (nth_error_nth _ _ _ E).
  Qed.
  Lemma density_one : forall c k, sy_pumps m = false -> c < count -> k < n -> cell rv c k = 1%Qc.
  Proof.
    intros c k P Lc Lk. destruct Ss as (_ & _ & _ & Gv & V & _). fold ps in V, Gv. fold n in V, Gv. fold count in Gv. destruct (proj2 (V k (col k rs) (col k sv) (col k dv) (col k rv) Lk)) as (_ & _ & _ & H); [auto|].
    rewrite P in H. rewrite <- (col_nth _ _ _ _ _ Gv Lc). rewrite H. fold count. apply nth_error_nth. now apply nth_error_repeat.
  Qed.

  Section OnPart.
  Variables (i j : nat).
  Hypothesis L1 : i < j.
  Hypothesis L2 : j <= n.
  Let os := part_setting (sy_pumps m) (ss_cross s) rs sv dv rv i j.

  Lemma grids : grid count n rs /\ grid count n sv /\ grid count n dv /\ grid count n rv.
  Proof. destruct Ss as (A & B & D & E & _). auto. Qed.
  Lemma part_complete : complete (length consumers) (j - i) os.
  Proof.
    destruct grids as (Gr & Gs & Gd & Gv). rewrite Lcons. unfold os, part_setting, complete. cbn [os_rates os_suction os_discharge os_density].
    assert (forall v, grid count n v -> length (map (map (@Some Qc)) (map (slice i j) v)) = count) as Ln by (intros v [L _]; now rewrite !map_length).
    assert (forall v l, grid count n v -> In l (map (map (@Some Qc)) (map (slice i j) v)) -> length l = j - i) as Li.
    { intros v l G I. apply in_map_iff in I as (x & <- & I). rewrite map_length. now apply (grid_slice _ _ _ i j G L1 L2). }
    split; [now apply Ln|]. split; [now apply Ln|]. split; [now apply Ln|]. split.
    - intros d E. destruct (sy_pumps m); [|discriminate]. injection E as <-. split; [now apply Ln|]. intros l I. now apply (Li rv).
    - intros l I. rewrite !in_app_iff in I. destruct I as [I|[I|I]]; [now apply (Li rs)|now apply (Li sv)|now apply (Li dv)].
  Qed.
  Lemma part_maximum : forall c cons d, nth_error consumers c = Some cons -> match os_density os with None => d = One | Some l => exists v, nth_error l c = Some v /\ d = Per v end ->
    c_max_rate cons (map Some (slice i j (nth c sv []))) (map Some (slice i j (nth c dv []))) d = Ok (map Some (slice i j (nth c maxima []))).
  Proof.
    intros c cons d Kc Hd. destruct grids as (Gr & Gs & Gd & Gv). assert (c < count) as Lc. { rewrite <- Lcons. apply nth_error_Some. congruence. }
    destruct (nth_error mes c) as [me|] eqn:Kme; [|apply nth_error_None in Kme; rewrite mes_length in Kme; lia].
    destruct (Forall2_nth2 _ _ _ _ _ _ _ _ Hm Kc Kme) as (_ & Mx & _).
    assert (length (slice i j (nth c sv [])) = j - i) as La by (apply slice_length; rewrite (grid_nth _ _ _ _ Gs Lc); exact L2). assert (length (slice i j (nth c dv [])) = j - i) as Lb by (apply slice_length; rewrite (grid_nth _ _ _ _ Gd Lc); exact L2).
    assert (Lfd : forall l, d = Per l -> forall k, k < j - i -> exists rho, nth_error l k = Some (Some rho)).
    { unfold os, part_setting in Hd. cbn [os_density] in Hd. intros l ->. destruct (sy_pumps m); [|discriminate]. destruct Hd as (v & Kv & E). injection E as <-. apply nth_error_In in Kv. apply in_map_iff in Kv as (x & <- & I). intros k Lk. rewrite nth_error_map. rewrite (nth_error_nth' x 0%Qc) by (rewrite (proj2 (grid_slice _ _ _ i j Gv L1 L2) x I); exact Lk). cbn [option_map]. eauto. }
    destruct (Mx (j - i) _ _ d La Lb Lfd) as (mx & E & Lm & V). rewrite E. f_equal. f_equal. apply list_ext_nth. intros k.
    destruct (Nat.ltb_spec k (j - i)) as [Lk|Lk].
    - rewrite (V k (cell sv c (i + k)) (cell dv c (i + k)) (cell rv c (i + k))).
      + symmetry. apply (slice_value _ _ _ _ _ _ _ _ maxima_grid Lc L1 L2). split; [exact Lk|]. symmetry. apply maxima_cell; [exact Lc|lia|exact Kme].
      + apply (slice_value _ _ _ _ _ _ _ _ Gs Lc L1 L2). auto.
      + apply (slice_value _ _ _ _ _ _ _ _ Gd Lc L1 L2). auto.
      + unfold os, part_setting in Hd. cbn [os_density] in Hd. destruct (sy_pumps m) eqn:Ep.
        * destruct Hd as (v & Kv & ->). cbn [density_value]. rewrite nth_error_map in Kv. destruct (nth_error (map (slice i j) rv) c) as [x|] eqn:Ex; [|discriminate]. injection Kv as <-. apply (slice_cell _ _ _ _ _ _ _ Gv) in Ex as [_ ->].
          rewrite nth_error_map. rewrite (proj2 (slice_value _ _ _ _ _ _ k (cell rv c (i + k)) Gv Lc L1 L2)) by auto. reflexivity.
        * subst d. cbn [density_value]. apply density_one; [exact Ep|exact Lc|lia].
    - rewrite (proj2 (nth_error_None _ _)) by lia. symmetry. apply nth_error_None. rewrite slice_length; [lia|]. rewrite (grid_nth _ _ _ _ maxima_grid Lc). exact L2.
  Qed.
  Lemma sent_passed : forall numbers c k, (forall z, In z numbers -> (0 <= z <= Z.of_nat count)%Z) -> c < count -> k < j - i ->
    sent numbers (map (slice i j) rs) (map (slice i j) maxima) (map (slice i j) dv) c k = passed_on numbers (col (i + k) rs) (col (i + k) maxima) (col (i + k) dv) c.
  Proof.
    intros numbers c k Hz Lc Lk. destruct grids as (Gr & Gs & Gd & Gv). unfold sent, passed_on. destruct (nth c numbers 0%Z) as [|q|q] eqn:Ez; try reflexivity.
    assert (Pos.to_nat q - 1 < count) as Lq.
    { destruct (Nat.lt_ge_cases c (length numbers)) as [Lz|Lz]; [|rewrite nth_overflow in Ez by exact Lz; discriminate]. assert (In (Z.pos q) numbers) as I by (rewrite <- Ez; now apply nth_In). apply Hz in I. pose proof (Pos2Nat.is_pos q). lia. }
    rewrite !(grid_val count n _ i j _ k) by first [assumption|exact maxima_grid]. rewrite !(col_nth count n) by first [assumption|exact maxima_grid]. reflexivity.
  Qed.
  Lemma cross_part : exists after, rates_after_cross_over consumers os = Ok (map (map Some) after) /\ grid count (j - i) after /\
    forall k, k < j - i -> crossed_over s (col (i + k) rs) (col (i + k) maxima) (col (i + k) dv) (col k after).
  Proof.
    destruct grids as (Gr & Gs & Gd & Gv).
    assert (rates_after_cross_over consumers os = Ok (map (map Some) (map (slice i j) rs)) -> (forall k, crossed_over s (col (i + k) rs) (col (i + k) maxima) (col (i + k) dv) (col (i + k) rs)) ->
      exists after, rates_after_cross_over consumers os = Ok (map (map Some) after) /\ grid count (j - i) after /\ forall k, k < j - i -> crossed_over s (col (i + k) rs) (col (i + k) maxima) (col (i + k) dv) (col k after)) as Plain.
    { intros E H. exists (map (slice i j) rs). split; [exact E|]. split; [now apply (grid_slice count n)|]. intros k Lk. rewrite (col_slice count n rs i j k Gr L1 L2 Lk). apply H. }
    assert (ss_cross s = None \/ ss_cross s = Some [] \/ exists z zs, ss_cross s = Some (z :: zs)) as [Ex|[Ex|(z & zs & Ex)]] by (clear; destruct (ss_cross s) as [[|z zs]|]; eauto).
    1,2: (apply Plain; [unfold rates_after_cross_over, os, part_setting; cbn [os_cross]; rewrite Ex; reflexivity|intros k; unfold crossed_over; rewrite Ex; reflexivity]).
    clear Plain. unfold crossed_over. rewrite Ex. destruct (Hx (z :: zs) Ex) as [Lz Hz]; [discriminate|]. set (numbers := z :: zs) in *.
    destruct (cross_over_proof count (j - i) consumers os numbers (map (slice i j) rs) (map (slice i j) maxima) (map (slice i j) dv) Lc0) as (after & E & La & Ha & V).
    { split; [rewrite <- Lcons; exact part_complete|]. split; [exact Lcons|]. split; [reflexivity|]. split; [reflexivity|]. split; [exact Ex|]. split; [exact Lz|]. split; [exact Hz|].
      intros c cons suction Kc Ks. assert (c < count) as Lc. { rewrite <- Lcons. apply nth_error_Some. congruence. }
      assert (forall v : list (list Qc), grid count n v -> nth c (map (slice i j) v) [] = slice i j (nth c v [])) as Nv. { intros v G. apply nth_error_nth. apply (slice_cell _ _ _ _ _ _ _ G). auto. }
      rewrite (Nv maxima maxima_grid), (Nv dv Gd). split; [apply slice_length; rewrite (grid_nth _ _ _ _ maxima_grid Lc); exact L2|]. intros d Hd.
      unfold os, part_setting in Ks. cbn [os_suction] in Ks. rewrite nth_error_map in Ks. destruct (nth_error (map (slice i j) sv) c) as [x|] eqn:Ek; [|discriminate]. injection Ks as <-. apply (slice_cell _ _ _ _ _ _ _ Gs) in Ek as [_ ->].
      now apply part_maximum. }
    exists after. split; [exact E|]. assert (grid count (j - i) after) as Ga by (split; assumption). split; [exact Ga|]. intros k Lk. rewrite !col_length. destruct Gr as [Gr1 Gr2]. assert (grid count n rs) as Gr by (split; assumption). rewrite Gr1, La. split; [reflexivity|].
    intros c Lc. rewrite (col_nth _ _ _ _ _ Ga Lc). specialize (V c k Lc Lk). change (val after c k) with (cell after c k) in V. rewrite V. rewrite (grid_val count n rs i j c k Gr L1 L2 Lc Lk), (col_nth _ _ _ _ _ Gr Lc). rewrite (sent_passed numbers c k Hz Lc Lk). f_equal.
    unfold received. f_equal. apply map_ext_in. intros c' I. apply in_seq in I. unfold sends_to. rewrite (sent_passed numbers c' k Hz) by lia. reflexivity.
  Qed.

  Definition vec_points (after : list (list Qc)) (k : nat) (pts : list System_Spec.point) : Prop :=
    length pts = count /\ forall c me, nth_error mes c = Some me ->
      nth_error pts c = Some (me_point me (cell after c k) (cell sv c (i + k)) (cell dv c (i + k)) (cell rv c (i + k))).
  Lemma points_vec : forall after k pts, grid count (j - i) after -> k < j - i -> points os (map (map Some) after) k (map (fun me => lift (me_point me)) mes) pts <-> vec_points after k pts.
  Proof.
    intros after k pts Ga Lk. destruct grids as (Gr & Gs & Gd & Gv). pose proof mes_length as Lm. pose proof (grid_slice _ _ _ i j Gs L1 L2) as Gs'. pose proof (grid_slice _ _ _ i j Gd L1 L2) as Gd'. pose proof (grid_slice _ _ _ i j Gv L1 L2) as Gv'.
    assert (forall v c, grid count n v -> c < count -> cell (map (slice i j) v) c k = cell v c (i + k)) as Cs by (intros v c G Lc; exact (grid_val count n v i j c k G L1 L2 Lc Lk)).
    unfold points, vec_points. rewrite map_length, Lm. split; intros [L H]; (split; [exact L|]).
    - intros c me Kc. assert (c < count) as Lc by (rewrite <- Lm; apply nth_error_Some; congruence). destruct (nth_error pts c) as [p|] eqn:Ep; [|apply nth_error_None in Ep; lia].
      destruct (H c (lift (me_point me)) p) as (x & a & b & y & Hx' & Ha & Hb & Hy & ->); [now rewrite nth_error_map, Kc|exact Ep|].
      unfold os, part_setting in Ha, Hb, Hy. cbn [os_suction os_discharge os_density] in Ha, Hb, Hy. apply (at_cell _ _ _ _ _ _ Ga Lk) in Hx' as [_ ->]. apply (at_cell _ _ _ _ _ _ Gs' Lk) in Ha as [_ ->]. apply (at_cell _ _ _ _ _ _ Gd' Lk) in Hb as [_ ->].
      rewrite (Cs sv c Gs Lc), (Cs dv c Gd Lc). f_equal. f_equal. destruct (sy_pumps m) eqn:Epm.
      + apply (at_cell _ _ _ _ _ _ Gv' Lk) in Hy as [_ ->]. now rewrite (Cs rv c Gv Lc).
      + rewrite Hy. rewrite density_one; [reflexivity|exact Epm|exact Lc|lia].
    - intros c f p Kf Kp. rewrite nth_error_map in Kf. destruct (nth_error mes c) as [me|] eqn:Kc; [|discriminate]. injection Kf as <-. assert (c < count) as Lc by (rewrite <- Lm; apply nth_error_Some; congruence).
      rewrite (H c me Kc) in Kp. injection Kp as <-. exists (Some (cell after c k)), (Some (cell sv c (i + k))), (Some (cell dv c (i + k))), (Some (cell rv c (i + k))). unfold os, part_setting. cbn [os_suction os_discharge os_density].
      split; [apply (at_cell _ _ _ _ _ _ Ga Lk); auto|]. split; [apply (at_cell _ _ _ _ _ _ Gs' Lk); split; [exact Lc|]; now rewrite (Cs sv c Gs Lc)|]. split; [apply (at_cell _ _ _ _ _ _ Gd' Lk); split; [exact Lc|]; now rewrite (Cs dv c Gd Lc)|]. split; [|reflexivity].
      destruct (sy_pumps m) eqn:Epm; [apply (at_cell _ _ _ _ _ _ Gv' Lk); split; [exact Lc|]; now rewrite (Cs rv c Gv Lc)|]. rewrite density_one; [reflexivity|exact Epm|exact Lc|lia].
  Qed.
  Lemma crossed_unique : forall xs mx ds ys ys', crossed_over s xs mx ds ys -> crossed_over s xs mx ds ys' -> ys = ys'.
  Proof.
    intros xs mx ds ys ys'. unfold crossed_over. destruct (ss_cross s) as [[|z zs]|]; try (intros -> ->; reflexivity). intros [A1 A2] [B1 B2]. apply (nth_ext ys ys' 0%Qc 0%Qc); [congruence|]. intros c Lc. rewrite A2, B2 by lia. reflexivity.
  Qed.
  Lemma inputs_vec : forall after k ys ss ds rhos, grid count (j - i) after -> k < j - i -> crossed_over s (col (i + k) rs) (col (i + k) maxima) (col (i + k) dv) (col k after) ->
    setting_inputs pow vars n g m mes s (i + k) ys ss ds rhos <-> ys = col k after /\ ss = col (i + k) sv /\ ds = col (i + k) dv /\ rhos = col (i + k) rv.
  Proof.
    intros after k ys ss ds rhos Ga Lk Hcr. destruct grids as (Gr & Gs & Gd & Gv). pose proof mes_length as Lm. destruct Ss as (_ & _ & _ & _ & V & _). fold ps in V. fold n in V. assert (i + k < n) as Lik by lia.
    assert (forall v c, grid count n v -> c < count -> nth_error (col (i + k) v) c = Some (cell v c (i + k))) as Cv by (intros v c G Lc; apply (col_cell _ _ _ _ _ _ G); auto).
    unfold setting_inputs. split.
    - intros (xs & mx & A & (M1 & M2) & X). apply (V (i + k) xs ss ds rhos Lik) in A as (-> & -> & -> & ->).
      assert (mx = col (i + k) maxima) as ->.
      { apply list_ext_nth. intros c. destruct (nth_error mes c) as [me|] eqn:Kc.
        - assert (c < count) as Lc by (rewrite <- Lm; apply nth_error_Some; congruence). rewrite (M2 c me (cell sv c (i + k)) (cell dv c (i + k)) (cell rv c (i + k)) Kc) by now apply Cv. rewrite (Cv maxima c maxima_grid Lc). now rewrite (maxima_cell c (i + k) me Lc Lik Kc).
        - apply nth_error_None in Kc. rewrite (proj2 (nth_error_None mx c)) by lia. symmetry. apply nth_error_None. rewrite col_length. rewrite (proj1 maxima_grid). lia. }
      split; [exact (crossed_unique _ _ _ _ _ X Hcr)|auto].
    - intros (-> & -> & -> & ->). exists (col (i + k) rs), (col (i + k) maxima). split; [apply V; auto|]. split; [|exact Hcr].
      split; [rewrite col_length, (proj1 maxima_grid); congruence|]. intros c me p d rho Kc Kp Kd Kr. assert (c < count) as Lc by (rewrite <- Lm; apply nth_error_Some; congruence).
      rewrite (Cv sv c Gs Lc) in Kp. rewrite (Cv dv c Gd Lc) in Kd. rewrite (Cv rv c Gv Lc) in Kr. injection Kp as <-. injection Kd as <-. injection Kr as <-. rewrite (Cv maxima c maxima_grid Lc). now rewrite (maxima_cell c (i + k) me Lc Lik Kc).
  Qed.
  Lemma setting_vec : forall after k pts, grid count (j - i) after -> k < j - i -> crossed_over s (col (i + k) rs) (col (i + k) maxima) (col (i + k) dv) (col k after) ->
    setting_points pow vars n g m mes s (i + k) pts <-> vec_points after k pts.
  Proof.
    intros after k pts Ga Lk Hcr. destruct grids as (Gr & Gs & Gd & Gv). pose proof mes_length as Lm. destruct Ss as (_ & _ & _ & _ & V & _). fold ps in V. fold n in V. assert (i + k < n) as Lik by lia.
    assert (forall v c, grid count n v -> c < count -> nth_error (col (i + k) v) c = Some (cell v c (i + k))) as Cv by (intros v c G Lc; apply (col_cell _ _ _ _ _ _ G); auto).
    assert (forall c, c < count -> nth_error (col k after) c = Some (cell after c k)) as Ca by (intros c Lc; apply (col_cell _ _ _ _ _ _ Ga); auto).
    assert (forall ys ss ds rhos, setting_inputs pow vars n g m mes s (i + k) ys ss ds rhos <-> ys = col k after /\ ss = col (i + k) sv /\ ds = col (i + k) dv /\ rhos = col (i + k) rv) as Si by (intros; now apply inputs_vec).
    unfold setting_points, vec_points. split.
    - intros (ys & ss & ds & rhos & A & P1 & P2). apply Si in A as (-> & -> & -> & ->). split; [congruence|]. intros c me Kc. assert (c < count) as Lc by (rewrite <- Lm; apply nth_error_Some; congruence). apply (P2 c me); auto.
    - intros [P1 P2]. exists (col k after), (col (i + k) sv), (col (i + k) dv), (col (i + k) rv). split; [apply Si; auto|]. split; [congruence|].
      intros c me y p d rho Kc Ky Kp Kd Kr. assert (c < count) as Lc by (rewrite <- Lm; apply nth_error_Some; congruence).
      rewrite (Cv sv c Gs Lc) in Kp. rewrite (Cv dv c Gd Lc) in Kd. rewrite (Cv rv c Gv Lc) in Kr. rewrite (Ca c Lc) in Ky. injection Kp as <-. injection Kd as <-. injection Kr as <-. injection Ky as <-. now apply P2.
  Qed.
  Lemma points_setting : exists rates, rates_after_cross_over consumers os = Ok rates /\ forall k pts, k < j - i -> points os rates k (map (fun me => lift (me_point me)) mes) pts <-> setting_points pow vars n g m mes s (i + k) pts.
  Proof.
    destruct cross_part as (after & E & Ga & X). exists (map (map Some) after). split; [exact E|]. intros k pts Lk. rewrite (setting_vec after k pts Ga Lk (X k Lk)). now apply points_vec.
  Qed.
  End OnPart.
End Points.

(** What the points of a compressor chart mean, independently of how they are computed. *)
From Verif Require Import QcTac Base Interp_Spec Chart_Model Chart_Spec Compressor_Model.
Local Open Scope list_scope.
Local Open Scope Qc_scope.

(** a chart: proper curves without repeated rates, in order of speed *)
Definition proper_chart (cs : list curve) : Prop :=
  cs <> [] /\ (forall c, In c cs -> proper_curve c /\ NoDup (cv_rate c)) /\ StronglySorted Qclt (map cv_speed cs).

(** the points of a curve with the smallest and with the largest rate *)
Definition left_end (c : curve) (p : Qc * Qc * Qc) : Prop :=
  In p (cv_points c) /\ forall q, In q (cv_points c) -> p_rate p <= p_rate q.
Definition right_end (c : curve) (p : Qc * Qc * Qc) : Prop :=
  In p (cv_points c) /\ forall q, In q (cv_points c) -> p_rate q <= p_rate p.

(** [y] is the quantity [f] of the end points at speed [s], linear between the speeds of the curves *)
Definition across (ends : curve -> Qc * Qc * Qc -> Prop) (f : Qc * Qc * Qc -> Qc) (cs : list curve) (s y : Qc) : Prop :=
  exists data, Forall2 (fun c d => fst d = cv_speed c /\ exists p, ends c p /\ snd d = f p) cs data /\ value_at data s y.
(** the smallest and the largest rate at a speed *)
Definition smallest_rate (cs : list curve) (s r : Qc) : Prop := across left_end p_rate cs s r.
Definition largest_rate (cs : list curve) (s r : Qc) : Prop := across right_end p_rate cs s r.

(** [s] lies within the speeds of the chart *)
Definition within_speeds (cs : list curve) (s : Qc) : Prop :=
  (exists c, In c cs /\ cv_speed c <= s) /\ (exists c, In c cs /\ s <= cv_speed c).
Definition lowest_speed (cs : list curve) (s : Qc) : Prop :=
  (exists c, In c cs /\ cv_speed c = s) /\ forall c, In c cs -> s <= cv_speed c.
(** the machine asked for [speed] runs at [s]: at that speed, or at the lowest one if it may be throttled *)
Definition runs_at (cs : list curve) (choke : bool) (speed s : Qc) : Prop :=
  (s = speed /\ within_speeds cs s) \/ (choke = true /\ lowest_speed cs s /\ speed < s).

(** the fraction [w] of the way from [a] to [b] *)
Definition mix (w a b : Qc) : Qc := a + w * (b - a).

(** [y] is the quantity [f] of the chart at speed [s] and rate [q]: on a curve, or between two neighbouring curves on the
    straight line between the points that lie at the same fraction [t] of the rate range of either *)
Definition quantity (f : Qc * Qc * Qc -> Qc) (c : curve) : list (Qc * Qc) := map (fun p => (p_rate p, f p)) (cv_points c).
Definition on_chart (f : Qc * Qc * Qc -> Qc) (cs : list curve) (s q y : Qc) : Prop :=
  (exists c, In c cs /\ cv_speed c = s /\ value_at (quantity f c) q y) \/
  (exists before c1 c2 after w t p1 p1' p2 p2' y1 y2,
     cs = before ++ c1 :: c2 :: after /\ 0 < w /\ w < 1 /\ s = mix w (cv_speed c1) (cv_speed c2) /\
     0 <= t /\ t <= 1 /\ left_end c1 p1 /\ right_end c1 p1' /\ left_end c2 p2 /\ right_end c2 p2' /\
     q = mix w (mix t (p_rate p1) (p_rate p1')) (mix t (p_rate p2) (p_rate p2')) /\
     value_at (quantity f c1) (mix t (p_rate p1) (p_rate p1')) y1 /\
     value_at (quantity f c2) (mix t (p_rate p2) (p_rate p2')) y2 /\ y = mix w y1 y2).

(** what the flag of a point says about the speed and the rate that were asked for ([smallest_flow]: a rate up to it counts
    as no flow) *)
Definition flagged (smallest_flow : Qc) (cs : list curve) (choke : bool) (speed rate : Qc) (f : area_flag) : Prop :=
  match f with
  | NoFlowRate => rate <= smallest_flow /\ exists s, runs_at cs choke speed s
  | InternalPoint =>
      smallest_flow < rate /\ within_speeds cs speed /\
      exists lo hi, smallest_rate cs speed lo /\ largest_rate cs speed hi /\ lo <= rate /\ rate <= hi
  | BelowMinimumFlowRate =>
      smallest_flow < rate /\ within_speeds cs speed /\ exists lo, smallest_rate cs speed lo /\ rate < lo
  | AboveMaximumFlowRate =>
      smallest_flow < rate /\ within_speeds cs speed /\ exists hi, largest_rate cs speed hi /\ hi < rate
  | AboveMaximumSpeed => forall c, In c cs -> cv_speed c < speed
  | BelowMinimumSpeed =>
      exists s, lowest_speed cs s /\ speed < s /\
        (choke = false \/ (smallest_flow < rate /\
           exists lo hi, smallest_rate cs s lo /\ largest_rate cs s hi /\ lo <= rate /\ rate <= hi))
  | BelowMinimumSpeedAndFlowRate =>
      choke = true /\ smallest_flow < rate /\ exists s lo, lowest_speed cs s /\ speed < s /\ smallest_rate cs s lo /\ rate < lo
  | BelowMinimumSpeedAboveMaximumFlowRate =>
      choke = true /\ smallest_flow < rate /\ exists s hi, lowest_speed cs s /\ speed < s /\ largest_rate cs s hi /\ hi < rate
  end.

(** everything a chart can answer: the speed is out of reach; or the point is inside (the rate raised to the smallest one if
    need be); or the rate is outside, where the values of the nearest end of the curves are given *)
Definition answer (cs : list curve) (speed rate : Qc) (choke asv : bool) (r : chart_point) : Prop :=
  (cp_valid r = false /\ (forall s, ~ runs_at cs choke speed s) /\ cp_head r = None /\ cp_eff r = None) \/
  (exists s lo hi, runs_at cs choke speed s /\ smallest_rate cs s lo /\ largest_rate cs s hi /\
     exists h e, cp_head r = Some h /\ cp_eff r = Some e /\
     ((cp_valid r = true /\ rate <= hi /\ (asv = true \/ lo <= rate) /\
       on_chart p_head cs s (Qcmax lo rate) h /\ on_chart p_eff cs s (Qcmax lo rate) e) \/
      (cp_valid r = false /\ hi < rate /\ across right_end p_head cs s h /\ across right_end p_eff cs s e) \/
      (cp_valid r = false /\ rate < lo /\ asv = false /\ across left_end p_head cs s h /\ across left_end p_eff cs s e))).

(** ** the capacity of a chart in terms of rate and head *)
(** the slowest and the fastest curve *)
Definition slowest (cs : list curve) (c : curve) : Prop := hd_error cs = Some c.
Definition fastest (cs : list curve) (c : curve) : Prop := last_opt cs = Some c.
(** [m] is the rate at [head] on the line from the left end of the slowest curve to the left end of the fastest one, which
    goes on straight up and down *)
Definition flow_line (cs : list curve) (head m : Qc) : Prop :=
  exists c0 c1 p0 p1, slowest cs c0 /\ fastest cs c1 /\ left_end c0 p0 /\ left_end c1 p1 /\
    ((head < p_head p0 /\ m = p_rate p0) \/ (p_head p1 <= head /\ m = p_rate p1) \/
     (p_head p0 <= head /\ head < p_head p1 /\
      m = mix ((head - p_head p0) / (p_head p1 - p_head p0)) (p_rate p0) (p_rate p1))).
(** [k] is the smallest head at [rate]: on the slowest curve, and to the right of it on the line to the right end of the fastest
    curve *)
Definition least_head (cs : list curve) (rate k : Qc) : Prop :=
  exists c0 c1 p0 p1, slowest cs c0 /\ fastest cs c1 /\ right_end c0 p0 /\ right_end c1 p1 /\
    ((p_rate p0 < p_rate p1 /\ value_at (quantity p_head c0 ++ [(p_rate p1, p_head p1)]) rate k) \/
     (p_rate p1 <= p_rate p0 /\ value_at (quantity p_head c0) rate k)).
(** [h] is the greatest head at [rate]: on the fastest curve *)
Definition greatest_head (cs : list curve) (rate h : Qc) : Prop :=
  exists c, fastest cs c /\ value_at (quantity p_head c) rate h.
(** [r] is the largest rate of the fastest curve *)
Definition end_of_chart (cs : list curve) (r : Qc) : Prop := exists c p, fastest cs c /\ right_end c p /\ r = p_rate p.

(** a chart whose fastest curve falls, and whose left ends go up and to the right with the speed *)
Definition regular_chart (cs : list curve) : Prop :=
  proper_chart cs /\
  (forall c, fastest cs c -> StronglySorted (fun a b => b < a) (cv_head c)) /\
  (forall c0 c1 p0 p1, slowest cs c0 -> fastest cs c1 -> left_end c0 p0 -> left_end c1 p1 ->
     p_head p0 <= p_head p1 /\ p_rate p0 <= p_rate p1).

(** ** the control margin *)
(** [c'] is [c] without the fraction [m] of its range of rates next to its smallest rate *)
Definition trimmed (m : Qc) (c c' : curve) : Prop :=
  cv_speed c' = cv_speed c /\
  exists p q p' q', left_end c p /\ right_end c q /\ left_end c' p' /\ right_end c' q' /\
    p_rate p' = mix m (p_rate p) (p_rate q) /\ q' = q /\
    forall x y, p_rate p' <= x ->
      (value_at (quantity p_head c) x y <-> value_at (quantity p_head c') x y) /\
      (value_at (quantity p_eff c) x y <-> value_at (quantity p_eff c') x y).

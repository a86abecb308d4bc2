(** What a sampled compressor is meant to compute, independently of how. *)
From Coq Require Import PeanoNat.
From Verif Require Import QcTac Base Num Interp_Model Interp_Spec Sampled_Model.
Local Open Scope list_scope.
Local Open Scope Qc_scope.

(** ** The table.  A column varies when it holds two different values. *)
Definition column_varies (c : option (list Qc)) : Prop := exists l x y, c = Some l /\ In x l /\ In y l /\ x <> y.
(** a column that holds the same value everywhere *)
Definition column_is (c : option (list Qc)) (v : Qc) : Prop := exists l, c = Some l /\ l <> [] /\ forall x, In x l -> x = v.
(** The table is acceptable: some variable, columns of one length, nothing negative *)
Definition acceptable (s : samples) : Prop :=
  (exists v l, sm_column s v = Some l /\ l <> []) /\
  (forall c, In c [sm_rate s; sm_ps s; sm_pd s; sm_power s] -> forall l, c = Some l -> List.length l = List.length (sm_usage s)) /\
  (forall c, In c [Some (sm_usage s); sm_rate s; sm_ps s; sm_pd s; sm_power s] -> forall l x, c = Some l -> In x l -> 0 <= x).

(** ** A request in one period.  The rate that is looked up is the requested one, reduced by 1e-15 *)
Definition tiny : Qc := qc 1 1000000000000000.
Definition requested (series : option (list Qc)) (k : nat) (x : Qc) : Prop :=
  exists l, series = Some l /\ nth_error l k = Some x.
(** the machine is off: no flow (a flow of up to 1e-15 counts as none) *)
Definition off (rate : option (list Qc)) (k : nat) : Prop := exists r, requested rate k r /\ r <= tiny.
Definition running (rate : option (list Qc)) (k : nat) : Prop := forall r, requested rate k r -> tiny < r.
(** within the values of the constant columns: not more than the rate, not less than the suction pressure and not
    more than the discharge pressure; what is not given does not limit *)
Definition within_constants (s : samples) (rate ps pd : option (list Qc)) (k : nat) : Prop :=
  (forall c r, column_is (sm_rate s) c -> requested rate k r -> r - tiny <= c) /\
  (forall c p, column_is (sm_ps s) c -> requested ps k p -> c <= p) /\
  (forall c p, column_is (sm_pd s) c -> requested pd k p -> p <= c).

(** ** One variable: interpolation inside the table; too small a rate or discharge pressure, or too large a suction
    pressure, counts as the nearest one of the table; beyond the other end there is no answer *)
Definition at_lowest (table : list (Qc * Qc)) (u : num) : Prop :=
  exists a e, In (a, e) table /\ (forall b e', In (b, e') table -> a <= b) /\ u = Some e.
Definition at_highest (table : list (Qc * Qc)) (u : num) : Prop :=
  exists a e, In (a, e) table /\ (forall b e', In (b, e') table -> b <= a) /\ u = Some e.
Definition answer_1d (v : variable) (table : list (Qc * Qc)) (x : Qc) (u : num) : Prop :=
  (in_range table x -> exists e, interpolates table x e /\ u = Some e) /\
  ((forall a e, In (a, e) table -> x < a) -> match v with PS => u = None | RATE | PD => at_lowest table u end) /\
  ((forall a e, In (a, e) table -> a < x) -> match v with PS => at_highest table u | RATE | PD => u = None end).

(** ** Two variables.  The positions between the points of the table: the weighted means of its points *)
Fixpoint weighted (ws vs : list Qc) : Qc :=
  match ws, vs with w :: ws, v :: vs => w * v + weighted ws vs | _, _ => 0 end.
Definition in_hull (pts : list (Qc * Qc)) (x y : Qc) : Prop :=
  exists ws, List.length ws = List.length pts /\ (forall w, In w ws -> 0 <= w) /\ fold_right Qcplus 0 ws = 1 /\
    x = weighted ws (map fst pts) /\ y = weighted ws (map snd pts).

(** The hull the environment computes: its half planes bound exactly these positions; every edge joins two of the
    points and contains all positions on its line; a corner is known under one index *)
Record is_hull (pts : list (Qc * Qc)) (h : hull) : Prop := {
  ih_points : h_points h = pts;
  ih_exact : forall x y, in_hull pts x y <-> forall e, In e (h_edges h) -> e_a e * x + e_b e * y + e_d e <= 0;
  ih_edge : forall e, In e (h_edges h) -> exists px py qx qy,
    nth_error pts (e_from e) = Some (px, py) /\ nth_error pts (e_to e) = Some (qx, qy) /\
    e_a e * px + e_b e * py + e_d e = 0 /\ e_a e * qx + e_b e * qy + e_d e = 0 /\
    forall x y, in_hull pts x y -> e_a e * x + e_b e * y + e_d e = 0 ->
      exists t, 0 <= t /\ t <= 1 /\ x = px + t * (qx - px) /\ y = py + t * (qy - py);
  ih_corner : forall e f i j, In e (h_edges h) -> In f (h_edges h) -> In i [e_from e; e_to e] -> In j [e_from f; e_to f] ->
    nth_error pts i = nth_error pts j -> i = j }.
(** The surface has a value exactly at the positions between the points *)
Definition is_surface (pts : list (Qc * Qc)) (f : Qc -> Qc -> num) : Prop :=
  forall x y, (exists e, f x y = Some e) <-> in_hull pts x y.
Definition sound_geometry (g : geometry) : Prop :=
  (forall pts h, g_hull g pts = Ok h -> is_hull pts h) /\
  (forall pts ys f, g_surface g pts ys = Ok f -> is_surface pts f).

(** The centre of the smallest upright rectangle around the points lies in the interior of their hull *)
Definition extremes (l : list Qc) (lo hi : Qc) : Prop := In lo l /\ In hi l /\ forall x, In x l -> lo <= x /\ x <= hi.
Definition centred (pts : list (Qc * Qc)) : Prop :=
  exists x0 x1 y0 y1 r, extremes (map fst pts) x0 x1 /\ extremes (map snd pts) y0 y1 /\ 0 < r /\
    let cx := (x0 + x1) / qz 2 in let cy := (y0 + y1) / qz 2 in
    in_hull pts (cx - r) cy /\ in_hull pts (cx + r) cy /\ in_hull pts cx (cy - r) /\ in_hull pts cx (cy + r).

(** The position [x', y'] in the region [R] is reached from [x, y] by raising: nothing changes inside [R], what is
    raised is raised no further than needed *)
Definition raised (R : Qc -> Qc -> Prop) (x y x' y' : Qc) : Prop :=
  R x' y' /\ x <= x' /\ y <= y' /\ (R x y -> x' = x /\ y' = y) /\
  (x' = x \/ forall u, R u y' -> x' <= u) /\ (y' = y \/ forall v, R x' v -> y' <= v).
(** the answer is the value of the surface where raising leads; there is one exactly when raising can lead into [R] *)
Definition answer_2d (R : Qc -> Qc -> Prop) (f : Qc -> Qc -> num) (x y : Qc) (u : num) : Prop :=
  ((exists e, u = Some e) <-> exists x' y', R x' y' /\ x <= x' /\ y <= y') /\
  (forall e, u = Some e -> exists x' y', raised R x y x' y' /\ f x' y' = Some e).

(** ** Requests *)
Definition series (v : variable) (rate ps pd : option (list Qc)) : option (list Qc) :=
  match v with RATE => rate | PS => ps | PD => pd end.
(** the value at which the table is consulted *)
Definition looked_up (v : variable) (x : Qc) : Qc := match v with RATE => x - tiny | PS | PD => x end.
(** only the columns of [vs] vary *)
Definition only_vary (s : samples) (vs : list variable) : Prop := forall v, In v vs <-> column_varies (sm_column s v).
(** the column of [v], which is given *)
Definition column (s : samples) (v : variable) (l : list Qc) : Prop := sm_column s v = Some l.
(** the largest value of a list *)
Definition is_largest (l : list Qc) (x : Qc) : Prop := In x l /\ forall y, In y l -> y <= x.
(** the k-th period alone *)
Definition alone (s : option (list Qc)) (k : nat) : option (list Qc) :=
  match s with Some l => Some (match nth_error l k with Some x => [x] | None => [] end) | None => None end.

(** What a consumer system should do, period by period. *)
From Coq Require Import PeanoNat String.
From Verif Require Import QcTac Base Num System_Model.
Local Open Scope list_scope.

(** What a consumer does in one period, from its rate, suction pressure, discharge pressure and density there. *)
Record point := mkPoint { pt_energy : num; pt_power : num; pt_valid : bool }.
Definition point_function : Type := num -> num -> num -> num -> point.

(** the value of a series in period k *)
Definition at_ {A} (l : list (list A)) (i k : nat) (x : A) : Prop := exists v, nth_error l i = Some v /\ nth_error v k = Some x.
Definition density_at (d : density) (k : nat) (x : num) : Prop :=
  match d with One => x = Some 1%Qc | Per l => nth_error l k = Some x end.

(** A consumer whose result in a period only depends on the input in that period. *)
Definition pointwise (c : consumer) (f : point_function) : Prop :=
  forall n rate suction discharge fd,
    length rate = n -> length suction = n -> length discharge = n -> (forall l, fd = Per l -> length l = n) ->
    exists r, c_evaluate c rate suction discharge fd = Ok r /\
      length (er_energy r) = n /\ length (er_valid r) = n /\ (forall p, er_power r = Some p -> length p = n) /\
      forall k x s d y, nth_error rate k = Some x -> nth_error suction k = Some s -> nth_error discharge k = Some d -> density_at fd k y ->
        nth_error (er_energy r) k = Some (pt_energy (f x s d y)) /\ nth_error (er_valid r) k = Some (pt_valid (f x s d y)) /\
        (forall p, er_power r = Some p -> nth_error p k = Some (pt_power (f x s d y))).

(** An operational setting for m consumers and n periods. *)
Definition complete (m n : nat) (s : operational_setting) : Prop :=
  length (os_rates s) = m /\ length (os_suction s) = m /\ length (os_discharge s) = m /\
  (forall d, os_density s = Some d -> length d = m /\ forall l, In l d -> length l = n) /\
  forall l, In l (os_rates s ++ os_suction s ++ os_discharge s) -> length l = n.

(** What consumer i gets in period k of a setting, when the rates are [rates] (those after cross-over). *)
Definition gets (s : operational_setting) (rates : list (list num)) (i k : nat) (f : point_function) (p : point) : Prop :=
  exists x a b y, at_ rates i k x /\ at_ (os_suction s) i k a /\ at_ (os_discharge s) i k b /\
    (match os_density s with None => y = Some 1%Qc | Some d => at_ d i k y end) /\ p = f x a b y.

(** The points of all consumers, in order. *)
Definition points (s : operational_setting) (rates : list (list num)) (k : nat) (fs : list point_function) (ps : list point) : Prop :=
  length ps = length fs /\ forall i f p, nth_error fs i = Some f -> nth_error ps i = Some p -> gets s rates i k f p.

(** All consumers have capacity. *)
Definition works (ps : list point) : Prop := forall p, In p ps -> pt_valid p = true.

(** sum of numbers; not a finite number if one of them is not *)
Definition nsum (l : list num) : num := fold_right nadd (Some 0%Qc) l.

(** ** Cross-over *)
(** rate, pressure, ... number i in period k *)
Definition val (l : list (list Qc)) (i k : nat) : Qc := nth k (nth i l []) 0%Qc.
(** cross-over numbers: 0 for none, j + 1 to send to consumer j *)
Definition sends_to (numbers : list Z) (i j : nat) : bool := Z.eqb (nth i numbers 0%Z) (Z.of_nat j + 1).
(** what consumer i sends away in period k: its rate above the maximum, if the receiver's discharge pressure is not lower *)
Definition sent (numbers : list Z) (rates maxima discharge : list (list Qc)) (i k : nat) : Qc :=
  match nth i numbers 0%Z with
  | Zpos j => let receiver := (Pos.to_nat j - 1)%nat in
      if Qcleb (val discharge i k) (val discharge receiver k) && Qcltb (val maxima i k) (val rates i k)
      then (val rates i k - val maxima i k)%Qc else 0%Qc
  | _ => 0%Qc
  end.
(** what consumer i receives in period k *)
Definition received (m : nat) (numbers : list Z) (rates maxima discharge : list (list Qc)) (i k : nat) : Qc :=
  qsum (map (fun j => if sends_to numbers j i then sent numbers rates maxima discharge j k else 0%Qc) (seq 0 m)).
(** A setting with finite rates and pressures, for consumers with finite maximum rates. *)
Definition finite_setting (m n : nat) (consumers : list consumer) (s : operational_setting) (numbers : list Z)
    (rates maxima discharge : list (list Qc)) : Prop :=
  complete m n s /\ length consumers = m /\ os_rates s = map (map Some) rates /\ os_discharge s = map (map Some) discharge /\
  os_cross s = Some numbers /\ length numbers = m /\ (forall z, In z numbers -> 0 <= z <= Z.of_nat m)%Z /\
  forall i c suction, nth_error consumers i = Some c -> nth_error (os_suction s) i = Some suction ->
    length (nth i maxima []) = n /\
    forall d, match os_density s with None => d = One | Some l => exists v, nth_error l i = Some v /\ d = Per v end ->
      c_max_rate c suction (map Some (nth i discharge [])) d = Ok (map Some (nth i maxima [])).

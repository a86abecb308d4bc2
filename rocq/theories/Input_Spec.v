(** Specification vocabulary for time series input. *)
From Coq Require Import String Ascii.
From Verif Require Import QcTac Base Time_Model Time_Spec Input_Model.
Local Open Scope Z_scope.

(** The value at [t] of a series given by dated values (in any order): zero before the first date, the given
    value on a date, by the kind of interpolation between two neighbouring dates, and after the last date the
    last value or zero. *)
Definition neighbouring (data : list (datetime * Qc)) (a : datetime) (x : Qc) (b : datetime) (y : Qc) : Prop :=
  In (a, x) data /\ In (b, y) data /\ a < b /\ forall d z, In (d, z) data -> ~ (a < d < b).
Definition interpolated (kind : interpolation_type) (a : datetime) (x : Qc) (b : datetime) (y : Qc) (t : datetime) : Qc :=
  match kind with
  | RIGHT => x
  | LEFT => y
  | LINEAR => (x + (y - x) * (qz (t - a) / qz (b - a)))%Qc
  end.
Definition value_rule (kind : interpolation_type) (extrapolate : bool) (data : list (datetime * Qc))
    (t : datetime) (v : Qc) : Prop :=
  ((forall d z, In (d, z) data -> t < d) /\ v = 0%Qc) \/
  In (t, v) data \/
  (exists a x b y, neighbouring data a x b y /\ a < t < b /\ v = interpolated kind a x b y t) \/
  ((forall d z, In (d, z) data -> d < t) /\
   if extrapolate then exists a, In (a, v) data /\ forall d z, In (d, z) data -> d <= a else v = 0%Qc).

(** dates in order, possibly repeated *)
Fixpoint nondecreasing (ts : list datetime) : Prop :=
  match ts with
  | [] => True
  | t :: rest => match rest with [] => True | u :: _ => t <= u end /\ nondecreasing rest
  end.

(** [a] is the earliest of the dates *)
Definition earliest (a : datetime) (l : list datetime) : Prop := In a l /\ forall d, In d l -> a <= d.

(** a name without semicolon *)
Fixpoint no_semicolon (s : string) : Prop :=
  match s with EmptyString => True | String c r => c <> ";"%char /\ no_semicolon r end.

(** the start of the model: START when it is given, otherwise the earliest date of the series *)
Definition model_start (start : option datetime) (tv : list datetime) (a : datetime) : Prop :=
  match start with Some s => a = s | None => earliest a tv end.

(** collections kept under their own names, with validated resources and names without semicolons *)
Definition well_named (cs : list (string * collection)) : Prop :=
  NoDup (map fst cs) /\
  forall k c, In (k, c) cs -> tc_name c = k /\ no_semicolon k /\ validate_ts_resource (tc_resource c) = Ok tt /\
    forall h, In h (tsr_headers (tc_resource c)) -> no_semicolon h.

(** a collection is as configured: DEFAULT series hold their value until the next date and end at zero; MISCELLANEOUS series
    do as they say, and do not continue after their last date unless they say so *)
Definition as_configured (y : yaml_collection) (r : ts_resource) (c : collection) : Prop :=
  tc_name c = yc_name y /\ tc_resource c = r /\ tc_influence c = yc_influence y /\
  match yc_type y with
  | YamlDefault => tc_interpolation c = RIGHT /\ tc_extrapolation c = false
  | YamlMiscellaneous kind extrapolation => tc_interpolation c = kind /\ tc_extrapolation c = match extrapolation with Some b => b | None => false end
  end.

(** the column with the dates: DATE if there is one, otherwise DATES, otherwise the first *)
Definition date_column (headers : list string) (h : string) : Prop :=
  (h = "DATE"%string /\ In h headers) \/
  (h = "DATES"%string /\ In h headers /\ ~ In "DATE"%string headers) \/
  (nth_error headers 0 = Some h /\ ~ In "DATE"%string headers /\ ~ In "DATES"%string headers).

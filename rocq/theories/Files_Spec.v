(** Vocabulary for charts that are read from files or written in the model file. *)
From Coq Require Import PeanoNat String Ascii.
From Verif Require Import QcTac Base Chart_Model Files_Model.
Local Open Scope list_scope.
Local Open Scope Qc_scope.

(** ** Names that are the same but for their case *)
Definition capital_of (c d : ascii) : Prop := (65 <= nat_of_ascii c <= 90)%nat /\ nat_of_ascii d = (nat_of_ascii c + 32)%nat.
Definition same_letter (c d : ascii) : Prop := c = d \/ capital_of c d \/ capital_of d c.
Inductive alike : string -> string -> Prop :=
| alike_nil : alike EmptyString EmptyString
| alike_cons : forall c d s t, same_letter c d -> alike s t -> alike (String c s) (String d t).

(** ** Files *)
(** a file as it is read: no header twice, a column for each header, and the same number of rows, at least one, in each *)
Record proper_file (f : file) : Prop := {
  pf_headers : NoDup (f_headers f);
  pf_columns : List.length (f_columns f) = List.length (f_headers f);
  pf_rows : exists n, (0 < n)%nat /\ forall c, In c (f_columns f) -> List.length c = n }.
(** the numbers below the first header that is [name] but for its case *)
Definition column_is (f : file) (name : string) (values : list Qc) : Prop :=
  exists i h, nth_error (f_headers f) i = Some h /\ alike h name /\ (forall j g, (j < i)%nat -> nth_error (f_headers f) j = Some g -> ~ alike g name) /\
    nth_error (f_columns f) i = Some (map Some values).
Definition has_header (f : file) (name : string) : Prop := exists h, In h (f_headers f) /\ alike h name.
(** every cell that is read under some header is a number *)
Definition only_numbers (f : file) : Prop := forall h, In h (f_headers f) -> exists values, column_is f h values.

(** a row: speed, and (rate, head, efficiency) as they are written *)
Definition row : Type := (Qc * (Qc * Qc * Qc))%type.
(** the rows of a file *)
Definition points_are (f : file) (rows : list row) : Prop :=
  column_is f "RATE" (map (fun r => fst (fst (snd r))) rows) /\ column_is f "HEAD" (map (fun r => snd (fst (snd r))) rows) /\
  column_is f "EFFICIENCY" (map (fun r => snd (snd r)) rows).
Definition rows_are (f : file) (rows : list row) : Prop := column_is f "SPEED" (map fst rows) /\ points_are f rows.
(** ... when a speed need not be given: it is 1 then *)
Definition single_rows_are (f : file) (rows : list row) : Prop :=
  rows_are f rows \/ (~ has_header f "SPEED" /\ points_are f rows /\ forall r, In r rows -> fst r = 1).

(** the points of the rows with a speed, in their order *)
Inductive at_speed (s : Qc) : list row -> list (Qc * Qc * Qc) -> Prop :=
| at_none : at_speed s [] []
| at_this : forall p rows ps, at_speed s rows ps -> at_speed s ((s, p) :: rows) (p :: ps)
| at_other : forall t p rows ps, t <> s -> at_speed s rows ps -> at_speed s ((t, p) :: rows) ps.

(** ** Units: head in J/kg, efficiency as a fraction *)
Definition in_joule_per_kg (u : yaml_units) (written head : Qc) : Prop :=
  match u_head u with
  | HEAD_M => head = qc 981 100 * written
  | HEAD_KJ_PER_KG => head = qz 1000 * written
  | HEAD_JOULE_PER_KG => head = written
  end.
Definition as_fraction (u : yaml_units) (written eff : Qc) : Prop :=
  match u_efficiency u with EFFICIENCY_FRACTION => eff = written | EFFICIENCY_PERCENTAGE => qz 100 * eff = written end.
Definition point_made (u : yaml_units) (p q : Qc * Qc * Qc) : Prop :=
  fst (fst q) = fst (fst p) /\ in_joule_per_kg u (snd (fst p)) (snd (fst q)) /\ as_fraction u (snd p) (snd q).
(** an efficiency from 0 to 1 *)
Definition efficiency_ok (u : yaml_units) (written : Qc) : Prop := exists eff, as_fraction u written eff /\ 0 <= eff /\ eff <= 1.

(** ** Curves *)
(** the curve through some points: the points in the units of the chart, in order of rate *)
Definition curve_through (u : yaml_units) (ps : list (Qc * Qc * Qc)) (c : curve) : Prop :=
  exists qs, Forall2 (point_made u) ps qs /\ Permutation qs (cv_points c) /\
    StronglySorted (fun a b => fst (fst a) <= fst (fst b)) (cv_points c).
(** points a curve can have *)
Definition points_ok (u : yaml_units) (ps : list (Qc * Qc * Qc)) : Prop :=
  (2 <= List.length ps)%nat /\ forall p, In p ps -> efficiency_ok u (snd p).
(** the curves of some rows: one for each speed, in order of speed, through the points of the rows with that speed *)
Definition curves_of (u : yaml_units) (rows : list row) (cs : list curve) : Prop :=
  StronglySorted (fun a b => cv_speed a < cv_speed b) cs /\
  (forall s, In s (map fst rows) <-> In s (map cv_speed cs)) /\
  (forall c, In c cs -> exists ps, at_speed (cv_speed c) rows ps /\ curve_through u ps c).
Definition rows_ok (u : yaml_units) (rows : list row) : Prop :=
  forall s, In s (map fst rows) -> exists ps, at_speed s rows ps /\ points_ok u ps.

(** a curve that is written in the model file, and its points *)
Definition written_points (y : yaml_curve) (ps : list (Qc * Qc * Qc)) : Prop :=
  yc_rate y = map (fun p => fst (fst p)) ps /\ yc_head y = map (fun p => snd (fst p)) ps /\ yc_efficiency y = map snd ps.
(** two curves with the same speed and the same points, in order of rate (points with the same rate may be in another order) *)
Definition same_curve (c d : curve) : Prop := cv_speed c = cv_speed d /\ Permutation (cv_points c) (cv_points d).
(** the rows of a file that says the same as some curves of the model file *)
Inductive rows_written : list yaml_curve -> list row -> Prop :=
| no_rows : rows_written [] []
| more_rows : forall y ys ps rows, written_points y ps -> rows_written ys rows -> rows_written (y :: ys) (map (fun p => (yc_speed y, p)) ps ++ rows).

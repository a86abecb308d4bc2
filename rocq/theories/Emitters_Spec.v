(** Vocabulary for C97 to C99. *)
From Coq Require Import String.
From Verif Require Import QcTac Base Time_Model Num Expr_Model Units_Model Rates_Model Emitters_Model.
Local Open Scope list_scope.

(** the value of an expression in period number [k] of [n] *)
Definition evaluates_at (pow : Qc -> Qc -> Qc) (vars : variables_dict) (n : nat) (ts : list token) (k : nat) (v : Qc) : Prop :=
  exists l, evaluate pow ts vars n = Ok l /\ nth_error l k = Some v.
(** whether the condition, if there is one, holds in period number [k] *)
Definition condition_at (pow : Qc -> Qc -> Qc) (vars : variables_dict) (n : nat) (c : option (list token)) (k : nat) (b : bool) : Prop :=
  match c with
  | None => b = true
  | Some ts => exists x, evaluates_at pow vars n ts k x /\ (b = false <-> x = 0%Qc)
  end.
(** the rate per producing day, [x], meant by the number [v] where the regularity is [g]: nothing when the condition
    does not hold; a calendar-day rate is produced in the fraction [g] of the time; no production without regularity *)
Definition stream_rate_means (ty : rate_type) (v : Qc) (holds : bool) (g x : Qc) : Prop :=
  if holds then
    match ty with
    | STREAM_DAY => x = v
    | CALENDAR_DAY => (g <> 0%Qc /\ (x * g)%Qc = v) \/ (g = 0%Qc /\ x = 0%Qc)
    end
  else x = 0%Qc.
(** the rate per calendar day meant by the number [v]: what is given where it is given per calendar day (and the
    regularity is not zero), the fraction [g] of a stream-day rate *)
Definition calendar_rate_means (ty : rate_type) (v : Qc) (holds : bool) (g x : Qc) : Prop :=
  if holds then
    match ty with
    | STREAM_DAY => x = (v * g)%Qc
    | CALENDAR_DAY => (g <> 0%Qc /\ x = v) \/ (g = 0%Qc /\ x = 0%Qc)
    end
  else x = 0%Qc.
(** a rate of mass in tons *)
Definition tons (u : unit_) (x y : Qc) : Prop :=
  match u with
  | KILO_PER_DAY => (y * qz 1000)%Qc = x
  | TONS_PER_DAY => y = x
  | _ => False
  end.
(** the entry that counts for a name: the last one *)
Definition last_named {A} (es : list (string * A)) (name : string) (a : A) : Prop :=
  exists before after, es = before ++ (name, a) :: after /\ ~ In name (map fst after).

(** [in_lower_case a b]: [b] is [a] with every capital letter replaced by the small one *)
Definition small_letter (c d : Ascii.ascii) : Prop :=
  (exists i, nth_error (list_ascii_of_string "ABCDEFGHIJKLMNOPQRSTUVWXYZ") i = Some c /\
             nth_error (list_ascii_of_string "abcdefghijklmnopqrstuvwxyz") i = Some d) \/
  (~ In c (list_ascii_of_string "ABCDEFGHIJKLMNOPQRSTUVWXYZ") /\ d = c).
Definition in_lower_case (a b : string) : Prop := Forall2 small_letter (list_ascii_of_string a) (list_ascii_of_string b).

(** What the value of a variable is, independently of the order of declaration. *)
From Coq Require Import Ascii String.
From Verif Require Import QcTac Base Time_Model Time_Spec Expr_Model Expr_Spec Vars_Model.
Local Open Scope list_scope.
Local Open Scope Z_scope.

Section Spec.
  Variable pow : Qc -> Qc -> Qc.
  Variable variables : list (string * yaml_variable).   (* declared: full reference and definition *)
  Variable series : variables_dict.                     (* the time series *)
  Variable ps : list period.

  (** [determined r l]: [l] is the value of [r]: a time series, or a variable whose definition
      evaluates to [l] when each variable it requires has its determined value *)
  Inductive determined : string -> list Qc -> Prop :=
  | D_series : forall r l, dict_get String.eqb r series = Some l -> determined r l
  | D_variable : forall id v env l,
      In (id, v) variables ->
      (forall r, In r (required_variables v) -> exists lr, dict_get String.eqb r env = Some lr) ->
      (forall r lr, In r (required_variables v) -> dict_get String.eqb r env = Some lr -> determined r lr) ->
      process_variable pow v env ps = Ok l ->
      determined id l.

  (** [resolvable r]: [r] is a time series or a declared variable that requires only resolvable
      references (so no missing reference and no cycle below it) *)
  Inductive resolvable : string -> Prop :=
  | R_series : forall r l, dict_get String.eqb r series = Some l -> resolvable r
  | R_variable : forall id v, In (id, v) variables ->
      (forall r, In r (required_variables v) -> resolvable r) -> resolvable id.

  (** evaluating a declared variable on determined values raises no error *)
  Definition no_evaluation_error : Prop :=
    forall id v env, In (id, v) variables ->
      (forall r, In r (required_variables v) -> exists lr, dict_get String.eqb r env = Some lr /\ determined r lr) ->
      exists l, process_variable pow v env ps = Ok l.
End Spec.

(** names as declared, with the prefix used in references *)
Definition with_prefix (variables : list (string * yaml_variable)) : list (string * yaml_variable) :=
  map (fun kv => ("$var." ++ fst kv, snd kv)%string) variables.

(** a variable written in infix notation: a single expression, or expressions at increasing dates
    none of which lies strictly inside a period *)
Definition well_written (ps : list period) (v : yaml_variable) : Prop :=
  match v with
  | VSingle ts => exists k e, writes k ts e
  | VTemporal entries =>
      increasing (map fst entries) /\ (forall k, In k (map fst entries) -> k < DT_MAX) /\
      (forall k p, In k (map fst entries) -> In p ps -> ~ (p_start p < k < p_end p)) /\
      forall ts, In ts (map snd entries) -> exists k e, writes k ts e
  end.

(** names in references differ from each other and from the time series *)
Definition no_clash (variables : list (string * yaml_variable)) (series : variables_dict) : Prop :=
  NoDup (map fst (with_prefix variables)) /\
  forall id, In id (map fst (with_prefix variables)) -> dict_get String.eqb id series = None.

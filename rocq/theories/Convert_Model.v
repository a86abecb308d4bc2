(** Model of convert_expression in src/libecalc/dto/utils/validators.py: expressions that change at dates. *)
From Coq Require Import PeanoNat.
From Verif Require Import Base Time_Model.
Local Open Scope list_scope.

Section Convert.
  Context {raw expression : Type}.
  (** Expression.setup_from_expression *)
  Variable setup : raw -> result expression.
  (** datetime.max without microseconds *)
  Variable latest : datetime.

  (** None, an expression, a text or number, a dict with dates or with periods as keys; keys that are texts are not modelled *)
  Inductive value : Type := Absent | Ready (e : expression) | Raw (r : raw) | AtDates (items : list (datetime * raw)) | InPeriods (items : list (period * raw)).
  Inductive converted : Type := Nothing | One (e : expression) | Many (items : list (period * expression)).

  (** 37-38: the pairs of zip(model_dates[:-1], model_dates[1:], values) *)
  Definition date_items (items : list (datetime * raw)) : list (period * raw) :=
    let model_dates := map fst items ++ [latest] in
    combine (map (fun se => mkPeriod (fst se) (snd se)) (combine (removelast model_dates) (tl model_dates))) (map snd items).
  Definition convert_items (items : list (period * raw)) : result (list (period * expression)) :=
    mapM (fun i => do e <- setup (snd i); Ok (fst i, e)) items.
  (** 19-41, convert_expression; the keys of a dict are distinct, so the periods are *)
  Definition convert_expression (v : value) : result converted :=
    match v with
    | Absent => Ok Nothing
    | Ready e => Ok (One e)
    | AtDates items => do l <- convert_items (date_items items); Ok (Many l)
    | InPeriods items => do l <- convert_items items; Ok (Many l)
    | Raw r => do e <- setup r; Ok (One e)
    end.
End Convert.
Arguments Absent {raw expression}. Arguments Ready {raw expression}. Arguments Raw {raw expression}. Arguments AtDates {raw expression}. Arguments InPeriods {raw expression}.
Arguments Nothing {expression}. Arguments One {expression}. Arguments Many {expression}.

(** Model of src/libecalc/expression/extract_expressions.py: the references in the expressions of a model. *)
From Coq Require Import PeanoNat String.
From Verif Require Import Base.
Local Open Scope list_scope.

(** The annotations of fields: an expression (Annotated[..., EXPRESSION_MARKER]), a class of models, a union, a list, a dict, an annotated
    type without the marker, another type with arguments (tuple, set, Mapping, ...), and everything else. *)
Inductive annotation : Type :=
| Expr
| ModelClass
| Plain
| Union (args : list annotation)
| ListOf (args : list annotation)
| DictOf (args : list annotation)
| Annotated (inner : annotation)
| Generic (args : list annotation).

(** Values: nothing (None), a text or number, a model, a list, a dict (its values), a sequence of another kind (a tuple or set) and
    everything else.  The fields of a model have the marker in their metadata or not, and their annotation. *)
Inductive value (leaf : Type) : Type :=
| Nothing
| Leaf (x : leaf)
| Model (fields : list (bool * annotation * value leaf))
| Items (items : list (value leaf))
| Dict (values : list (value leaf))
| Sequence (items : list (value leaf))
| Other.
Arguments Nothing {leaf}. Arguments Leaf {leaf}. Arguments Model {leaf}. Arguments Items {leaf}. Arguments Dict {leaf}.
Arguments Sequence {leaf}. Arguments Other {leaf}.

(** 30-43, _contains_expression_type *)
Fixpoint contains_expression (a : annotation) : bool :=
  match a with
  | Expr => true
  | Union args | ListOf args | DictOf args | Generic args => existsb contains_expression args
  | Annotated inner => contains_expression inner
  | ModelClass | Plain => false
  end.
(** 51-77, _unwrap_to_model_types: whether there is any *)
Fixpoint has_model_type (a : annotation) : bool :=
  match a with
  | ModelClass => true
  | Union args | DictOf args => existsb has_model_type args
  | ListOf args => match args with x :: _ => has_model_type x | [] => false end
  | Annotated inner => has_model_type inner
  | Expr | Plain | Generic _ => false
  end.

(** 85-137, _collect_expression_values *)
Fixpoint collect {leaf} (v : value leaf) : list leaf :=
  match v with
  | Model fields =>
      flat_map (fun f => match f with (marked, a, fv) =>
        if marked || contains_expression a then
          match fv with
          | Items items => flat_map (fun x => match x with Leaf l => [l] | Model _ => collect x | _ => [] end) items
          | Dict values => flat_map (fun x => match x with
              | Leaf l => [l]
              | Model _ => collect x
              | Items items => flat_map (fun y => match y with Leaf l => [l] | Model _ => collect y | _ => [] end) items
              | _ => [] end) values
          | Leaf l => [l]
          | _ => []
          end
        else if has_model_type a then
          match fv with
          | Model _ => collect fv
          | Items items => flat_map (fun x => match x with Model _ => collect x | _ => [] end) items
          | Dict values => flat_map (fun x => match x with
              | Model _ => collect x
              | Items items => flat_map (fun y => match y with Model _ => collect y | _ => [] end) items
              | _ => [] end) values
          | _ => []
          end
        else [] end) fields
  | _ => []
  end.
(** 140-159, extract_expression_references: a set, so only what is in it matters.  [variables] stands for
    Expression.setup_from_expression(value).variables *)
Definition references {leaf} (variables : leaf -> list string) (m : value leaf) : list string := flat_map variables (collect m).

(** Vocabulary for the expressions in a model. *)
From Coq Require Import PeanoNat String.
From Verif Require Import Base Extract_Model.
Local Open Scope list_scope.

(** [x] is [v] or is in the containers of [v], but not in the fields of a model in [v] *)
Inductive within {leaf} : value leaf -> value leaf -> Prop :=
| within_here : forall v, within v v
| within_items : forall items v x, In v items -> within v x -> within (Items items) x
| within_dict : forall values v x, In v values -> within v x -> within (Dict values) x
| within_sequence : forall items v x, In v items -> within v x -> within (Sequence items) x.
(** the model [n] is [m] or is in a field of [m], or in a field of a model there, and so on *)
Inductive submodel {leaf} : list (bool * annotation * value leaf) -> list (bool * annotation * value leaf) -> Prop :=
| submodel_here : forall m, submodel m m
| submodel_in : forall m marked a v m' n, In (marked, a, v) m -> within v (Model m') -> submodel m' n -> submodel m n.

(** an annotation in which expressions, or models, occur *)
Inductive mentions_expression : annotation -> Prop :=
| mentions_here : mentions_expression Expr
| mentions_union : forall args x, In x args -> mentions_expression x -> mentions_expression (Union args)
| mentions_list : forall args x, In x args -> mentions_expression x -> mentions_expression (ListOf args)
| mentions_dict : forall args x, In x args -> mentions_expression x -> mentions_expression (DictOf args)
| mentions_generic : forall args x, In x args -> mentions_expression x -> mentions_expression (Generic args)
| mentions_annotated : forall x, mentions_expression x -> mentions_expression (Annotated x).
Definition expression_field (marked : bool) (a : annotation) : Prop := marked = true \/ mentions_expression a.
Inductive mentions_model : annotation -> Prop :=
| model_here : mentions_model ModelClass
| model_union : forall args x, In x args -> mentions_model x -> mentions_model (Union args)
| model_list : forall x, mentions_model x -> mentions_model (ListOf [x])
| model_dict : forall args x, In x args -> mentions_model x -> mentions_model (DictOf args)
| model_annotated : forall x, mentions_model x -> mentions_model (Annotated x).

(** the text or number [x] is an expression of the model [m] *)
Definition uses {leaf} (m : list (bool * annotation * value leaf)) (x : leaf) : Prop :=
  exists n marked a v, submodel m n /\ In (marked, a, v) n /\ expression_field marked a /\ within v (Leaf x).

(** the shapes of fields that are searched: no container, a list, or a dict of values or lists *)
Definition no_container {leaf} (v : value leaf) : Prop := match v with Items _ | Dict _ | Sequence _ => False | _ => True end.
Definition simple_list {leaf} (v : value leaf) : Prop := no_container v \/ exists items, v = Items items /\ forall x, In x items -> no_container x.
Definition shallow {leaf} (v : value leaf) : Prop := simple_list v \/ exists values, v = Dict values /\ forall x, In x values -> simple_list x.
(** such fields; a field for expressions is not a model itself, and a field with models says so in its annotation *)
Definition searched_field {leaf} (marked : bool) (a : annotation) (v : value leaf) : Prop :=
  shallow v /\ (expression_field marked a -> forall n, v <> Model n) /\ (~ expression_field marked a -> forall n, within v (Model n) -> mentions_model a).
Definition searched {leaf} (m : list (bool * annotation * value leaf)) : Prop :=
  forall n marked a v, submodel m n -> In (marked, a, v) n -> searched_field marked a v.

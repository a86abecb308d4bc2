(** Model of src/libecalc/presentation/yaml/definition_resolver.py: references to definitions in a model are replaced. *)
From Coq Require Import PeanoNat String.
From Verif Require Import Base.
Local Open Scope list_scope.

(** The annotations of fields, as far as they are looked at: DefinitionReference itself, a union, a mapping, a tuple (of any length
    with an ellipsis), a list or set, each with its arguments (none if it is written without any), and everything else (among it
    typing.Any and the classes of models). *)
Inductive annotation : Type :=
| Reference
| Plain
| Union (args : list annotation)
| Mapping (args : list annotation)
| Tuple (args : list annotation) (ellipsis : bool)
| Collection (args : list annotation).

(** Values.  The fields of a model have their annotation (type(model).model_fields).  Simplified: the keys of a mapping are texts, and
    a tuple and a set are lists like other sequences. *)
Inductive value : Type :=
| Nothing
| Text (s : string)
| Other (n : Z)
| Model (fields : list (string * annotation * value))
| Dict (entries : list (string * value))
| Items (items : list value).

Definition definitions := list (string * value).

(** 53-73, _get_item_type; for other annotations with arguments (a union) it is the first of them *)
Definition item_type (a : annotation) : annotation :=
  match a with
  | Mapping (_ :: v :: _) => v
  | Mapping _ => Plain
  | Tuple [x] true => x
  | Tuple _ _ => Plain
  | Collection (x :: _) => x
  | Union (x :: _) => x
  | Collection [] | Union [] | Reference | Plain => Plain
  end.
(** 101-107, _is_definition_reference_union *)
Definition is_reference_union (a : annotation) : bool :=
  match a with Union args => existsb (fun x => match x with Reference => true | _ => false end) args | _ => false end.
(** 110-116, _lookup_definition *)
Definition lookup (defs : definitions) (s : string) : result value := of_option KeyError (dict_get String.eqb s defs).

(** in order, the first error wins *)
Definition each {A B} (f : A -> result B) : list A -> result (list B) :=
  fix go l := match l with [] => Ok [] | x :: r => do y <- f x; do ys <- go r; Ok (y :: ys) end.

(** 76-98, _resolve_value, and 20-50, resolve_definitions (a field without a value is left as it is; a model of which nothing
    changes is returned itself, which is the same value) *)
Fixpoint resolve (defs : definitions) (a : annotation) (v : value) {struct v} : result value :=
  match v with
  | Text s => if is_reference_union a then lookup defs s else Ok v
  | Model fields =>
      do fields' <- each (fun f => match f with (n, fa, fv) => do w <- resolve defs fa fv; Ok (n, fa, w) end) fields;
      Ok (Model fields')
  | Dict entries =>
      do entries' <- each (fun e => match e with (k, ev) => do w <- resolve defs (item_type a) ev; Ok (k, w) end) entries;
      Ok (Dict entries')
  | Items items => do items' <- each (fun x => resolve defs (item_type a) x) items; Ok (Items items')
  | Nothing | Other _ => Ok v
  end.
(** 20, resolve_definitions of a model *)
Definition resolve_definitions (m : list (string * annotation * value)) (defs : definitions) : result value := resolve defs Plain (Model m).

(** Vocabulary for references to definitions. *)
From Coq Require Import PeanoNat String.
From Verif Require Import Base Definitions_Model.
Local Open Scope list_scope.

(** [x] is what is at the place [p] of a value: the places of fields, entries and items, from the outside *)
Inductive placed : value -> list nat -> value -> Prop :=
| placed_here : forall v, placed v [] v
| placed_field : forall fields i n a v p x, nth_error fields i = Some (n, a, v) -> placed v p x -> placed (Model fields) (i :: p) x
| placed_entry : forall entries i k v p x, nth_error entries i = Some (k, v) -> placed v p x -> placed (Dict entries) (i :: p) x
| placed_item : forall items i v p x, nth_error items i = Some v -> placed v p x -> placed (Items items) (i :: p) x.

(** the annotation of the entries of a mapping and of the items of a sequence *)
Inductive contains : annotation -> annotation -> Prop :=
| contains_value : forall k v, contains (Mapping [k; v]) v
| contains_tuple : forall x, contains (Tuple [x] true) x
| contains_item : forall x, contains (Collection [x]) x.

(** [x] with the annotation [b] is at the place [p] of [v], which has the annotation [a]; containers on the way are annotated as such *)
Inductive typed : annotation -> value -> list nat -> annotation -> value -> Prop :=
| typed_here : forall a v, typed a v [] a v
| typed_field : forall a fields i n fa v p b x, nth_error fields i = Some (n, fa, v) -> typed fa v p b x -> typed a (Model fields) (i :: p) b x
| typed_entry : forall a c entries i k v p b x, contains a c -> nth_error entries i = Some (k, v) -> typed c v p b x -> typed a (Dict entries) (i :: p) b x
| typed_item : forall a c items i v p b x, contains a c -> nth_error items i = Some v -> typed c v p b x -> typed a (Items items) (i :: p) b x.

(** a field, entry or item of the type T | DefinitionReference *)
Definition may_refer (b : annotation) : Prop := exists args, b = Union args /\ In Reference args.
(** the model refers to the definition [s] at the place [p] *)
Definition refers (m : list (string * annotation * value)) (p : list nat) (s : string) : Prop :=
  exists b, typed Plain (Model m) p b (Text s) /\ may_refer b.
(** a value that is no container *)
Definition simple (x : value) : Prop := match x with Nothing | Text _ | Other _ => True | _ => False end.

(** all containers are annotated as such: nothing is in a container with another annotation *)
Inductive annotated : annotation -> value -> Prop :=
| annotated_simple : forall a x, simple x -> annotated a x
| annotated_model : forall a fields, (forall n fa v, In (n, fa, v) fields -> annotated fa v) -> annotated a (Model fields)
| annotated_dict : forall a c entries, contains a c -> (forall k v, In (k, v) entries -> annotated c v) -> annotated a (Dict entries)
| annotated_items : forall a c items, contains a c -> (forall v, In v items -> annotated c v) -> annotated a (Items items).
(** [d] is the definition with the name [s] *)
Definition defines (defs : definitions) (s : string) (d : value) : Prop := exists before after, defs = before ++ (s, d) :: after /\ ~ In s (map fst before).

(** What C139 to C142 say about YAML documents. *)
From Coq Require Import String.
From Verif Require Import Base Time_Model Document_Model.
Local Open Scope list_scope.

(** The node itself and all nodes below it. *)
Inductive inside : node -> node -> Prop :=
| inside_self n : inside n n
| inside_value m entries k v n : In (k, v) entries -> inside v n -> inside (Map m entries) n
| inside_item items v n : In v items -> inside v n -> inside (Seq items) n.
(** No mapping has a key twice. *)
Definition keyed (n : node) : Prop := forall m entries, inside n (Map m entries) -> NoDup (map fst entries).
(** Some mapping at or below the node has the date as a key. *)
Definition date_key (n : node) (d : datetime) : Prop := exists m entries v, inside n (Map m entries) /\ In (KDate d, v) entries.
(** Some mapping at or below the node says FILE: s. *)
Definition mentions (n : node) (s : string) : Prop := exists m entries, inside n (Map m entries) /\ In (KText "FILE", Text s) entries.

(** The files with data for facilities that a document (with these entries) refers to. *)
Inductive facility_file (entries : list (key * node)) (s : string) : Prop :=
| of_input items m fs : In (KText "FACILITY_INPUTS", Seq items) entries -> In (Map m fs) items -> In (KText "FILE", Text s) fs -> facility_file entries s
| of_curves items m fs k m' gs : In (KText "MODELS", Seq items) entries -> In (Map m fs) items -> k = "CURVES"%string \/ k = "CURVE"%string ->
    In (KText k, Map m' gs) fs -> In (KText "FILE", Text s) gs -> facility_file entries s
| of_units m ds n : In (KText "DEFINITIONS", Map m ds) entries -> In (KText "PROCESS_UNITS", n) ds -> mentions n s -> facility_file entries s
| of_pipelines n : In (KText "PROCESS_PIPELINES", n) entries -> mentions n s -> facility_file entries s.
(** A mapping whose FILE, if any, is empty or text. *)
Definition plain (n : node) : Prop :=
  exists m fs, n = Map m fs /\ forall v, In (KText "FILE", v) fs -> v = Null \/ exists s, v = Text s.
(** What is needed to find the files: facility inputs, and curves of models, are mappings with such a FILE. *)
Definition findable (entries : list (key * node)) : Prop :=
  (forall items, In (KText "FACILITY_INPUTS", Seq items) entries -> Forall plain items) /\
  (forall items n, In (KText "MODELS", Seq items) entries -> In n items -> exists m fs, n = Map m fs /\
     forall k m' gs, k = "CURVES"%string \/ k = "CURVE"%string -> In (KText k, Map m' gs) fs -> plain (Map m' gs)).

(** Where a key leads: text to the value of the (upper case) key, numbers to items, dates to the first key that is this date,
    provided all keys before it are dates. *)
Inductive leads (upper : string -> string) (parse : key -> option datetime) : node -> path_key -> node -> Prop :=
| leads_text m entries s v : In (KText (upper s), v) entries -> leads upper parse (Map m entries) (PText s) v
| leads_index items i v : nth_error items i = Some v -> leads upper parse (Seq items) (PIndex i) v
| leads_date m before k v after d : parse k = Some d -> (forall k' v', In (k', v') before -> exists d', parse k' = Some d' /\ d' <> d) ->
    leads upper parse (Map m (before ++ (k, v) :: after)) (PDate d) v.
Inductive leads_all (upper : string -> string) (parse : key -> option datetime) : node -> list path_key -> node -> Prop :=
| leads_nil n : leads_all upper parse n [] n
| leads_cons n k n' p n'' : leads upper parse n k n' -> leads_all upper parse n' p n'' -> leads_all upper parse n (k :: p) n''.
Definition is_map (n : node) : Prop := exists m entries, n = Map m entries.

(** The document with the included files in the places of the includes; keys of a mapping are different. *)
Inductive expands (files : string -> option raw) : raw -> node -> Prop :=
| expands_text s : expands files (RText s) (Text s)
| expands_scalar : expands files RScalar Scalar
| expands_null : expands files RNull Null
| expands_map m entries entries' : NoDup (map fst entries) -> expands_entries files entries entries' -> expands files (RMap m entries) (Map m entries')
| expands_seq items items' : expands_items files items items' -> expands files (RSeq items) (Seq items')
| expands_include name r n : files name = Some r -> expands files r n -> expands files (RInclude name) n
with expands_entries (files : string -> option raw) : list (key * raw) -> list (key * node) -> Prop :=
| entries_nil : expands_entries files [] []
| entries_cons k v v' r r' : expands files v v' -> expands_entries files r r' -> expands_entries files ((k, v) :: r) ((k, v') :: r')
with expands_items (files : string -> option raw) : list raw -> list node -> Prop :=
| items_nil : expands_items files [] []
| items_cons v v' r r' : expands files v v' -> expands_items files r r' -> expands_items files (v :: r) (v' :: r').

(** Property C147: references to definitions. *)
From Coq Require Import PeanoNat String.
From Verif Require Import Base Definitions_Model Definitions_Spec Definitions_Proofs.
Local Open Scope list_scope.

(** Every reference is replaced by the definition with that name, in its place. *)
Theorem C147_replaced : forall m defs w p s, resolve_definitions m defs = Ok w -> refers m p s -> exists d, defines defs s d /\ placed w p d.
Proof. exact references_replaced. Qed.
Print Assumptions C147_replaced.

(** Every other value stays in its place. *)
Theorem C147_rest : forall m defs w p b x, resolve_definitions m defs = Ok w -> typed Plain (Model m) p b x -> simple x -> ~ (may_refer b /\ exists s, x = Text s) -> placed w p x.
Proof. exact rest_unchanged. Qed.
Print Assumptions C147_rest.

(** It fails exactly when a reference is to a name that is not defined. *)
Theorem C147_unknown : forall m defs, annotated Plain (Model m) ->
  (resolve_definitions m defs = Err KeyError <-> exists p s, refers m p s /\ ~ exists d, defines defs s d) /\
  ((exists w, resolve_definitions m defs = Ok w) <-> forall p s, refers m p s -> exists d, defines defs s d).
Proof. exact unknown_references. Qed.
Print Assumptions C147_unknown.

(** A model without references is returned as it is. *)
Theorem C147_same : forall m defs, annotated Plain (Model m) -> (forall p s, ~ refers m p s) -> resolve_definitions m defs = Ok (Model m).
Proof. exact no_references. Qed.
Print Assumptions C147_same.

(** References in an optional list (list[T | DefinitionReference] | None) are not replaced. *)
Theorem C147_optional_refuted : exists m defs w b s, resolve_definitions m defs = Ok w /\
  nth_error m 0 = Some ("targets"%string, Union [Collection [b]; Plain], Items [Text s]) /\ may_refer b /\ (exists d, defines defs s d) /\ placed w [0; 0]%nat (Text s).
Proof. exact optional_refuted. Qed.
Print Assumptions C147_optional_refuted.

(** A reference within a definition is not replaced. *)
Theorem C147_nested_refuted : exists m defs w p s, resolve_definitions m defs = Ok w /\ (exists d, defines defs s d) /\
  (exists fields b n, placed w p (Model fields) /\ In (n, b, Text s) fields /\ may_refer b).
Proof. exact nested_refuted. Qed.
Print Assumptions C147_nested_refuted.

(** ** A case: a train whose list of stages and whose mapping of charts refer to definitions; a name like a definition in a plain field *)
Definition C147_ref : annotation := Union [Plain; Reference].
Definition C147_model : list (string * annotation * value) :=
  [("name", Plain, Text "chart"); ("stages", Collection [C147_ref], Items [Text "stage"; Other 5; Text "chart"]);
   ("charts", Mapping [Plain; C147_ref], Dict [("low", Text "chart")]); ("cooler", C147_ref, Nothing)]%string.
Definition C147_defs : definitions := [("chart", Other 1); ("stage", Other 2)]%string.
Example C147_case : resolve_definitions C147_model C147_defs = Ok (Model
  [("name", Plain, Text "chart"); ("stages", Collection [C147_ref], Items [Other 2; Other 5; Other 1]);
   ("charts", Mapping [Plain; C147_ref], Dict [("low", Other 1)]); ("cooler", C147_ref, Nothing)]%string).
Proof. reflexivity. Qed.
Example C147_case_refers : refers C147_model [2; 0]%nat "chart" /\ refers C147_model [1; 2]%nat "chart".
Proof.
  split; (exists C147_ref; split; [|exists [Plain; Reference]; split; [reflexivity|right; left; reflexivity]]).
  - eapply typed_field; [reflexivity|]. eapply typed_entry; [constructor|reflexivity|constructor].
  - eapply typed_field; [reflexivity|]. eapply typed_item; [constructor|reflexivity|constructor].
Qed.
Example C147_case_annotated : annotated Plain (Model C147_model).
Proof.
  apply annotated_model. intros n fa v [E|[E|[E|[E|[]]]]]; injection E as <- <- <-; try (apply annotated_simple; exact I).
  - eapply annotated_items; [constructor|]. intros v [<-|[<-|[<-|[]]]]; apply annotated_simple; exact I.
  - eapply annotated_dict; [constructor|]. intros k v [E|[]]. injection E as <- <-. apply annotated_simple. exact I.
Qed.
Example C147_case_unknown : resolve_definitions C147_model [("chart"%string, Other 1)] = Err KeyError.
Proof. reflexivity. Qed.

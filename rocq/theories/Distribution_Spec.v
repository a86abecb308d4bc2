(** Vocabulary for the properties of stream distribution (C34-C36). *)
From Coq Require Import List Bool ZArith Lia Permutation.
From Verif Require Import QcTac Num Base Search_Model Stream_Model Graph_Model Graph_Spec Distribution_Model.
Import ListNotations.
Local Open Scope list_scope.
Local Open Scope Qc_scope.

(** [a] passes its excess on to [b]: the first overflow declared from [a] goes to [b]. *)
Definition passes_on (overflows : list overflow) (a b : node_id) : Prop :=
  exists l1 l2, overflows = l1 ++ (a, b) :: l2 /\ forall c, ~ In (a, c) l1.
Definition keeps_excess (overflows : list overflow) (a : node_id) : Prop := forall b, ~ In (a, b) overflows.

(** Following overflows never leads back to the same item. *)
Inductive leads_to (overflows : list overflow) : node_id -> node_id -> Prop :=
| leads_one : forall a b, In (a, b) overflows -> leads_to overflows a b
| leads_more : forall a b c, leads_to overflows a b -> In (b, c) overflows -> leads_to overflows a c.

(** What is passed on to [b]: the sum of the excess of the items that pass on to it. *)
Inductive received (overflows : list overflow) (excess : node_id -> Qc) (b : node_id) : list node_id -> Qc -> Prop :=
| received_nil : received overflows excess b [] 0
| received_from : forall a l q, passes_on overflows a b -> received overflows excess b l q ->
    received overflows excess b (a :: l) (excess a + q)
| received_not : forall a l q, ~ passes_on overflows a b -> received overflows excess b l q ->
    received overflows excess b (a :: l) q.

(** The rates of a distribution: item [order_j] starts with share [j], gets what is passed on to it, and passes its own
    excess on. *)
Definition balanced (sv : service) (d : distribution) (order : list node_id) (streams : list stream)
    (current excess : node_id -> Qc) : Prop :=
  Permutation order (map fst (d_items d)) /\
  (forall a b, In (a, b) (d_overflows d) -> before order a b) /\
  (forall j k, nth_error order j = Some k ->
     exists share, nth_error (d_rates d) j = Some share /\
     exists q, received (d_overflows d) excess k (map fst (d_items d)) q /\ current k = share + q) /\
  (forall k f, In (k, f) (d_items d) ->
     (keeps_excess (d_overflows d) k /\ excess k = 0) \/
     (exists b s, passes_on (d_overflows d) k b /\ stream_at sv (d_inlet d) (current k) = Return s /\ f s = Return (excess k))) /\
  Forall2 (fun item s => stream_at sv (d_inlet d) (current (fst item) - excess (fst item)) = Return s) (d_items d) streams.

(** Every item accepts its stream / some item refuses its stream and all before it accept theirs. *)
Definition accepted (items : list validity) (streams : list stream) : Prop :=
  Forall2 (fun is_valid s => is_valid s = Return true) items streams.
Definition refused (items : list validity) (streams : list stream) : Prop :=
  exists i item s, nth_error items i = Some item /\ nth_error streams i = Some s /\ item s = Return false /\
    forall j item' s', (j < i)%nat -> nth_error items j = Some item' -> nth_error streams j = Some s' -> item' s' = Return true.

(** No item reports an excess. *)
Definition no_excess (items : list (node_id * excess_function)) : Prop :=
  forall k f s e, In (k, f) items -> f s = Return e -> e = 0.
(** An item reports an excess between zero and the rate it is offered. *)
Definition proper_capacity (f : excess_function) : Prop :=
  forall s, 0 <= standard_rate s -> exists e, f s = Return e /\ 0 <= e /\ e <= standard_rate s.

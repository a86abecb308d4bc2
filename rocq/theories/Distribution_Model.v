(** Model of the distribution of a stream over consumers.  Floats are exact rationals. *)
From Coq Require Import List Bool ZArith Lia.
From Verif Require Import QcTac Num Base Search_Model Stream_Model Graph_Model.
Import ListNotations.
Local Open Scope list_scope.
Local Open Scope Qc_scope.

(** HasExcessRate: the part of a stream an item cannot handle.  An arbitrary
    function that may raise.
    src/libecalc/process/stream_distribution/common_stream_distribution.py:16-18 *)
Definition excess_function : Type := stream -> outcome Qc.

(** Overflow(from_id, to_id).  Ids are any hashables in the program.
    src/libecalc/process/stream_distribution/common_stream_distribution.py:24-27 *)
Definition overflow : Type := (node_id * node_id)%type.

(** CommonStreamDistribution.  [d_items] is a mapping: ids in insertion order.
    src/libecalc/process/stream_distribution/common_stream_distribution.py:30-46 *)
Record distribution : Type := mk_distribution {
  d_inlet : stream;
  d_items : list (node_id * excess_function);
  d_rates : list Qc;
  d_overflows : list overflow;
  d_graph : digraph }.

(** The graph of items and overflows.
    src/libecalc/process/stream_distribution/common_stream_distribution.py:44-49 *)
Definition overflow_graph (ids : list node_id) (overflows : list overflow) : digraph :=
  fold_left (fun r e => nx_add_edge e r) overflows (fold_left (fun r v => nx_add_node v r) ids []).

(** src/libecalc/process/stream_distribution/common_stream_distribution.py:31-52 *)
Definition new_distribution (inlet : stream) (items : list (node_id * excess_function)) (rate_fractions : list Qc)
    (overflows : list overflow) : outcome distribution :=
  let rates := map (fun fraction => standard_rate inlet * fraction) rate_fractions in
  let g := overflow_graph (map fst items) overflows in
  if negb (is_directed_acyclic_graph g) then Raise ValidationErr
  else Return (mk_distribution inlet items rates overflows g).

(** src/libecalc/process/stream_distribution/common_stream_distribution.py:54-55 *)
Definition get_number_of_streams (d : distribution) : nat := length (d_rates d).

(** The first overflow declared from an item.
    src/libecalc/process/stream_distribution/common_stream_distribution.py:60-64 *)
Fixpoint get_overflow_out (overflows : list overflow) (item : node_id) : option node_id :=
  match overflows with
  | [] => None
  | (from_id, to_id) :: rest => if node_eqb from_id item then Some to_id else get_overflow_out rest item
  end.

(** Streams are created with the fluid, temperature and pressure of the inlet.
    src/libecalc/process/stream_distribution/common_stream_distribution.py:75-80, 92-97 *)
Definition stream_at (sv : service) (inlet : stream) (rate : Qc) : outcome stream :=
  create_stream_from_standard_rate sv (s_model inlet) (s_pressure inlet) (s_temperature inlet) rate.

(** defaultdict(list) *)
Definition overflow_into (k : node_id) (m : list (node_id * list Qc)) : list Qc :=
  match dict_get node_eqb k m with Some l => l | None => [] end.

(** The loop of _adjust_for_overflow; zip(strict=True) raises ValueError when
    the lengths differ.
    src/libecalc/process/stream_distribution/common_stream_distribution.py:66-87 *)
Fixpoint adjust (sv : service) (d : distribution) (order : list node_id) (rates : list Qc)
    (overflow_map : list (node_id * list Qc)) (adjusted : list (node_id * Qc)) : outcome (list (node_id * Qc)) :=
  match order, rates with
  | [], [] => Return adjusted
  | item_id :: order', rate :: rates' =>
      let overflow_rate := qsum (overflow_into item_id overflow_map) in
      let current_rate := rate + overflow_rate in
      match get_overflow_out (d_overflows d) item_id with
      | Some to_id =>
          match dict_get node_eqb item_id (d_items d) with
          | None => Raise KeyErr
          | Some get_excess_rate =>
              let! s := stream_at sv (d_inlet d) current_rate in
              let! excess_rate := get_excess_rate s in
              let handled_rate := current_rate - excess_rate in
              adjust sv d order' rates'
                (dict_set node_eqb to_id (overflow_into to_id overflow_map ++ [excess_rate]) overflow_map)
                (dict_set node_eqb item_id handled_rate adjusted)
          end
      | None => adjust sv d order' rates' overflow_map (dict_set node_eqb item_id current_rate adjusted)
      end
  | _, _ => Raise ValueErr
  end.

(** _get_sorted_items and _adjust_for_overflow.  A cyclic graph cannot get
    here: the constructor refuses it.
    src/libecalc/process/stream_distribution/common_stream_distribution.py:57-58, 66-87 *)
Definition adjust_for_overflow (sv : service) (d : distribution) : outcome (list (node_id * Qc)) :=
  match topological_sort (d_graph d) with
  | Ok order => adjust sv d order (d_rates d) [] []
  | Err _ => Raise ValueErr
  end.

(** src/libecalc/process/stream_distribution/common_stream_distribution.py:89-100 *)
Definition get_streams (sv : service) (d : distribution) : outcome (list stream) :=
  let! rates := adjust_for_overflow sv d in
  let! streams := mapO (fun p => let! s := stream_at sv (d_inlet d) (snd p) in Return (fst p, s)) rates in
  mapO (fun item => match dict_get node_eqb (fst item) streams with Some s => Return s | None => Raise KeyErr end) (d_items d).

(** ** Priorities *)

(** HasValidity.is_valid. src/libecalc/process/stream_distribution/priorities_stream_distribution.py:8-10 *)
Definition validity : Type := stream -> outcome bool.

(** all(item.is_valid(stream) for item, stream in zip(items, streams, strict=True)):
    stops at the first item that is not valid.
    src/libecalc/process/stream_distribution/priorities_stream_distribution.py:17 *)
Fixpoint all_items_valid (items : list validity) (streams : list stream) : outcome bool :=
  match items, streams with
  | [], [] => Return true
  | is_valid :: items', s :: streams' =>
      let! b := is_valid s in
      if b then all_items_valid items' streams' else Return false
  | _, _ => Raise ValueErr
  end.

(** find_first_valid.  A distribution is what its get_streams returns, the same
    on both calls (it has no state).  [streams] is the variable that holds the
    streams of the last distribution tried.
    src/libecalc/process/stream_distribution/priorities_stream_distribution.py:13-20 *)
Fixpoint first_valid_loop (distributions : list (outcome (list stream))) (items : list validity) (streams : list stream)
    : outcome (list stream) :=
  match distributions with
  | [] => Return streams
  | d :: rest =>
      let! streams := d in
      let! again := d in
      let! ok := all_items_valid items again in
      if ok then Return streams else first_valid_loop rest items streams
  end.
Definition find_first_valid (distributions : list (outcome (list stream))) (items : list validity) : outcome (list stream) :=
  match distributions with
  | [] => Raise AssertionErr
  | _ => first_valid_loop distributions items []
  end.

(** PrioritiesStreamDistribution and IndividualStreamDistribution.
    src/libecalc/process/stream_distribution/priorities_stream_distribution.py:23-32,
    src/libecalc/process/stream_distribution/individual_stream_distribution.py:7-15 *)
Definition priorities_get_streams := find_first_valid.
Definition priorities_get_number_of_streams (distributions : list (outcome (list stream))) (items : list validity) : nat := length items.
Definition individual_get_streams (streams : list stream) : outcome (list stream) := Return streams.
Definition individual_get_number_of_streams (streams : list stream) : nat := length streams.

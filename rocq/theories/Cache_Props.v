(** Property C44 (the LRU cache of the NeqSim wrapper): theorems. *)
From Coq Require Import ZArith PeanoNat String.
From Verif Require Import Base Cache_Model Cache_Spec Cache_Proofs Cache_Proofs2.
Local Open Scope list_scope.
Local Open Scope nat_scope.

(** Every result of every sequence of calls is the right one (the last value put unless at least [size] other keys
    were used since; the statistics count what happened), and the cache never holds more than [size] entries. *)
Theorem C44_every_result : forall (K V : Type) (eqb : K -> K -> bool) (m : nat) (ops : list (@op K V)),
  (forall a b, eqb a b = true <-> a = b) -> 0 < m ->
  let (s, events) := run eqb ops (new_lru (Z.of_nat m)) in
  right_history eqb m [] events /\ map fst events = ops /\
  length (entries s) <= m /\ NoDup (map fst (entries s)).
Proof. exact sequential_proof. Qed.
Print Assumptions C44_every_result.

(** Threads that interleave anywhere: the results are those of one sequential order that extends as the threads
    run on (so a call that ended before another began comes first in it), and no state is stuck. *)
Theorem C44_threads : forall (K V : Type) (eqb : K -> K -> bool) (size : Z) (programs : list (list (@op K V))) (m m' : @machine K V),
  steps eqb (start size programs) m -> steps eqb m m' ->
  exists h more, explains eqb size programs h m /\ explains eqb size programs (h ++ more) m' /\
    ((forall t, In t (threads m) -> finished t) \/ exists next, step eqb m next).
Proof. exact threads_proof. Qed.
Print Assumptions C44_threads.

(** So with threads too every result is the right one for the calls before it. *)
Theorem C44_threads_right : forall (K V : Type) (eqb : K -> K -> bool) (size : nat) (programs : list (list (@op K V))) (m : @machine K V),
  (forall a b, eqb a b = true <-> a = b) -> 0 < size ->
  steps eqb (start (Z.of_nat size) programs) m ->
  exists h : list (nat * (@op K V * result (@output V))),
    right_history eqb size [] (map snd h) /\
    forall i t, nth_error (threads m) i = Some t ->
      results t = of_thread i h /\ nth_error programs i = Some (map fst (results t) ++ program_left t).
Proof. exact threads_right_proof. Qed.
Print Assumptions C44_threads_right.

(** Size zero switches the cache off; a negative size makes every put raise KeyError and empties the cache. *)
Theorem C44_disabled : forall (K V : Type) (eqb : K -> K -> bool) (ops : list (@op K V)),
  let (s, events) := run eqb ops (new_lru 0) in
  entries s = [] /\ forall k r, In (Get k, r) events -> r = Ok (OValue None).
Proof. exact disabled_proof. Qed.
Print Assumptions C44_disabled.
Theorem C44_negative_size : forall (K V : Type) (eqb : K -> K -> bool) (s : @lru K V) k v, (max_size s < 0)%Z ->
  snd (call eqb (Put k v) s) = Err KeyError /\ entries (fst (call eqb (Put k v) s)) = [].
Proof. exact negative_size_proof. Qed.
Print Assumptions C44_negative_size.

(** The registry: a cache keeps the size of its first creation and sees exactly the calls made under its name;
    clear_all leaves every cache empty. *)
Theorem C44_registry : forall (K V : Type) (eqb : K -> K -> bool) name (ops : list (@service_op K V)),
  get_cache name (service_run eqb ops) =
    option_map (fun size => fst (run eqb (calls_on false name ops) (new_lru size))) (first_size name ops).
Proof. exact registry_proof. Qed.
Print Assumptions C44_registry.
Theorem C44_clear_all : forall (K V : Type) (eqb : K -> K -> bool) name (ops : list (@service_op K V)) c,
  get_cache name (service_run eqb (ops ++ [ClearAll])) = Some c -> entries c = [] /\ hits c = 0 /\ misses c = 0 /\ evictions c = 0.
Proof. exact clear_all_proof. Qed.
Print Assumptions C44_clear_all.

(** Cases: the key 2, least recently used, is evicted by the put of 3. *)
Example C44_case : snd (run Nat.eqb [Put 1 10; Put 2 20; Get 1; Put 3 30; Get 2; Get 1; Length; Stats] (new_lru 2)) =
  [(Put 1 10, Ok ONothing); (Put 2 20, Ok ONothing); (Get 1, Ok (OValue (Some 10))); (Put 3 30, Ok ONothing);
   (Get 2, Ok (OValue None)); (Get 1, Ok (OValue (Some 10))); (Length, Ok (OLength 2)); (Stats, Ok (OStats 2 1 1 2 2))].
Proof. reflexivity. Qed.

Definition C44_programs : list (list (@op nat nat)) := [[Put 1 10; Put 2 20]; [Get 1; Get 2]].
(** A thread in the middle of a put while the other waits; and both finished after interleaving. *)
Definition C44_machine1 : @machine nat nat :=
  let m0 := start 1 C44_programs in
  mk_machine (shared m0) (Some 0) (set_thread 0 (mk_thread [Put 2 20] (Some (Put 1 10, prog_of Nat.eqb (Put 1 10))) []) m0).
Example C44_threads_case : steps Nat.eqb (start 1 C44_programs) C44_machine1.
Proof. eapply steps_more; [apply steps_refl|]. exact (step_acquire Nat.eqb (start 1 C44_programs) 0 (mk_thread [Put 1 10; Put 2 20] None []) (Put 1 10) [Put 2 20] eq_refl eq_refl eq_refl eq_refl). Qed.
Definition C44_machine2 : @machine nat nat :=
  let m := C44_machine1 in
  match nth_error (threads m) 0 with
  | Some t => match running t with
              | Some (o, Prim f k) => mk_machine (f (shared m)) (Some 0) (set_thread 0 (mk_thread (todo t) (Some (o, k (shared m))) (results t)) m)
              | _ => m end
  | None => m end.
Example C44_threads_case2 : steps Nat.eqb (start 1 C44_programs) C44_machine2 /\ owner C44_machine2 = Some 0.
Proof. split; [|reflexivity]. eapply steps_more; [apply C44_threads_case|]. 
  exact (step_prim Nat.eqb C44_machine1 0 (mk_thread [Put 2 20] (Some (Put 1 10, prog_of Nat.eqb (Put 1 10))) []) (Put 1 10) _ _ eq_refl eq_refl eq_refl). Qed.

Example C44_registry_case : exists c, get_cache "flash" (service_run Nat.eqb
    [Create "flash" 2; Use "flash" (Put 1 10); Create "flash" 7; Create "other" 3; Use "other" (Put 5 50); Use "flash" (Get 1)]) = Some c /\
  max_size c = 2%Z /\ entries c = [(1, 10)] /\ hits c = 1.
Proof. eexists. split; [reflexivity|]. repeat split. Qed.

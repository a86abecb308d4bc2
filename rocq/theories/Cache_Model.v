(** Model of the LRU cache used for NeqSim fluids and flash results.

    A call of a method is a program of primitive steps on the shared fields,
    run by a thread between taking and releasing the lock; threads interleave
    between any two steps. *)
From Coq Require Import ZArith PeanoNat.
From Verif Require Import Base.
Local Open Scope list_scope.
Local Open Scope nat_scope.

Section Cache.
Context {K V : Type}.
Variable eqb : K -> K -> bool.

(** The fields: the OrderedDict (oldest entry first) and the statistics.
    src/ecalc_neqsim_wrapper/cache_service.py:57-66 *)
Record lru : Type := mk_lru {
  entries : list (K * V);
  max_size : Z;
  hits : nat;
  misses : nat;
  evictions : nat }.
Definition new_lru (size : Z) : lru := mk_lru [] size 0 0 0.

(** What a call returns. *)
Inductive output : Type :=
| OValue (v : option V)                       (* get *)
| ONothing                                    (* put, clear *)
| OLength (n : nat)                           (* __len__ *)
| OStats (hits misses evictions size : nat) (max_size : Z).  (* get_stats, without the rounded hit rate *)

Inductive op : Type :=
| Get (k : K)
| Put (k : K) (v : V)
| Clear
| Length
| Stats.

(** A program: primitive steps on the fields, then a result or an exception. *)
Inductive prog : Type :=
| Finish (r : result output)
| Prim (f : lru -> lru) (k : lru -> prog).   (* [k] sees the fields before the step *)

Definition set_entries (l : list (K * V)) (s : lru) : lru := mk_lru l (max_size s) (hits s) (misses s) (evictions s).
Definition count_hit (s : lru) : lru := mk_lru (entries s) (max_size s) (S (hits s)) (misses s) (evictions s).
Definition count_miss (s : lru) : lru := mk_lru (entries s) (max_size s) (hits s) (S (misses s)) (evictions s).
Definition count_eviction (s : lru) : lru := mk_lru (entries s) (max_size s) (hits s) (misses s) (S (evictions s)).
Definition reset_stats (s : lru) : lru := mk_lru (entries s) (max_size s) 0 0 0.

(** key in OrderedDict; OrderedDict.move_to_end (of a key that is there);
    OrderedDict.__setitem__ keeps the position of a key that is there. *)
Definition has (k : K) (s : lru) : bool := match dict_get eqb k (entries s) with Some _ => true | None => false end.
Definition move_to_end (k : K) (s : lru) : lru :=
  match dict_get eqb k (entries s) with
  | Some v => set_entries (filter (fun p => negb (eqb k (fst p))) (entries s) ++ [(k, v)]) s
  | None => s
  end.
Definition store (k : K) (v : V) (s : lru) : lru := set_entries (dict_set eqb k v (entries s)) s.

(** src/ecalc_neqsim_wrapper/cache_service.py:68-76 *)
Definition get_prog (k : K) : prog :=
  Prim (fun s => s) (fun s =>                                (* if key in self._cache *)
    if has k s then
      Prim (move_to_end k) (fun _ =>
      Prim count_hit (fun _ =>
      Prim (fun s => s) (fun s =>                            (* return self._cache[key] *)
        match dict_get eqb k (entries s) with
        | Some v => Finish (Ok (OValue (Some v)))
        | None => Finish (Err KeyError)
        end)))
    else
      Prim count_miss (fun _ => Finish (Ok (OValue None)))).

(** The eviction loop; popitem raises KeyError on an empty dictionary.  Every
    round removes an entry, so [rounds] = number of entries + 1 suffices;
    OtherError if they run out, which is proved not to happen.
    src/ecalc_neqsim_wrapper/cache_service.py:91-93 *)
Fixpoint evict_prog (rounds : nat) : prog :=
  match rounds with
  | O => Finish (Err OtherError)
  | S rounds' =>
      Prim (fun s => s) (fun s =>
        if Z.ltb (max_size s) (Z.of_nat (length (entries s))) then
          match entries s with
          | [] => Finish (Err KeyError)
          | _ :: _ =>
              Prim (fun s => set_entries (tl (entries s)) s) (fun _ =>
              Prim count_eviction (fun _ => evict_prog rounds'))
          end
        else Finish (Ok ONothing))
  end.

(** src/ecalc_neqsim_wrapper/cache_service.py:78-93 *)
Definition put_prog (k : K) (v : V) : prog :=
  Prim (fun s => s) (fun s =>
    if Z.eqb (max_size s) 0 then Finish (Ok ONothing)
    else
      let rest := Prim (store k v) (fun s => evict_prog (S (S (length (entries s))))) in
      Prim (fun s => s) (fun s => if has k s then Prim (move_to_end k) (fun _ => rest) else rest)).

(** src/ecalc_neqsim_wrapper/cache_service.py:95-99 *)
Definition clear_prog : prog :=
  Prim (set_entries []) (fun _ => Prim reset_stats (fun _ => Finish (Ok ONothing))).

(** src/ecalc_neqsim_wrapper/cache_service.py:101-111 (without the hit rate,
    which is computed from the counts and rounded), 113-115 *)
Definition stats_prog : prog :=
  Prim (fun s => s) (fun s =>
    let h := hits s in let m := misses s in let e := evictions s in
    Prim (fun s => s) (fun s => Finish (Ok (OStats h m e (length (entries s)) (max_size s))))).
Definition length_prog : prog := Prim (fun s => s) (fun s => Finish (Ok (OLength (length (entries s))))).

Definition prog_of (o : op) : prog :=
  match o with
  | Get k => get_prog k
  | Put k v => put_prog k v
  | Clear => clear_prog
  | Length => length_prog
  | Stats => stats_prog
  end.

(** Running a program without interruption; a sequence of calls with their results. *)
Fixpoint exec (p : prog) (s : lru) : lru * result output :=
  match p with
  | Finish r => (s, r)
  | Prim f k => exec (k s) (f s)
  end.
Definition call (o : op) (s : lru) : lru * result output := exec (prog_of o) s.
Fixpoint run (ops : list op) (s : lru) : lru * list (op * result output) :=
  match ops with
  | [] => (s, [])
  | o :: ops' =>
      let (s1, r) := call o s in
      let (s2, rs) := run ops' s1 in
      (s2, (o, r) :: rs)
  end.

(** ** Threads.  A thread has calls still to make, perhaps one call it is
    running (it then holds the lock) and the results so far. *)
Record thread : Type := mk_thread { todo : list op; running : option (op * prog); results : list (op * result output) }.
Record machine : Type := mk_machine { shared : lru; owner : option nat; threads : list thread }.

Definition set_thread (i : nat) (t : thread) (m : machine) : list thread :=
  firstn i (threads m) ++ t :: skipn (S i) (threads m).

(** "with self._lock": the lock is free to take; the body runs step by step;
    leaving the block releases it (also with an exception). *)
Inductive step : machine -> machine -> Prop :=
| step_acquire : forall m i t o ops,
    nth_error (threads m) i = Some t -> running t = None -> todo t = o :: ops -> owner m = None ->
    step m (mk_machine (shared m) (Some i) (set_thread i (mk_thread ops (Some (o, prog_of o)) (results t)) m))
| step_prim : forall m i t o f k,
    nth_error (threads m) i = Some t -> running t = Some (o, Prim f k) -> owner m = Some i ->
    step m (mk_machine (f (shared m)) (Some i) (set_thread i (mk_thread (todo t) (Some (o, k (shared m))) (results t)) m))
| step_release : forall m i t o r,
    nth_error (threads m) i = Some t -> running t = Some (o, Finish r) -> owner m = Some i ->
    step m (mk_machine (shared m) None (set_thread i (mk_thread (todo t) None (results t ++ [(o, r)])) m)).

Inductive steps : machine -> machine -> Prop :=
| steps_refl : forall m, steps m m
| steps_more : forall m m' m'', steps m m' -> step m' m'' -> steps m m''.

Definition start (size : Z) (programs : list (list op)) : machine :=
  mk_machine (new_lru size) None (map (fun ops => mk_thread ops None []) programs).
End Cache.

(** ** The registry of caches.  A cache lives in the registry from its creation on, so it is identified with its name. *)
From Coq Require Import String.
Section Registry.
Context {K V : Type}.
Variable eqb : K -> K -> bool.
Definition registry : Type := list (string * @lru K V).

(** CacheService.create_cache. src/ecalc_neqsim_wrapper/cache_service.py:134-157 *)
Definition create_cache (name : string) (size : Z) (r : registry) : registry :=
  match dict_get String.eqb name r with
  | Some _ => r
  | None => dict_set String.eqb name (new_lru size) r
  end.
(** CacheService.get_cache. src/ecalc_neqsim_wrapper/cache_service.py:159-163 *)
Definition get_cache (name : string) (r : registry) : option (@lru K V) := dict_get String.eqb name r.
(** CacheService.clear_all. src/ecalc_neqsim_wrapper/cache_service.py:165-170 *)
Definition clear_all (r : registry) : registry := map (fun p => (fst p, fst (call eqb Clear (snd p)))) r.
(** CacheService.clear_cache. src/ecalc_neqsim_wrapper/cache_service.py:172-177 *)
Definition clear_cache (name : string) (r : registry) : registry :=
  match dict_get String.eqb name r with
  | Some c => dict_set String.eqb name (fst (call eqb Clear c)) r
  | None => r
  end.

(** What a program does with the service: the above and calls on a cache it obtained. *)
Inductive service_op : Type :=
| Create (name : string) (size : Z)
| ClearAll
| ClearOne (name : string)
| Use (name : string) (o : @op K V).
Definition service_step (r : registry) (o : service_op) : registry :=
  match o with
  | Create name size => create_cache name size r
  | ClearAll => clear_all r
  | ClearOne name => clear_cache name r
  | Use name o =>
      match dict_get String.eqb name r with
      | Some c => dict_set String.eqb name (fst (call eqb o c)) r
      | None => r
      end
  end.
Definition service_run (ops : list service_op) : registry := fold_left service_step ops [].
End Registry.

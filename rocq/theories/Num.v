(** Numbers that may be missing.

    [num] models a Python/numpy float: [Some q] is a finite number (as an exact rational), [None] is a
    value that is not a finite number (NaN, or the infinity numpy returns for x/0 with x <> 0). *)
From Verif Require Import QcTac Base BaseLemmas.

Notation num := (option Qc).
Definition nan : num := None.

Definition num_lift2 (f : Qc -> Qc -> Qc) (a b : num) : num :=
  match a, b with Some x, Some y => Some (f x y) | _, _ => None end.
Definition nadd : num -> num -> num := num_lift2 Qcplus.
Definition nsub : num -> num -> num := num_lift2 Qcminus.
Definition nmul : num -> num -> num := num_lift2 Qcmult.
(** numpy true division of arrays: no exception, not a finite number when dividing by zero *)
Definition ndiv (a b : num) : num :=
  match a, b with
  | Some x, Some y => if Qceqb y 0 then None else Some (x / y)%Qc
  | _, _ => None
  end.
(** Python [v != 0.0] (true for NaN) *)
Definition nonzero (a : num) : bool := match a with Some x => negb (Qceqb x 0) | None => true end.
(** NaN counts as zero, as in np.nancumsum *)
Definition nan_zero (a : num) : Qc := match a with Some x => x | None => 0%Qc end.

Definition qsum (l : list Qc) : Qc := fold_right Qcplus 0%Qc l.

(** numpy broadcasting of two one-dimensional arrays *)
Definition np_broadcast {A B C} (f : A -> B -> C) (l : list A) (m : list B) : result (list C) :=
  if Nat.eqb (length l) (length m) then Ok (map2 f l m)
  else match l, m with
       | [a], _ => Ok (map (f a) m)
       | _, [b] => Ok (map (fun a => f a b) l)
       | _, _ => Err ValueError
       end.

(** for examples *)
Lemma num_eq_this : forall a b : num, option_map this a = option_map this b -> a = b.
Proof. intros [x|] [y|] H; cbn in H; try discriminate; auto. f_equal. apply qc_eq_this. congruence. Qed.
Lemma num_list_eq : forall l m : list num, map (option_map this) l = map (option_map this) m -> l = m.
Proof.
  induction l as [|x l IH]; intros [|y m] H; cbn in H; try discriminate; auto. injection H as H1 H2.
  f_equal; auto. now apply num_eq_this.
Qed.
Ltac num_compute := first [apply num_list_eq | apply num_eq_this | apply qc_list_eq | apply qc_eq_this]; vm_compute; reflexivity.

(** Model of number formatting (common/math/numbers.py). *)
From Coq Require Import String Qround.
From Verif Require Import QcTac Num Flash_Model Base.
Local Open Scope list_scope.
Local Open Scope Qc_scope.

(** The printed text: a sign, the digits before and the digits after the decimal sign. *)
Record text : Type := mkText { tx_negative : bool; tx_whole : Z; tx_fraction : list Z }.

(** the number of decimal digits of a positive integer; [ndigits_ok] shows that the fuel is never used up *)
Fixpoint ndigits (fuel : nat) (n : Z) : Z :=
  match fuel with
  | O => 0
  | S f => if (n <? 10)%Z then 1%Z else (1 + ndigits f (n / 10))%Z
  end.
Definition digits_of (n : Z) : Z := ndigits (S (Z.to_nat (Z.log2 n))) n.
(** decimal.Decimal.adjusted: the exponent of the first digit of a number that is not zero *)
Definition adjusted (x : Qc) : Z :=
  let a := Qcabs x in
  if Qcltb a 1 then (- digits_of (Qceiling (this (1 / a)) - 1))%Z else (digits_of (Qfloor (this a)) - 1)%Z.

(** the digits of [r < 10 ^ n] *)
Fixpoint fraction_digits (n : nat) (r : Z) : list Z :=
  match n with
  | O => []
  | S k => (r / 10 ^ Z.of_nat k)%Z :: fraction_digits k (r mod 10 ^ Z.of_nat k)
  end.
Fixpoint trim (l : list Z) : list Z :=
  match l with
  | [] => []
  | d :: r => match trim r with [] => if (d =? 0)%Z then [] else [d] | r' => d :: r' end
  end.
(** numpy.format_float_positional(x, n, unique=True, fractional=True, trim="-"): the decimal with [n] digits after the
    decimal sign nearest to the number, ties to even, without trailing zeros.  (Numbers are exact rationals here.  A float
    whose shortest decimal has at most [n] digits is printed as that decimal, which is what the number stands for in the
    model.) *)
Definition format_float_positional (x : Qc) (n : Z) : text :=
  let m := nearest (Qcabs x * qz (10 ^ n)) in
  mkText (Qcltb x 0) (m / 10 ^ n)%Z (trim (fraction_digits (Z.to_nat n) (m mod 10 ^ n))).

(** 13-64, Numbers.format_to_precision, for finite numbers.  10 ** (-precision - 1) is exact here. *)
Definition new_precision (x : Qc) (precision : Z) : Z :=
  let significant_digits := adjusted x in
  if (significant_digits <? 0)%Z then precision
  else if (significant_digits <? precision)%Z then (precision - significant_digits)%Z
  else 0%Z.
Definition format_to_precision (x : Qc) (precision : Z) : result text :=
  if (precision <? -1)%Z then Err ValueError
  else if Qcleb (Qcabs x) (1 / qz (10 ^ (precision + 1))) then Ok (mkText false 0 [])
  else Ok (format_float_positional x (new_precision x precision)).

(** float of a text: the exact decimal here, the nearest float there *)
Fixpoint fraction_value (l : list Z) : Qc := match l with [] => 0 | d :: r => (qz d + fraction_value r) / qz 10 end.
Definition float_of_text (t : text) : Qc :=
  let v := qz (tx_whole t) + fraction_value (tx_fraction t) in if tx_negative t then - v else v.

(** Results: pydantic models and dictionaries with named entries, lists, floats, and everything else (integers, strings,
    None, dates, tuples), which is left alone. *)
Inductive tree : Type :=
| TModel (fields : list (string * tree)) | TDict (entries : list (string * tree)) | TList (items : list tree)
| TFloat (x : Qc) | TOther (n : nat).
(** 66-96, Numbers.format_results_to_precision.  The copy is the result; the argument is not changed. *)
Fixpoint round_tree (precision : Z) (t : tree) : result tree :=
  let entries_of := fix entries_of (l : list (string * tree)) : result (list (string * tree)) :=
    match l with [] => Ok [] | (k, v) :: r => do v' <- round_tree precision v; do r' <- entries_of r; Ok ((k, v') :: r') end in
  let items_of := fix items_of (l : list tree) : result (list tree) :=
    match l with [] => Ok [] | v :: r => do v' <- round_tree precision v; do r' <- items_of r; Ok (v' :: r') end in
  match t with
  | TModel fields => do l <- entries_of fields; Ok (TModel l)
  | TDict entries => do l <- entries_of entries; Ok (TDict l)
  | TList items => do l <- items_of items; Ok (TList l)
  | TFloat x => do s <- format_to_precision x precision; Ok (TFloat (float_of_text s))
  | TOther n => Ok (TOther n)
  end.

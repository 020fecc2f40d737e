(** * PyFloat: the numbers of the Collatz demos: Python's ints, and floats with an integer value.

    A float is an IEEE 754 binary64 number; only those with an integer value occur here, and infinities and nan are outside the model. *)
From Verif Require Import Py.
Open Scope Z_scope.

(** rounding to the nearest number with 53 significant binary digits, ties to the even one *)
Definition round53 (z : Z) : Z :=
  if Z.abs z <=? 2 ^ 53 then z else
  let e := Z.log2 (Z.abs z) - 52 in
  let q := z / 2 ^ e in
  let r := z mod 2 ^ e in
  let half := 2 ^ (e - 1) in
  (if r <? half then q else if half <? r then q + 1 else if Z.even q then q else q + 1) * 2 ^ e.

Inductive num := PInt (z : Z) | PFloat (z : Z).
Definition value (x : num) : Z := match x with PInt z | PFloat z => z end.
#[export] Instance EqD_num : EqD num.
Proof. intros x y. unfold EqD in *. decide equality; apply Z.eq_dec. Defined.

(** x % 2 == 0 *)
Definition is_even (x : num) : bool := value x mod 2 =? 0.
(** the float nearest to [z]; a result that is too large is an infinity, which is not modelled, or [e] *)
Definition to_float (e : exn) (z : Z) : res num := let r := round53 z in if Z.abs r <? 2 ^ 1024 then Ok (PFloat r) else Err e.
(** x / 2 for an even x: the true division of ints is rounded correctly and raises OverflowError; that of floats is exact *)
Definition halve (x : num) : res num := match x with PInt z => to_float OverflowError (z / 2) | PFloat z => Ok (PFloat (z / 2)) end.
(** 3 * x + 1: ints are unbounded; for floats both operations round *)
Definition triple_plus_one (x : num) : res num :=
  match x with
  | PInt z => Ok (PInt (3 * z + 1))
  | PFloat z => y <- to_float Unmodelled (3 * z) ;; to_float Unmodelled (value y + 1)
  end.

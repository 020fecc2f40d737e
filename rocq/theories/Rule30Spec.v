(** * Specification: rule 30 on the infinite line, started from one black cell *)
From Coq Require Import ZArith Bool.
Open Scope Z_scope.

(** the colour of place [x] after [t] steps: that of its left neighbour, flipped if the place itself or its right neighbour is black *)
Fixpoint world30 (t : nat) (x : Z) : bool :=
  match t with
  | O => x =? 0
  | S t => xorb (world30 t (x - 1)) (world30 t x || world30 t (x + 1))
  end.

(** from time [t0] on the sequence repeats after [p] steps *)
Definition repeats (f : nat -> bool) (t0 p : nat) : Prop := forall t, (t0 <= t)%nat -> f (t + p)%nat = f t.
Definition ev_periodic (f : nat -> bool) : Prop := exists t0 p, (1 <= p)%nat /\ repeats f t0 p.

(** the diagonals along the right and the left edge of the triangle, [k] places inside, and the columns *)
Definition right_diagonal (k : nat) (t : nat) : bool := world30 t (Z.of_nat t - Z.of_nat k).
Definition left_diagonal (k : nat) (t : nat) : bool := world30 t (Z.of_nat k - Z.of_nat t).
Definition column (x : Z) (t : nat) : bool := world30 t x.

(** * Rewriting of lists of numbers by neighbourhoods of one, two or three *)
From Coq Require Import List ZArith.
Import ListNotations.
Open Scope list_scope.
Open Scope Z_scope.

Fixpoint rewrite1 (f : Z -> list Z) (l : list Z) : list Z := match l with [] => [] | a :: l => f a ++ rewrite1 f l end.
Fixpoint rewrite2 (f : Z -> Z -> list Z) (l : list Z) : list Z :=
  match l with
  | a :: ((b :: _) as l') => f a b ++ rewrite2 f l'
  | _ => []
  end.
Fixpoint rewrite3 (f : Z -> Z -> Z -> list Z) (l : list Z) : list Z :=
  match l with
  | a :: ((b :: c :: _) as l') => f a b c ++ rewrite3 f l'
  | _ => []
  end.

(** a picture: the rows, filled with zeros up to the longest *)
Definition longest (rows : list (list Z)) : nat := list_max (map (@length Z) rows).
Definition padded (rows : list (list Z)) : list (list Z) := map (fun r => r ++ repeat 0 (longest rows - length r)) rows.
(** the first [T] rows *)
Definition first_rows (r : nat -> list Z) (T : Z) : list (list Z) := map r (seq 0 (Z.to_nat T)).

(** whether the number of binary digits one is odd *)
Fixpoint odd_digits (p : positive) : bool := match p with xH => true | xI p => negb (odd_digits p) | xO p => odd_digits p end.
Definition odd_ones (z : Z) : bool := match z with Zpos p => odd_digits p | _ => false end.

Fixpoint fib (n : nat) : nat := match n with O => 0 | S O => 1 | S (S n as m) => fib m + fib n end.

(** [same] for equal neighbours, [other] for different ones; the last element has the neighbour [e] *)
Fixpoint combined (same other e : Z) (l : list Z) : list Z :=
  match l with [] => [] | a :: l' => (if (match l' with [] => e | b :: _ => b end) =? a then same else other) :: combined same other e l' end.

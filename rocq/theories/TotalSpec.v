(** * Totalistic automata on the infinite line and the infinite plane, started from one cell (C123) *)
From Verif Require Import Py.
Open Scope list_scope.
Open Scope Z_scope.

(** the places that a cell looks at *)
Definition around3 : list Z := [-1; 0; 1].
Definition around2 : list Z := [-1; 0].
Definition square9 : list (Z * Z) := [(-1, -1); (-1, 0); (-1, 1); (0, -1); (0, 0); (0, 1); (1, -1); (1, 0); (1, 1)].
Definition cross5 : list (Z * Z) := [(-1, 0); (0, -1); (0, 0); (0, 1); (1, 0)].

(** each cell becomes [f] of the sum of the cells it looks at *)
Fixpoint line (N : list Z) (f : Z -> Z) (a : Z) (t : nat) (x : Z) : Z :=
  match t with
  | O => if x =? 0 then a else 0
  | S t => f (zsum (map (fun e => line N f a t (x + e)) N))
  end.
Fixpoint plane (N : list (Z * Z)) (f : Z -> Z) (a : Z) (t : nat) (x y : Z) : Z :=
  match t with
  | O => if (x =? 0) && (y =? 0) then a else 0
  | S t => f (zsum (map (fun e => plane N f a t (x + fst e) (y + snd e)) N))
  end.

(** the digit at place [s] of the number [code] in base [k]: what the totalistic rule with this code does with the sum [s] *)
Definition code_digit (k code s : Z) : Z := (code / k ^ s) mod k.

(** a sequence that repeats after [p] steps, from [t0] on *)
Definition comes_back (h : nat -> Z) (t0 p : nat) : Prop := forall t, (t0 <= t)%nat -> h (t + p)%nat = h t.

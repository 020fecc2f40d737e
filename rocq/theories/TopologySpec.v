(** * Specification of matrices and lattices for Topology.v. *)
From Verif Require Import Py.
Open Scope Z_scope.

(** the entry in row [i], column [j] (0 <= i, j) *)
Definition at_ {A} (M : list (list A)) (i j : Z) : option A :=
  match nth_error M (Z.to_nat i) with
  | Some row => nth_error row (Z.to_nat j)
  | None => None
  end.

(** [M] is a [k] by [k] matrix *)
Definition is_square {A} (k : Z) (M : list (list A)) : Prop :=
  Z.of_nat (length M) = k /\ forall row, In row M -> Z.of_nat (length row) = k.

(** distance of [i] and [j] on a ring of [n] cells *)
Definition ring_distance (n i j : Z) : Z := Z.min ((j - i) mod n) ((i - j) mod n).

(** [(c, d)] is the cell reached from [(a, b)] by an offset [(dx, dy)] admitted by [P], on a torus *)
Definition torus_step (rows cols : Z) (P : Z -> Z -> Prop) (a b c d : Z) : Prop :=
  exists dx dy, P dx dy /\ c = (a + dx) mod rows /\ d = (b + dy) mod cols.

Definition moore_offset (r dx dy : Z) : Prop := Z.abs dx <= r /\ Z.abs dy <= r.
Definition von_neumann_offset (r dx dy : Z) : Prop := Z.abs dx + Z.abs dy <= r.

(** the seven offsets of a hexagonal grid cell whose row is shifted right (even index) or left (odd index) *)
Definition hex_offset (a dx dy : Z) : Prop :=
  In (dx, dy) (if Z.even a then [(0, 0); (0, -1); (0, 1); (-1, 0); (-1, 1); (1, 0); (1, 1)]
               else [(0, 0); (0, -1); (0, 1); (-1, 0); (-1, -1); (1, 0); (1, -1)]).

(** [l'] is [l] cut in two with the parts swapped *)
Definition rotation_of {A} (l l' : list A) : Prop := exists x y, l = x ++ y /\ l' = y ++ x.

(** strictly ascending *)
Inductive ascending : list Z -> Prop :=
| asc0 : ascending []
| asc1 x : ascending [x]
| asc2 x y l : x < y -> ascending (y :: l) -> ascending (x :: y :: l).

(** the entry in row [i], column [j] is [v] *)
Definition entry_is {A} (M : list (list A)) (i j : Z) (v : A) : Prop := 0 <= i /\ 0 <= j /\ at_ M i j = Some v.

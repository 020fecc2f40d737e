(** * Langton's loop on the plane (C125) *)
From Verif Require Import Py CtrblSpec Langton.
Open Scope Z_scope.

(** a configuration of the plane: the state of the cell in row a, column b *)
Definition plane := Z -> Z -> Z.

(** the states of the cell, of the one above, to the right, below and to the left *)
Definition key5 (p : plane) (a b : Z) : list Z := [p a b; p (a - 1) b; p a (b + 1); p (a + 1) b; p a (b - 1)].

(** every cell of [p'] is the image of some entry of the table, turned by some number of quarter turns *)
Definition follows (table : list (list Z * Z)) (p p' : plane) : Prop := forall a b, exists k, In (k, p' a b) table /\ turned k (key5 p a b).

(** one loop, at row 0 and column 0, on an empty plane *)
Definition one_loop : plane := fun a b => match drawn a b with Some s => s | None => 0 end.

(** the first [T] steps of Langton's loop *)
Definition film (F : nat -> plane) (T : nat) : Prop :=
  (forall a b, F 0%nat a b = one_loop a b) /\ forall t, (t < T)%nat -> follows langton_table (F t) (F (S t)).

(** the same eleven columns further to the right; turned anti-clockwise around the middle of the loop (rows 0 to 9, columns -1 to 8) *)
Definition to_the_right (p : plane) : plane := fun a b => p a (b - 11).
Definition turn_left (p : plane) : plane := fun a b => p (b + 1) (8 - a).

(** the rectangles that the film does not leave in its first 151 and in its first 436 steps: (first row, first column, rows, columns), with an empty frame *)
Definition box (T : nat) : Z * Z * Z * Z := if (T <=? 151)%nat then (-6, -2, 17, 28) else (-25, -16, 38, 60).
Definition box_rows (T : nat) : Z := let '(_, _, h, _) := box T in h.
Definition box_cols (T : nat) : Z := let '(_, _, _, w) := box T in w.

(** two loops at [p] and [q] on a torus are so far apart that their rectangles do not overlap *)
Definition apart (rows cols : Z) (T : nat) (p q : Z * Z) : Prop :=
  box_rows T <= (fst p - fst q) mod rows <= rows - box_rows T \/ box_cols T <= (snd p - snd q) mod cols <= cols - box_cols T.

(** what a cell of the torus shows: the film seen from each of the loops. A place is counted from the rectangle's first row and column round the torus *)
Definition seen (rows cols : Z) (T : nat) (F : nat -> plane) (t : nat) (p : Z * Z) (a b : Z) : Z :=
  let '(r0, c0, _, _) := box T in F t (r0 + (a - fst p - r0) mod rows) (c0 + (b - snd p - c0) mod cols).
Definition colony (rows cols : Z) (T : nat) (loops : list (Z * Z)) (F : nat -> plane) (t : nat) : plane :=
  fun a b => zsum (map (fun p => seen rows cols T F t p a b) loops).

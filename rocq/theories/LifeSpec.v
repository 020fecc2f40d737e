(** * Conway's Game of Life on the infinite plane, told without networks *)
From Verif Require Import Py RulesSpec.
Open Scope list_scope.
Open Scope Z_scope.

(** a pattern is a finite list of live cells (row, column); everything else is dead *)
Notation pattern := (list (Z * Z)).
Definition lit (P : pattern) (c : Z * Z) : bool := existsb (fun d => (fst d =? fst c) && (snd d =? snd c)) P.

(** the eight cells around a cell *)
Definition surrounding (c : Z * Z) : list (Z * Z) :=
  map (fun d => (fst c + fst d, snd c + snd d)) [(-1, -1); (-1, 0); (-1, 1); (0, -1); (0, 1); (1, -1); (1, 0); (1, 1)].

(** is [c] alive one generation later? *)
Definition lives_on (P : pattern) (c : Z * Z) : bool :=
  let living := length (filter (lit P) (surrounding c)) in
  if lit P c then Nat.eqb living 2 || Nat.eqb living 3 else Nat.eqb living 3.
Definition generation (P Q : pattern) : Prop := forall c, lit Q c = lives_on P c.

(** the pattern moved down by [i] rows and right by [j] columns *)
Definition moved (i j : Z) (P : pattern) : pattern := map (fun c => (fst c + i, snd c + j)) P.

(** the grid S of rows x cols cells shows the pattern rolled up on the torus, and nothing else *)
Definition rolled_up (rows cols : Z) (P : pattern) (S : dict Z Z) : Prop :=
  forall a b, 0 <= a < rows -> 0 <= b < cols ->
    (alive cols S (a, b) = true <-> exists x y, lit P (x, y) = true /\ a = x mod rows /\ b = y mod cols).

(** the pattern leaves at least two rows and two columns of the torus free *)
Definition fits (rows cols : Z) (P : pattern) : Prop :=
  exists x0 y0, forall x y, lit P (x, y) = true -> x0 <= x <= x0 + rows - 3 /\ y0 <= y <= y0 + cols - 3.

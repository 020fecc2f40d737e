(** * The snowflake of the hexagonal automaton, on the infinite hexagonal plane (C121) *)
From Verif Require Import Py.
Open Scope list_scope.
Open Scope Z_scope.

(** cells have two coordinates; the six cells around a cell *)
Definition six : list (Z * Z) := [(1, 0); (0, 1); (-1, 1); (-1, 0); (0, -1); (1, -1)].

(** how many of the six are alive *)
Definition alive_around (s : Z -> Z -> bool) (q r : Z) : Z := zsum (map (fun d => if s (q + fst d) (r + snd d) then 1 else 0) six).

(** a cell is born when exactly one of the six is alive, and never dies *)
Fixpoint snow (s : Z -> Z -> bool) (t : nat) (q r : Z) : bool :=
  match t with
  | O => s q r
  | S t => snow s t q r || (alive_around (snow s t) q r =? 1)
  end.

(** from a single cell *)
Definition seed (q r : Z) : bool := (q =? 0) && (r =? 0).
Definition flake : nat -> Z -> Z -> bool := snow seed.

(** the hexagon of radius [t], and its boundary *)
Definition in_hexagon (t q r : Z) : Prop := Z.abs q <= t /\ Z.abs r <= t /\ Z.abs (q + r) <= t.
Definition on_hexagon (t q r : Z) : Prop := in_hexagon t q r /\ ~ in_hexagon (t - 1) q r.

(** a sixth of a turn, and a mirror *)
Definition turn (p : Z * Z) : Z * Z := (- snd p, fst p + snd p).
Definition mirror (p : Z * Z) : Z * Z := (snd p, fst p).

(** the cell of a grid with [cols] columns and [rows] rows whose odd rows are shifted left, at (q, r) from the centre cell, the grid being rolled up *)
Definition place (rows cols q r : Z) : Z :=
  let a := rows / 2 + r in a mod rows * cols + (cols / 2 + q + ((a + 1) / 2 - (rows / 2 + 1) / 2)) mod cols.

(** on the rolled-up grid the centre cell is seen again and again *)
Definition copies (rows cols q r : Z) : bool := (r mod rows =? 0) && ((q + r / 2) mod cols =? 0).

(** * The abelian sandpile on a grid whose opposite borders touch *)
From Verif Require Import Py.
Open Scope Z_scope.

(** positions [x] and [y] are next to each other on a ring of [n] *)
Definition next_to (n x y : Z) : bool := (y =? (x + 1) mod n) || (x =? (y + 1) mod n).

(** cells are numbered row by row; two different cells are beside each other when they are next to each other in a row or column *)
Definition beside (rows cols u v : Z) : bool :=
  negb (u =? v) && ((u / cols =? v / cols) && next_to cols (u mod cols) (v mod cols) || (u mod cols =? v mod cols) && next_to rows (u / cols) (v / cols)).

Definition border (rows cols v : Z) : bool := (v / cols =? 0) || (v / cols =? rows - 1) || (v mod cols =? 0) || (v mod cols =? cols - 1).

(** how many cells beside [v] topple *)
Definition received (rows cols : Z) (s : Z -> Z) (v : Z) : Z := zsum (map (fun u => if beside rows cols u v && (4 <=? s u) then 1 else 0) (zrange 0 (rows * cols))).

(** cells with at least 4 grains topple all at once; when closed, border cells are emptied *)
Definition sand_next (closed : bool) (rows cols : Z) (s : Z -> Z) (v : Z) : Z :=
  if closed && border rows cols v then 0 else s v + received rows cols s v - (if 4 <=? s v then 4 else 0).

Definition grains (rows cols : Z) (s : Z -> Z) : Z := zsum (map s (zrange 0 (rows * cols))).

Definition toppling (rows cols : Z) (s : Z -> Z) : Z := zsum (map (fun u => if 4 <=? s u then 1 else 0) (zrange 0 (rows * cols))).

(** neighbours along an axis of [n] positions *)
Definition axis_degree (n : Z) : Z := if n <=? 1 then 0 else if n =? 2 then 1 else 2.

Definition cell_value (S : dict Z Z) (v : Z) : Z := match dget S v with Some x => x | None => 0 end.

(** * The XOR gate of the Wireworld demo (C122) *)
From Verif Require Import Py.
Open Scope list_scope.
Open Scope Z_scope.

(** the cells of the gate, from the cell at which the upper input arrives; the lower input arrives six rows below it, the output leaves three rows below it *)
Definition upper_in : Z * Z := (0, 0).
Definition lower_in : Z * Z := (6, 0).
Definition output : Z * Z := (3, 10).
Definition gate : list (Z * Z) :=
  [(0, 1); (0, 2); (0, 3); (0, 4); (1, 5); (2, 4); (2, 5); (2, 6); (2, 7); (3, 4); (3, 7); (3, 8); (3, 9); (3, 10); (3, 11); (4, 4); (4, 5); (4, 6); (4, 7); (5, 5); (6, 1); (6, 2); (6, 3); (6, 4)].

(** a stream of bits, one every six timesteps, as it is seen at a cell of a wire: a head and then a tail for each 1 *)
Definition pulse (x : Z -> bool) (k : Z) : Z := if x (k / 6) then if k mod 6 =? 0 then 1 else if k mod 6 =? 1 then 2 else 3 else 3.

(** the gate alone: what its cells do when the inputs show the streams [x] and [y] *)
Definition wire_change (a heads : Z) : Z := if a =? 1 then 2 else if a =? 2 then 3 else if (heads =? 1) || (heads =? 2) then 1 else 3.
Definition around9 : list (Z * Z) := [(-1, -1); (-1, 0); (-1, 1); (0, -1); (0, 0); (0, 1); (1, -1); (1, 0); (1, 1)].
Definition seen (x y : Z -> bool) (k : Z) (g : list Z) (d : Z * Z) : Z :=
  if eqb d upper_in then pulse x k else if eqb d lower_in then pulse y k else
  match find (fun c => eqb d (fst c)) (combine gate g) with Some c => snd c | None => 0 end.
Definition gate_change (x y : Z -> bool) (k : Z) (g : list Z) : list Z :=
  map (fun c => wire_change (snd c) (zsum (map (fun e => if seen x y k g (fst (fst c) + fst e, snd (fst c) + snd e) =? 1 then 1 else 0) around9))) (combine gate g).
Fixpoint gate_alone (x y : Z -> bool) (from : Z) (k : nat) : list Z :=
  match k with
  | O => map (fun _ => 3) gate
  | S k => gate_change x y (from + Z.of_nat k) (gate_alone x y from k)
  end.

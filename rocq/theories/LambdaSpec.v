(** * Automata on a ring of cells that are given by a table of neighbourhoods, told without networks, strings or dicts (C127) *)
From Verif Require Import Py.
Open Scope list_scope.
Open Scope Z_scope.

(** the cell [v] after [t] steps, on a ring of [n] cells, when each cell looks [r] cells to either side and [look] says what it becomes *)
Fixpoint ring_cell (look : list Z -> Z) (n r : Z) (s : Z -> Z) (t : nat) (v : Z) : Z :=
  match t with
  | O => s v
  | S t => look (map (fun d => ring_cell look n r s t ((v + d) mod n)) (zrange (- r) (r + 1)))
  end.

(** the first [T] rows, cells 0 to n - 1 *)
Definition ring_picture (look : list Z -> Z) (n r : Z) (s : Z -> Z) (T : nat) : list (list Z) :=
  map (fun t => map (ring_cell look n r s t) (zrange 0 n)) (seq 0 T).

(** neighbourhoods of radius [r] with the states 0 to k - 1 *)
Definition neighbourhood (k r : Z) (l : list Z) : Prop := Forall (fun a => 0 <= a < k) l /\ Z.of_nat (length l) = 2 * r + 1.
(** neighbourhoods become states *)
Definition keeps_states (k r : Z) (look : list Z -> Z) : Prop := forall l, neighbourhood k r l -> 0 <= look l < k.
(** a cell that sees one state only keeps it *)
Definition strongly_quiescent (k r : Z) (look : list Z -> Z) : Prop := forall d, 0 <= d < k -> look (repeat d (Z.to_nat (2 * r + 1))) = d.
(** left and right are the same *)
Definition blind_to_side (k r : Z) (look : list Z -> Z) : Prop := forall l, neighbourhood k r l -> look (rev l) = look l.

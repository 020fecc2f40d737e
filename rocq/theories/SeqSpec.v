(** * Sequential cellular automata, told without networks or contexts, and the demo that runs one.

    demos/asynchronous_automata/asynchronous_automata_demo.py *)
From Verif Require Import Py CaSpec.
Open Scope list_scope.
Open Scope Z_scope.

(** one cell [c] is updated from its own state and those of the cells [nb c]; every other cell stays as it is *)
Definition seq_next {L A} `{EqD L} (nb : L -> list L) (f : L -> A -> list A -> A) (c : L) (s : L -> A) : L -> A :=
  fun w => if eqd w c then f c (s c) (map s (nb c)) else s w.
(** the cells take turns in the given order, over and over *)
Fixpoint seq_state {L A} `{EqD L} (nb : L -> list L) (f : L -> A -> list A -> A) (order : list L) (k : nat) (s : L -> A) : L -> A :=
  match k with
  | O => s
  | S k' => match nth_error order (k' mod length order) with
            | Some c => seq_next nb f c (seq_state nb f order k' s)
            | None => seq_state nb f order k' s
            end
  end.

(** the running parity of the cells 0 .. w *)
Definition parity_upto (s : Z -> Z) (w : Z) : Z := zsum (map s (zrange 0 (w + 1))) mod 2.
(** the state after one complete round of the order 1, ..., n-2: the first and the last cell never change *)
Definition parity_round (n : Z) (s : Z -> Z) : Z -> Z := fun w => if (1 <=? w) && (w <=? n - 2) then parity_upto s w else s w.
Fixpoint parity_rounds (n : Z) (k : nat) (s : Z -> Z) : Z -> Z := match k with O => s | S k' => parity_round n (parity_rounds n k' s) end.

(** Pascal's triangle *)
Fixpoint binomial (m k : nat) : Z :=
  match m, k with
  | _, O => 1
  | O, S _ => 0
  | S m', S k' => binomial m' k' + binomial m' k
  end.

(** asynchronous_automata_demo.py:12-13: range(1, 20) for the 21 cells *)
Definition demo_order (n : Z) : list Z := zrange 1 (n - 1).
(** asynchronous_automata_demo.py:20: activities[::m], every m-th element starting with the first; [i] counts the elements to be left out *)
Fixpoint stride {X} (m i : nat) (l : list X) : list X :=
  match l with
  | [] => []
  | x :: l' => match i with O => x :: stride m (m - 1) l' | S i' => stride m i' l' end
  end.

(** the row the demo draws after [k] rounds when it starts with a single 1, at [p] *)
Definition pascal_cell (n p : Z) (k : nat) (w : Z) : Z :=
  match k with
  | O => if w =? p then 1 else 0
  | S k' => if (p <=? w) && (w <=? n - 2) then binomial (Z.to_nat (w - p) + k') k' mod 2 else 0
  end.

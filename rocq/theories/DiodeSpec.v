(** * Wireworld wires that are several cells wide in places, and diodes (C122) *)
From Verif Require Import Py.
Open Scope list_scope.
Open Scope Z_scope.

(** a closed wire in which [pos] numbers the places 0 .. m-1 in the direction of travel; several cells may share a place. Nothing that is not empty touches it but cells of the wire at the same or the next place *)
Definition thick_wire (cells : Z -> Prop) (nb : Z -> list Z) (s : Z -> Z) (m : Z) (pos : Z -> Z) (wire : Z -> Prop) : Prop :=
  3 <= m /\ forall v, wire v -> cells v /\ 0 <= pos v < m /\
    forall x, In x (nb v) -> s x <> 0 -> wire x /\ (pos x = pos v \/ pos x = (pos v - 1) mod m \/ pos x = (pos v + 1) mod m).

(** the number of wire cells around [v] at the place before that of [v] *)
Definition behind (nb : Z -> list Z) (s : Z -> Z) (m : Z) (pos : Z -> Z) (v : Z) : nat :=
  length (filter (fun x => negb (s x =? 0) && (pos x =? (pos v - 1) mod m)) (nb v)).

(** a wire that conducts in the direction of travel, and one that does not between the places m-1 and 0 *)
Definition conducts (nb : Z -> list Z) (s : Z -> Z) (m : Z) (pos : Z -> Z) (wire : Z -> Prop) : Prop :=
  forall v, wire v -> behind nb s m pos v = 1%nat \/ behind nb s m pos v = 2%nat.
Definition blocks (nb : Z -> list Z) (s : Z -> Z) (m : Z) (pos : Z -> Z) (wire : Z -> Prop) : Prop :=
  forall v, wire v -> if pos v =? 0 then behind nb s m pos v = 0%nat \/ (3 <= behind nb s m pos v)%nat else behind nb s m pos v = 1%nat \/ behind nb s m pos v = 2%nat.

(** ** the diode of the demo: a row [a] with a hole in column [p], and two cells above and two below *)
(** a cell of a rolled-up grid, given by its distance from the hole *)
Definition near (rows cols a p dx dy : Z) : Z := (a + dx) mod rows * cols + (p + dy) mod cols.
(** the cells of the diode that lets electrons pass to the right (the cells above and below the hole and those left of them) or to the left *)
Definition diode (right : bool) (cols dx dy : Z) : bool :=
  (dx =? 0) && negb (dy mod cols =? 0) || (Z.abs dx =? 1) && ((dy mod cols =? 0) || (dy mod cols =? if right then cols - 1 else 1)).
(** the five rows around it show the diode and nothing else *)
Definition has_diode (right : bool) (rows cols a p : Z) (s : Z -> Z) : Prop :=
  forall dx dy, -2 <= dx <= 2 -> s (near rows cols a p dx dy) <> 0 <-> diode right cols dx dy = true.

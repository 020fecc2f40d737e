(** * Toppling one cell at a time (C120) *)
From Verif Require Import Py SandpileSpec.
Open Scope list_scope.
Open Scope Z_scope.

Section Abel.
  Variables (closed : bool) (rows cols : Z).

  (** the border cells of a closed pile hold nothing: what falls on them is lost *)
  Definition edge (v : Z) : bool := closed && border rows cols v.
  Definition live (v : Z) : Prop := 0 <= v < rows * cols /\ edge v = false.
  Definition edge_empty (s : Z -> Z) : Prop := forall v, 0 <= v < rows * cols -> edge v = true -> s v = 0.

  (** the cell [v] gives one grain to each cell beside it *)
  Definition topple (v : Z) (s : Z -> Z) (w : Z) : Z :=
    if edge w then 0 else s w + (if beside rows cols v w then 1 else 0) - (if w =? v then 4 else 0).

  (** [l] is a sequence of single topplings, each of a cell that has at least 4 grains at that moment, from [s] to [s'] *)
  Inductive topples : (Z -> Z) -> list Z -> (Z -> Z) -> Prop :=
  | tp_stop s s' : (forall w, 0 <= w < rows * cols -> s' w = s w) -> topples s [] s'
  | tp_go s v l s' : live v -> 4 <= s v -> topples (topple v s) l s' -> topples s (v :: l) s'.

  Definition stable (s : Z -> Z) : Prop := forall v, 0 <= v < rows * cols -> s v < 4.

  (** one more grain on [c] *)
  Definition plus_grain (c : Z) (s : Z -> Z) (w : Z) : Z := s w + (if w =? c then 1 else 0).
End Abel.

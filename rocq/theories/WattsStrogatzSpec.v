(** * Specification for WattsStrogatz.v: small-world wirings. *)
From Verif Require Import Py.
Open Scope Z_scope.

(** a wiring gives every node [u] of 0 .. n-1 a partner [to u j] for each distance [j] of 1 .. h *)
Definition wired (n h u j : Z) : Prop := 0 <= u < n /\ 1 <= j <= h.

(** the partners are nodes other than [u], and no two of the n * h connections join the same two nodes *)
Definition wiring (n h : Z) (to : Z -> Z -> Z) : Prop :=
  (forall u j, wired n h u j -> 0 <= to u j < n /\ to u j <> u) /\
  (forall u j u' j', wired n h u j -> wired n h u' j' ->
     (u = u' /\ to u j = to u' j') \/ (u = to u' j' /\ to u j = u') -> u = u' /\ j = j').

(** [a] and [b] are partners *)
Definition partners (n h : Z) (to : Z -> Z -> Z) (a b : Z) : Prop :=
  exists u j, wired n h u j /\ ((a = u /\ b = to u j) \/ (b = u /\ a = to u j)).

(** every node keeps being drawn *)
Definition keeps_drawing (n : Z) (pick : nat -> Z) : Prop :=
  forall w m, 0 <= w < n -> exists i, (m <= i)%nat /\ pick i mod n = w.

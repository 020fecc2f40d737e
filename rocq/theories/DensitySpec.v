(** Specification for the density classification demos: which state is in the majority, and what it means to classify. *)
From Verif Require Import Py CaSpec CaNets EcaSpec.
Open Scope list_scope.
Open Scope Z_scope.

(** the number of ones among the cells 0 .. n-1, and the state of more than half of them *)
Definition count (n : Z) (s : Z -> Z) : Z := zsum (map s (zrange 0 n)).
Definition majority (n : Z) (s : Z -> Z) : Z := if n <? 2 * count n s then 1 else 0.
Definition uniform (n a : Z) (s : Z -> Z) : Prop := forall v, 0 <= v < n -> s v = a.
Definition binary (n : Z) (s : Z -> Z) : Prop := forall v, 0 <= v < n -> bit (s v).

(** after [T] steps of the rule [f] of radius [r] on the ring of [n] cells, every configuration has become its majority state *)
Definition classifies (n r : Z) (f : list Z -> Z) (T : nat) : Prop :=
  forall s, binary n s -> uniform n (majority n s) (ca_state (ring_nb n r) (fun _ _ l => f l) T s).

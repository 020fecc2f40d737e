(** * Cellular automata whose new states are disturbed, told without networks, contexts or dicts *)
From Verif Require Import Py CaSpec.
Open Scope list_scope.

(** in step [k] cell [v] becomes what the rule gives, turned by [q k v] *)
Fixpoint pert_state {L A} (nb : L -> list L) (f : L -> A -> list A -> A) (q : nat -> L -> A -> A) (s : L -> A) (k : nat) : L -> A :=
  match k with
  | O => s
  | S k' => fun v => q k' v (ca_next nb f (pert_state nb f q s k') v)
  end.

(** cell [c] is overwritten by the draws [d 0], [d 1], ... *)
Definition overwrite (c : Z) (d : nat -> Z) (k : nat) (v a : Z) : Z := if (v =? c)%Z then d k else a.

(** a table over three cells whose value always changes with the leftmost cell *)
Definition left_permutive (f : Z -> Z -> list Z -> Z) : Prop :=
  forall v w e e' a a' b c, (a = 0 \/ a = 1)%Z -> (a' = 0 \/ a' = 1)%Z -> (b = 0 \/ b = 1)%Z -> (c = 0 \/ c = 1)%Z -> a <> a' -> f v e [a; b; c] <> f w e' [a'; b; c].

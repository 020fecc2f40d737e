(** * Specifications for binary automata on rings *)
From Verif Require Import Py RulesSpec.
Open Scope list_scope.
Open Scope Z_scope.

Definition bit (a : Z) : Prop := a = 0 \/ a = 1.
(** reading a neighbourhood backwards, or with 0 and 1 exchanged *)
Definition mirror_rule (m : nat) (N N' : Z) : Prop :=
  forall l, length l = m -> is_bits l -> Z.testbit N' (number 2 (rev l)) = Z.testbit N (number 2 l).
Definition flip (a : Z) : Z := 1 - a.
Definition complement_rule (m : nat) (N N' : Z) : Prop :=
  forall l, length l = m -> is_bits l -> Z.testbit N' (number 2 (map flip l)) = negb (Z.testbit N (number 2 l)).

(** [x xor y] on 0 and 1 *)
Definition zxor (a b : Z) : Z := (a + b) mod 2.
Fixpoint zip_xor (l l' : list Z) : list Z := match l, l' with a :: l, b :: l' => zxor a b :: zip_xor l l' | _, _ => [] end.
(** the rule is linear over the field with two elements *)
Definition linear_rule (m : nat) (N : Z) : Prop := forall l l', length l = m -> length l' = m -> is_bits l -> is_bits l' ->
  Z.testbit N (number 2 (zip_xor l l')) = xorb (Z.testbit N (number 2 l)) (Z.testbit N (number 2 l')).


(** how many cells of 0 .. n-1 are 1 *)
Definition ones (n : Z) (S : dict Z Z) : nat := length (filter (fun v => match dget S v with Some a => a =? 1 | None => false end) (zrange 0 n)).

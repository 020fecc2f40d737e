(** * Specification for the run of demos/wolfram_physics/wolfram_physics_demo.py: hypergraphs of triples that grow by one node at a time. *)
From Coq Require Import ZArith List Permutation.
From Verif Require Import WolframSpec.
Import ListNotations.
Open Scope Z_scope.

(** relations that start with the same node twice *)
Definition loop_rel (r : relation) : bool := match r with u :: v :: _ => u =? v | _ => false end.
Definition loops (c : config) : config := filter loop_rel c.

(** one event: the relation (1, 1, b) and a relation (x, y, 1) give way to (1, 1, y), (n + 1, y, x) and (b, n + 1, 1); nothing else changes *)
Definition event (n : Z) (old new : config) : Prop := exists b x y rest,
  Permutation old ([1; 1; b] :: [x; y; 1] :: rest) /\ Permutation new ([1; 1; y] :: [n + 1; y; x] :: [b; n + 1; 1] :: rest).

(** two nodes are joined when a chain of relations leads from one to the other *)
Inductive joined (c : config) (u : Z) : Z -> Prop :=
| joined_refl : joined c u u
| joined_step v w r : joined c u v -> In r c -> In v r -> In w r -> joined c u w.

(** n + 1 triples on the nodes 1 .. n, all joined to node 1; some triple ends in 1; for n >= 2 that one is no loop, and the only loop is at node 1 *)
Definition triple (r : relation) : Prop := exists u v w, r = [u; v; w].
Record shape (n : Z) (c : config) : Prop := mkShape {
  sh_pos : 1 <= n;
  sh_len : Z.of_nat (length c) = n + 1;
  sh_triples : forall r, In r c -> triple r;
  sh_nodes : forall z, In z (concat c) <-> 1 <= z <= n;
  sh_joined : forall z, 1 <= z <= n -> joined c 1 z;
  sh_back : exists x y, In [x; y; 1] c /\ (2 <= n -> x <> y);
  sh_loops : 2 <= n -> exists b, loops c = [[1; 1; b]] }.

(** Specification for the small-world density classification demo: voting on a network. *)
From Verif Require Import Py CaSpec EcaSpec.
Open Scope list_scope.
Open Scope Z_scope.

(** how many neighbours of [v] there are, and how many are in state 1 *)
Definition deg (nb : Z -> list Z) (v : Z) : Z := Z.of_nat (length (nb v)).
Definition ones (nb : Z -> list Z) (s : Z -> Z) (v : Z) : Z := zsum (map s (nb v)).
(** as many neighbours in state 1 as in state 0 *)
Definition tied (nb : Z -> list Z) (s : Z -> Z) (v : Z) : bool := 2 * ones nb s v =? deg nb v.

(** one timestep: a node takes the state of most of its neighbours, and when they are tied that of one of them *)
Definition votes (D : Z -> Prop) (nb : Z -> list Z) (s s' : Z -> Z) : Prop :=
  forall v, D v -> (2 * ones nb s v < deg nb v -> s' v = 0) /\ (deg nb v < 2 * ones nb s v -> s' v = 1) /\ exists w, In w (nb v) /\ s' v = s w.

(** node [v] was not tied at timestep k+1, and its state at k+2 is not that at k *)
Definition turned (nb : Z -> list Z) (st : nat -> Z -> Z) (k : nat) (v : Z) : bool :=
  negb (tied nb (st (S k)) v) && negb (st (S (S k)) v =? st k v).
(** how often that happens before timestep [K] *)
Definition turns (vs : list Z) (nb : Z -> list Z) (st : nat -> Z -> Z) (K : nat) : nat :=
  length (filter (fun kv => turned nb st (fst kv) (snd kv)) (list_prod (seq 0 K) vs)).

(** a network without direction: the neighbours of a node have it as their neighbour, and no node is named twice *)
Record undirected (vs : list Z) (nb : Z -> list Z) : Prop := {
  ud_nodes : NoDup vs;
  ud_once : forall v, In v vs -> NoDup (nb v);
  ud_in : forall v w, In v vs -> In w (nb v) -> In w vs;
  ud_sym : forall v w, In v vs -> In w (nb v) -> In v (nb w) }.
Definition degrees (vs : list Z) (nb : Z -> list Z) : Z := zsum (map (deg nb) vs).

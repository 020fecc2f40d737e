(** Model of demos/flocking/flocking_demo.py: boids that see each other when they are near. *)
From Verif Require Import Py PyFacts Network Evolve EvolveSpec DemoNets.
Open Scope string_scope.
Open Scope list_scope.
Open Scope Z_scope.

Section Flocking.
  (** [A]: the state (x, y, vx, vy) of a boid. [visible]: are the positions nearer than [visual_range] (flocking_demo.py:141-145).
      [fly]: the body of the activity rule, from the state of the boid and the states of its neighbours (flocking_demo.py:83-131);
      both are given for real numbers in Boids.v *)
  Context {A V U I : Type} `{EqD A} (visible : A -> A -> bool) (fly : A -> list A -> res A).

  (** flocking_demo.py:83-131 *)
  Definition flock_activity_rule (x : node_ctx Z V A I) : res A := fly (x_cur x) (x_nacts x).

  (** flocking_demo.py:138-139, the pairs of the two loops in order *)
  Definition flock_pairs (n : Z) : list (Z * Z) := flat_map (fun i => map (pair i) (zrange (i + 1) n)) (zrange 0 n).

  (** flocking_demo.py:141-149, one pair *)
  Definition link_boids (acts : dict Z A) (ij : Z * Z) : mut (L:=Z) (V:=V) unit := fun n =>
    match dget acts (fst ij), dget acts (snd ij) with
    | Some a, Some b =>
        if visible a b then add_edge (fst ij) (snd ij) [] n
        else if has_edge n (fst ij) (snd ij) then remove_edge (fst ij) (snd ij) n
        else (n, Ok tt)
    | _, _ => (n, Err KeyError)
    end.

  (** flocking_demo.py:134-151 *)
  Definition flock_topology_rule (n : network Z V) (acts : dict Z A) (t : Z) : res (network Z V) :=
    result_of (mfor (flock_pairs (Z.of_nat (length (nodes n)))) (link_boids acts) (copy n)).

  (** flocking_demo.py:154-156, the arguments of evolve other than the network, the initial conditions and the timesteps *)
  Definition flock_args : @args Z V A U I :=
    mkArgs (Some (stateless flock_activity_rule)) (Some (pure_topo flock_topology_rule)) None [] TOPOLOGY_FIRST true false true true false None.
End Flocking.

Section Script.
  Context {A V U I BA BN : Type} `{EqD A} (visible : A -> A -> bool) (fly : A -> list A -> res A) (W : env Z V A BA BN).

  (** flocking_demo.py:74, 80, 154-156: the run from the states of the boids *)
  Definition flocking_demo (fuel : nat) (u0 : U) (boids : list A) (timesteps : Z) :=
    evolve (I:=I) W fuel u0 (init_network (Z.of_nat (length boids))) (Some (CDict (map (fun iv => (Z.of_nat (fst iv), snd iv)) (enumerate boids)))) (Some timesteps) None (flock_args visible fly).
End Script.

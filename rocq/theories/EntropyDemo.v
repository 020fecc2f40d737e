(** * EntropyDemo: model of demos/langtons_lambda/average_node_entropy_demo.py and average_mutual_information_demo.py.

    The numbers of the scripts are parameters, and so is the outcome [rand] of the random draws; the number that is returned here is printed by the script. *)
From Coq Require Import Reals Ascii.
From Verif Require Import Py Network Topology Evolve EvolveSpec Rules RuleTables Utils Analysis.
Open Scope list_scope.
Open Scope Z_scope.

Section Demo.
  Context {U I BA BN : Type} (W : env Z Z Z BA BN) (fuel : nat) (u0 : U).
  (** the order in which Python iterates over a set of characters *)
  Context (set_x : list ascii -> list ascii).

  (** the arguments of evolve, average_node_entropy_demo.py:8-9, average_mutual_information_demo.py:8-9; the others have their defaults *)
  Definition nks_args (rule : Z) : @args Z Z Z U I :=
    mkArgs (Some (stateless (nks_ca_rule rule))) None None [] ACTIVITIES_FIRST true false true true false None.

  (** lines 4-9 of both scripts (200 cells, 1000 timesteps, rule 30) *)
  Definition random_run (rand : Z -> Z -> list Z) (rule n timesteps : Z) :=
    network <- cellular_automaton n 1 true ;;
    initial_conditions <- init_random rand n 2 None 0 ;;
    ' (_, trajectory) <- evolve W fuel u0 network (Some (CList initial_conditions)) (Some timesteps) None (nks_args rule) ;;
    Ok trajectory.

  (** average_node_entropy_demo.py:4-14 *)
  Definition average_node_entropy_demo (rand : Z -> Z -> list Z) (rule n timesteps : Z) : res (option R) :=
    trajectory <- random_run rand rule n timesteps ;; average_node_entropy W Z.leb py_str (inl trajectory).

  (** average_mutual_information_demo.py:4-14; temporal_distance has its default 1 *)
  Definition average_mutual_information_demo (rand : Z -> Z -> list Z) (rule n timesteps : Z) : res (option R) :=
    trajectory <- random_run rand rule n timesteps ;; average_mutual_information W Z.leb py_str set_x (inl trajectory) 1.
End Demo.

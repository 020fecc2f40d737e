(** Model of demos/ca_density_classification/ca_density_classification_demo.py. The printed density and the plot are not modelled; the numbers of the script are parameters. *)
From Verif Require Import Py Network Topology Evolve EvolveSpec Rules.
Open Scope list_scope.
Open Scope Z_scope.

Section Demo.
  Context {U I BA BN : Type} (W : env Z Z Z BA BN) (fuel : nat) (u0 : U).
  (** ca_density_classification_demo.py:16-17 *)
  Definition density_args (rule_number : Z) : @args Z Z Z U I :=
    mkArgs (Some (stateless (binary_ca_rule rule_number false))) None None [] ACTIVITIES_FIRST true false true true false None.
  (** ca_density_classification_demo.py:7-17 *)
  Definition density_demo (n r rule_number : Z) (initial_conditions : list Z) (timesteps : Z) : res (U * list (state Z Z Z BA BN)) :=
    network <- cellular_automaton n r true ;;
    evolve W fuel u0 network (Some (CList initial_conditions)) (Some timesteps) None (density_args rule_number).
End Demo.

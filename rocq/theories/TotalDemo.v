(** * TotalDemo: model of demos/totalistic_ca/totalistic_ca_demo.py, demos/totalistic_ca2d/totalistic_2d_demo.py and of the first part of demos/animation_demo/animation_demo.py.

    The numbers of the scripts are parameters. plot_activities and animate_activities draw the states of the trajectory; for the plot of the one-dimensional script the
    rows that it draws are returned here (Plot.v models the rest). *)
From Verif Require Import Py Network Topology Evolve EvolveSpec Rules Utils.
Open Scope string_scope.
Open Scope list_scope.
Open Scope Z_scope.

Section Demo.
  Context {U I BA BN : Type} (W : env Z Z Z BA BN) (fuel : nat) (u0 : U).

  (** the arguments of evolve, totalistic_ca_demo.py:10-11, totalistic_2d_demo.py:10-11, animation_demo.py:7-8; the others have their defaults *)
  Definition totalistic_args (k rule : Z) : @args Z Z Z U I :=
    mkArgs (Some (stateless (totalistic_ca k rule))) None None [] ACTIVITIES_FIRST true false true true false None.

  (** totalistic_ca_demo.py:6-13 (k = 3, rule 777, 100 cells before and 99 after the one that is on, 100 timesteps) *)
  Definition totalistic_ca_demo (k rule : Z) (left right : nat) (timesteps : Z) : res (list (list Z)) :=
    network <- cellular_automaton (Z.of_nat (left + 1 + right)) 1 true ;;
    let initial_conditions := repeat 0 left ++ [1] ++ repeat 0 right in
    ' (_, trajectory) <- evolve W fuel u0 network (Some (CList initial_conditions)) (Some timesteps) None (totalistic_args k rule) ;;
    get_activities_over_time_as_list W Z.leb trajectory.

  (** totalistic_2d_demo.py:6-13 (60 x 60, Moore, k = 2, rule 126, 30 timesteps), animation_demo.py:5-10 (60 x 60, von Neumann, k = 2, rule 26, 30 timesteps) *)
  Definition totalistic_2d_demo (rows cols : Z) (neighbourhood : string) (k rule timesteps : Z) :=
    network <- cellular_automaton2d rows cols 1 neighbourhood true ;;
    initial_conditions <- init_simple2d rows cols 1 ;;
    ' (_, trajectory) <- evolve W fuel u0 network (Some (CList initial_conditions)) (Some timesteps) None (totalistic_args k rule) ;;
    Ok trajectory.
End Demo.

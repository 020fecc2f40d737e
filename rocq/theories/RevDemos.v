(** * RevDemos: model of the scripts of demos/reversible_ca and of demos/perturbation_demo/perturbation_reversible_demo.py.

    The plots and the entropies printed by the scripts are not part of this model (C56 - C58 are about the entropies). The numbers of the
    scripts are parameters: the number of cells, of the rule and of timesteps, and the initial conditions. *)
From Verif Require Import Py Network Topology Evolve EvolveSpec Rules Utils Async.
Open Scope list_scope.
Open Scope Z_scope.

Section Demos.
  Context {U I BA BN : Type} (W : env Z Z Z BA BN) (fuel : nat) (u0 : U).
  Notation ctx := (node_ctx Z Z Z I).
  Notation args := (@args Z Z Z U I).

  (** reversible_ca_demo.py:10-12, rule122R_entropy_demo.py:11-13, rule122R_reverse_demo.py:21-23, rule214R_demo.py:11-13 and 18-20:
      activity_rule=ntm.ReversibleRule(h), past_conditions=past *)
  Definition rev_args (h : ctx -> res Z) (past : list (cond Z Z)) : args :=
    mkArgs (Some (stateless (reversible_call h))) None None past ACTIVITIES_FIRST true false true true false None.

  (** the call of evolve and the reading of its trajectory, rule214R_demo.py:11-16 *)
  Definition rev_activities (net : network Z Z) (h : ctx -> res Z) (initial_conditions past : list Z) (timesteps : Z) : res (list (list Z)) :=
    ' (_, trajectory) <- evolve W fuel u0 net (Some (CList initial_conditions)) (Some timesteps) None (rev_args h [CList past]) ;;
    get_activities_over_time_as_list W Z.leb trajectory.

  (** reversible_ca_demo.py:6-14, rule122R_entropy_demo.py:9-18, rule122R_reverse_demo.py:9-28: the rows plotted *)
  Definition reversible_demo (n : Z) (h : ctx -> res Z) (initial_conditions past : list Z) (timesteps : Z) : res (list (list Z)) :=
    network <- cellular_automaton n 1 true ;;
    rev_activities network h initial_conditions past timesteps.

  (** rule214R_demo.py:7-22: the rows plotted at the end *)
  Definition there_and_back_demo (n : Z) (h : ctx -> res Z) (initial_conditions : list Z) (timesteps1 timesteps2 : Z) : res (list (list Z)) :=
    network <- cellular_automaton n 1 true ;;
    activities <- rev_activities network h initial_conditions initial_conditions timesteps1 ;;
    before_last <- of_opt IndexError (py_nth activities (-2)) ;;
    last <- of_opt IndexError (py_nth activities (-1)) ;;
    rev_activities network h before_last last timesteps2.

  (** perturbation_reversible_demo.py:11-15 *)
  Definition perturbed_rule (rule : Z) (x : ctx) : res Z :=
    if x_time x mod 10 =? 0 then Ok 1 else nks_ca_rule rule x.
End Demos.

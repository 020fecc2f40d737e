(** * LoopDemo: model of demos/langtons_loops/langtons_loops_demo.py.

    The numbers of the script are parameters; animate_activities, which draws the states of the trajectory, is not part of this file. *)
From Verif Require Import Py Network Evolve EvolveSpec Ctrbl Langton.
Open Scope string_scope.
Open Scope list_scope.
Open Scope Z_scope.

Section Demo.
  Context {U I BA BN : Type} (W : env Z Z Z BA BN) (fuel : nat) (u0 : U).

  (** the arguments of evolve, langtons_loops_demo.py:10-12; the others have their defaults *)
  Definition loops_args (rule : ctrbl Z) : @args Z Z Z U I := mkArgs (Some (stateless (ctrbl_rule rule))) None None [] ACTIVITIES_FIRST true false true true false None.

  (** langtons_loops_demo.py:5-12 (there: 75 rows, 75 columns, one loop, rows [40], columns [25], 500 timesteps) *)
  Definition langtons_loops_demo (rows cols n : Z) (row col : list Z) (timesteps : Z) :=
    rule <- langton_init rows cols ;;
    initial_conditions <- init_loops rows cols n row col ;;
    ' (_, trajectory) <- evolve W fuel u0 (cr_network rule) (Some (CList initial_conditions)) (Some timesteps) None (loops_args rule) ;;
    Ok trajectory.
End Demo.

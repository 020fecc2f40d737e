(** * WireDemos: model of demos/wireworld/wireworld_diodes_demo.py and wireworld_xor_demo.py.

    The size of the board, the initial conditions and the number of timesteps are parameters; the scripts' boards are below. animate_activities
    draws the states of the trajectory, which is not modelled. *)
From Verif Require Import Py Network Topology Evolve EvolveSpec Rules.
Open Scope string_scope.
Open Scope list_scope.
Open Scope Z_scope.

(** ntm.rules.wireworld_rule as the activity rule; it returns None on states other than 0..3, which is not an activity here *)
Definition wireworld_activity {I} (x : node_ctx Z Z Z I) : res Z := of_opt Unmodelled (wireworld_rule x).

Section Demo.
  Context {U I BA BN : Type} (W : env Z Z Z BA BN) (fuel : nat) (u0 : U).

  (** the arguments of evolve, wireworld_diodes_demo.py:25-26, wireworld_xor_demo.py:25-26; the others have their defaults *)
  Definition wireworld_args : @args Z Z Z U I := mkArgs (Some (stateless wireworld_activity)) None None [] ACTIVITIES_FIRST true false true true false None.

  (** wireworld_diodes_demo.py:7-26 (13 rows, 14 columns, 15 timesteps), wireworld_xor_demo.py:7-26 (13 rows, 24 columns, 25 timesteps); the radius has its default 1 *)
  Definition wireworld_demo (rows cols : Z) (initial_conditions : list Z) (timesteps : Z) :=
    network <- cellular_automaton2d rows cols 1 "Moore" true ;;
    ' (_, trajectory) <- evolve W fuel u0 network (Some (CList initial_conditions)) (Some timesteps) None wireworld_args ;;
    Ok trajectory.
End Demo.

(** wireworld_diodes_demo.py:9-23 *)
Definition diodes_board : list Z := [
  0; 0; 0; 0; 0; 0; 0; 0; 0; 0; 0; 0; 0; 0;
  0; 0; 0; 0; 0; 0; 0; 0; 0; 0; 0; 0; 0; 0;
  0; 0; 0; 0; 0; 0; 3; 3; 0; 0; 0; 0; 0; 0;
  2; 1; 3; 3; 3; 3; 3; 0; 3; 3; 3; 3; 3; 3;
  0; 0; 0; 0; 0; 0; 3; 3; 0; 0; 0; 0; 0; 0;
  0; 0; 0; 0; 0; 0; 0; 0; 0; 0; 0; 0; 0; 0;
  0; 0; 0; 0; 0; 0; 0; 0; 0; 0; 0; 0; 0; 0;
  0; 0; 0; 0; 0; 0; 0; 0; 0; 0; 0; 0; 0; 0;
  0; 0; 0; 0; 0; 0; 3; 3; 0; 0; 0; 0; 0; 0;
  2; 1; 3; 3; 3; 3; 0; 3; 3; 3; 3; 3; 3; 3;
  0; 0; 0; 0; 0; 0; 3; 3; 0; 0; 0; 0; 0; 0;
  0; 0; 0; 0; 0; 0; 0; 0; 0; 0; 0; 0; 0; 0;
  0; 0; 0; 0; 0; 0; 0; 0; 0; 0; 0; 0; 0; 0].

(** wireworld_xor_demo.py:9-23 *)
Definition xor_board : list Z := [
  0; 0; 0; 0; 0; 0; 0; 0; 0; 0; 0; 0; 0; 0; 0; 0; 0; 0; 0; 0; 0; 0; 0; 0;
  0; 0; 0; 0; 0; 0; 0; 0; 0; 0; 0; 0; 0; 0; 0; 0; 0; 0; 0; 0; 0; 0; 0; 0;
  0; 0; 0; 3; 3; 3; 3; 3; 3; 3; 3; 0; 0; 0; 0; 0; 0; 0; 0; 0; 0; 0; 0; 0;
  0; 0; 3; 0; 0; 0; 0; 0; 0; 0; 0; 2; 1; 3; 3; 3; 3; 0; 0; 0; 0; 0; 0; 0;
  0; 0; 0; 3; 1; 2; 3; 3; 3; 3; 1; 0; 0; 0; 0; 0; 0; 2; 0; 0; 0; 0; 0; 0;
  0; 0; 0; 0; 0; 0; 0; 0; 0; 0; 0; 0; 0; 0; 0; 0; 1; 1; 1; 3; 0; 0; 0; 0;
  0; 0; 0; 0; 0; 0; 0; 0; 0; 0; 0; 0; 0; 0; 0; 0; 3; 0; 0; 3; 3; 3; 3; 2;
  0; 0; 0; 0; 0; 0; 0; 0; 0; 0; 0; 0; 0; 0; 0; 0; 3; 3; 3; 3; 0; 0; 0; 0;
  0; 0; 0; 3; 3; 2; 1; 3; 3; 3; 3; 0; 0; 0; 0; 0; 0; 3; 0; 0; 0; 0; 0; 0;
  0; 0; 3; 0; 0; 0; 0; 0; 0; 0; 0; 2; 1; 3; 3; 3; 3; 0; 0; 0; 0; 0; 0; 0;
  0; 0; 0; 3; 3; 3; 3; 3; 3; 3; 1; 0; 0; 0; 0; 0; 0; 0; 0; 0; 0; 0; 0; 0;
  0; 0; 0; 0; 0; 0; 0; 0; 0; 0; 0; 0; 0; 0; 0; 0; 0; 0; 0; 0; 0; 0; 0; 0;
  0; 0; 0; 0; 0; 0; 0; 0; 0; 0; 0; 0; 0; 0; 0; 0; 0; 0; 0; 0; 0; 0; 0; 0].

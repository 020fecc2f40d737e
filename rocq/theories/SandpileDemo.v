(** * demos/sandpiles/sandpile_demo.py *)
From Verif Require Import Py Network Topology Evolve EvolveSpec Sandpile.
Open Scope list_scope.
Open Scope Z_scope.

Section Demo.
  Context {U I BA BN : Type} (W : env Z Z Z BA BN) (fuel : nat) (u0 : U).

  (** sandpile_demo.py:11-15: one grain is dropped on the node [cell] (1034) at the timestep [when] (85) *)
  Definition drop_grain (when cell : Z) : @perturbation Z Z U I := fun u pctx =>
    if (p_time pctx =? when) && (p_label pctx =? cell) then Ok (u, p_act pctx + 1) else Ok (u, p_act pctx).

  (** sandpile_demo.py:17-18: the arguments of evolve *)
  Definition drop_args (o : sandpile) (when cell : Z) : @args Z Z Z U I :=
    mkArgs (Some (stateless (sandpile_rule o))) None (Some (drop_grain when cell)) [] ACTIVITIES_FIRST true false true true false None.

  (** sandpile_demo.py:7-18 for a pile of any size, with any initial grains (there: random numbers from 0 to 4), any drop and any number of timesteps (there: 110); the script
      leaves is_closed_boundary at True; the animation of the trajectory is not modelled *)
  Definition sandpile_demo (rows cols : Z) (is_closed_boundary : bool) (initial_conditions : list Z) (when cell timesteps : Z) :=
    o <- sandpile_init rows cols is_closed_boundary ;;
    ' (_, trajectory) <- evolve W fuel u0 (sp_net o) (Some (CList initial_conditions)) (Some timesteps) None (drop_args o when cell) ;;
    Ok trajectory.
End Demo.

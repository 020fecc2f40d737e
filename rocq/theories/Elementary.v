(** * Elementary: model of demos/elementary_ca/elementary_ca_demo.py and of the second and third part of demos/animation_demo/animation_demo.py.

    The numbers of the scripts are parameters; plot_activities and animate_activities draw the rows that are returned here, which is modelled
    in Plot.v, not in this file. *)
From Verif Require Import Py Network Topology Evolve EvolveSpec Rules Utils.
Open Scope list_scope.
Open Scope Z_scope.

Section Demo.
  Context {U I BA BN : Type} (W : env Z Z Z BA BN) (fuel : nat) (u0 : U).

  (** the arguments of evolve, elementary_ca_demo.py:10-12 ([memoize] = True), animation_demo.py:14-15 and 21-22 ([memoize] has its default
      False); the others have their defaults *)
  Definition elementary_args (rule : Z) (memoize : bool) : @args Z Z Z U I :=
    mkArgs (Some (stateless (nks_ca_rule rule))) None None [] ACTIVITIES_FIRST true false true true memoize None.

  (** elementary_ca_demo.py:6-14, animation_demo.py:12-17 and 19-24, with [left] white cells before and [right] after the black one; n is
      given as the number of these cells *)
  Definition elementary_ca_demo (rule : Z) (left right : nat) (timesteps : Z) (memoize : bool) : res (list (list Z)) :=
    network <- cellular_automaton (Z.of_nat (left + 1 + right)) 1 true ;;
    let initial_conditions := repeat 0 left ++ [1] ++ repeat 0 right in
    ' (_, trajectory) <- evolve W fuel u0 network (Some (CList initial_conditions)) (Some timesteps) None (elementary_args rule memoize) ;;
    get_activities_over_time_as_list W Z.leb trajectory.
End Demo.

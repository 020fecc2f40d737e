(** Model of demos/small_world_density_classification/small_world_density_classification_demo.py. The printed density and the plot are not modelled; the numbers of the script are parameters. *)
From Verif Require Import Py Network Topology WattsStrogatz Evolve EvolveSpec Rules.
Open Scope list_scope.
Open Scope Z_scope.

Section Demo.
  Context {I BA BN : Type} (W : env Z Z Z BA BN) (fuel : nat).
  (** activity_rule.py:42-47: whether np.random.choice is called *)
  Definition draws_one (x : node_ctx Z Z Z I) : bool := match top_counts (x_nacts x) with [_] => false | _ => true end.
  (** activity_rule.py:34-47 as a rule of evolve; the user state counts the calls of np.random.choice, [draw] is what they pick *)
  Definition voting_rule (draw : nat -> nat) (u : nat) (x : node_ctx Z Z Z I) : res (nat * outcome Z Z Z) :=
    a <- majority_rule (draw u) x ;; Ok (if draws_one x then Datatypes.S u else u, mkOut a [] []).
  (** small_world_density_classification_demo.py:20-21 *)
  Definition voting_args (draw : nat -> nat) : @args Z Z Z nat I :=
    mkArgs (Some (voting_rule draw)) None None [] ACTIVITIES_FIRST true false true true false None.
  (** small_world_density_classification_demo.py:14-21; [coin] and [pick] are the random numbers of networkx *)
  Definition small_world_density_demo (gfuel : nat) (coin : Z -> Z -> bool) (pick : nat -> Z) (draw : nat -> nat) (n k : Z) (initial_conditions : list Z) (timesteps : Z) : res (nat * list (state Z Z Z BA BN)) :=
    network <- watts_strogatz_graph gfuel coin pick n k ;;
    evolve W fuel 0%nat network (Some (CList initial_conditions)) (Some timesteps) None (voting_args draw).
End Demo.

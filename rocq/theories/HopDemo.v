(** * HopDemo: model of demos/hopfield_net/hopfield_net_demo.py.

    plot_grid and animate_activities draw the returned matrix and rows and are not modelled here. *)
From Verif Require Import Py Network Topology Evolve EvolveSpec Async Hopfield Utils SeqSpec.
Open Scope string_scope.
Open Scope list_scope.
Open Scope Z_scope.

(** hopfield_net_demo.py:29-31, 60-62: [-1 if x == 0 else x for x in p] *)
Definition minus_for_zero (p : list Z) : list Z := map (fun x => if x =? 0 then -1 else x) p.

(** hopfield_net_demo.py:6-27 *)
Definition digit_zero : list Z := minus_for_zero [
  0; 1; 1; 1; 0;
  1; 0; 0; 0; 1;
  1; 0; 0; 0; 1;
  1; 0; 0; 0; 1;
  1; 0; 0; 0; 1;
  0; 1; 1; 1; 0].
Definition digit_one : list Z := minus_for_zero [
  0; 1; 1; 0; 0;
  0; 0; 1; 0; 0;
  0; 0; 1; 0; 0;
  0; 0; 1; 0; 0;
  0; 0; 1; 0; 0;
  0; 0; 1; 0; 0].
Definition digit_two : list Z := minus_for_zero [
  1; 1; 1; 0; 0;
  0; 0; 0; 1; 0;
  0; 0; 0; 1; 0;
  0; 1; 1; 0; 0;
  1; 0; 0; 0; 0;
  1; 1; 1; 1; 1].
(** hopfield_net_demo.py:38-59 *)
Definition half_zero : list Z := minus_for_zero [
  0; 1; 1; 1; 0;
  1; 0; 0; 0; 1;
  1; 0; 0; 0; 1;
  0; 0; 0; 0; 0;
  0; 0; 0; 0; 0;
  0; 0; 0; 0; 0].
Definition half_one : list Z := minus_for_zero [
  0; 0; 1; 0; 0;
  0; 0; 1; 0; 0;
  0; 0; 1; 0; 0;
  0; 0; 1; 0; 0;
  0; 0; 0; 0; 0;
  0; 0; 0; 0; 0].
Definition half_two : list Z := minus_for_zero [
  0; 0; 0; 0; 0;
  0; 0; 0; 0; 0;
  0; 0; 0; 0; 0;
  0; 1; 1; 0; 0;
  1; 0; 0; 0; 0;
  1; 1; 1; 1; 1].

Section Demo.
  Context {I BA BN : Type} (W : env Z Z Z BA BN) (fuel : nat) (shuffle : nat -> nat -> list Z).

  (** the arguments of evolve, hopfield_net_demo.py:66-67; the others have their defaults *)
  Definition hop_demo_args : @args Z Z Z (unit * async Z) I := mkArgs (Some (hopfield_activity_rule shuffle)) None None [] ACTIVITIES_FIRST true false true true false None.

  (** hopfield_net_demo.py:33-74 (n = 30, the patterns zero, one, two, initial_conditions half_two, 7 times n timesteps): the adjacency matrix, the activities over time
      and the rows activities[::n] that are animated *)
  Definition hopfield_net_demo (n : nat) (patterns : list (list Z)) (initial_conditions : list Z) (times : nat) : res (list (list Z) * list (list Z) * list (list Z)) :=
    rule <- hopfield_init shuffle n ;;
    ' (adjacency_matrix, network) <- train patterns ;;
    ' (_, trajectory) <- evolve W fuel (tt, rule) network (Some (CList initial_conditions)) (Some (Z.of_nat (n * times))) None hop_demo_args ;;
    activities <- get_activities_over_time_as_list W Z.leb trajectory ;;
    Ok (adjacency_matrix, activities, stride n 0 activities).
End Demo.

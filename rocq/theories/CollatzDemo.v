(** * CollatzDemo: model of demos/collatz_conjecture/collatz_conjecture_demo.py and collatz_conjecture_demo2.py with Python's numbers.

    Machines.v has the same rule over the integers. Printing and plot_grid are not modelled. *)
From Verif Require Import Py PyFloat Network Topology Evolve EvolveSpec Utils Machines.
Open Scope list_scope.
Open Scope Z_scope.

Section Demo.
  Context {U I BA BN : Type} (W : env Z Z num BA BN) (fuel : nat) (u0 : U).

  (** collatz_conjecture_demo.py:14-20, collatz_conjecture_demo2.py:16-22 *)
  Definition collatz_num (n : num) : res num := if is_even n then halve n else triple_plus_one n.
  Definition collatz_num_rule (x : node_ctx Z Z num I) : res num := collatz_num (x_cur x).
  (** collatz_conjecture_demo.py:22-25; [one] is the literal 1 handed to the nodes *)
  Definition collatz_num_input (one : I) : U -> Z -> dict Z num -> network Z Z -> res (U * option (inval I)) := fun u _ a _ =>
    x <- of_opt KeyError (dget a 0) ;; Ok (u, if value x =? 1 then None else Some (InVal one)).

  (** the arguments of evolve, collatz_conjecture_demo.py:29-30, collatz_conjecture_demo2.py:26-27; the others have their defaults *)
  Definition collatz_args : @args Z Z num U I :=
    mkArgs (Some (stateless collatz_num_rule)) None None [] ACTIVITIES_FIRST true false true true false None.

  (** collatz_conjecture_demo.py:12 and 27-38: the numbers printed and the grid plotted; int() of a float with an integer value is that integer *)
  Definition collatz_demo (one : I) (n : Z) : res (list (list num) * list (list Z)) :=
    ' (_, trajectory) <- evolve W fuel u0 one_node (Some (CList [PInt n])) None (Some (InputFun (collatz_num_input one))) collatz_args ;;
    activities <- get_activities_over_time_as_list W Z.leb trajectory ;;
    grid <- binarize_for_plotting (map (map value) activities) ;;
    Ok (activities, grid).

  (** collatz_conjecture_demo2.py:13 and 24-35 *)
  Definition collatz_demo2 (n timesteps : Z) : res (list (list num) * list (list Z)) :=
    ' (_, trajectory) <- evolve W fuel u0 one_node (Some (CList [PInt n])) (Some timesteps) None collatz_args ;;
    activities <- get_activities_over_time_as_list W Z.leb trajectory ;;
    grid <- binarize_for_plotting (map (map value) activities) ;;
    Ok (activities, grid).
End Demo.

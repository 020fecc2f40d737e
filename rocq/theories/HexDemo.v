(** * HexDemo: model of demos/hexagonal_ca/hexagonal_ca_demo.py.

    The numbers of the script are parameters; animate_hex draws the states of the trajectory, which is modelled in Hexplot.v, not in this file. *)
From Verif Require Import Py Network Topology Evolve EvolveSpec Utils.
Open Scope string_scope.
Open Scope list_scope.
Open Scope Z_scope.

(** hexagonal_ca_demo.py:8-9 *)
Definition hex_rule {I} (ctx : node_ctx Z Z Z I) : res Z :=
  Ok (if zsum (x_nacts ctx) =? 1 then 1 else x_cur ctx).

Section Demo.
  Context {U I BA BN : Type} (W : env Z Z Z BA BN) (fuel : nat) (u0 : U).

  (** the arguments of evolve, hexagonal_ca_demo.py:11-12; the others have their defaults *)
  Definition hex_args : @args Z Z Z U I := mkArgs (Some (stateless hex_rule)) None None [] ACTIVITIES_FIRST true false true true false None.

  (** hexagonal_ca_demo.py:4-12 (there: 60 rows, 60 columns, 31 timesteps) *)
  Definition hexagonal_ca_demo (rows cols timesteps : Z) :=
    network <- cellular_automaton2d rows cols 1 "Hex" true ;;
    initial_conditions <- init_simple2d rows cols 1 ;;
    ' (_, trajectory) <- evolve W fuel u0 network (Some (CList initial_conditions)) (Some timesteps) None hex_args ;;
    Ok trajectory.
End Demo.

(** * FungalDemo: model of demos/fungal_growth/fungal_growth_demo.py.
    The numbers of the script are parameters; the rate R_E (80000.0) is a whole number, and the amounts are rational numbers (the script has floats).
    The order of the set of links and the random draws are parameters too (see Fungal.v). animate_activities draws the trajectory that is returned here. *)
From Coq Require Import QArith.
From Verif Require Import Py Network Evolve EvolveSpec Fungal Utils.
Open Scope list_scope.
Open Scope Z_scope.

Section Demo.
  Context {I BA BN : Type} (W : env Z Q Q BA BN) (fuel : nat).

  (** the arguments of evolve, fungal_growth_demo.py:34-37; compression is False, the others have their defaults *)
  Definition fungal_demo_args (model : fungal) (rand : nat -> Q) (persist_network : bool) : @args Z Q Q nat I :=
    mkArgs (Some (stateless (activity_rule model))) (Some (Fungal.topology_rule model rand)) None [] TOPOLOGY_FIRST false false true persist_network false None.

  (** fungal_growth_demo.py:18-37 (R_E = 80000, 100 timesteps, width and height 200, persist_network False) *)
  Definition fungal_growth_demo (set_order : list (Z * Z) -> list (Z * Z)) (rand : nat -> Q) (R_E timesteps width height : Z) (persist_network : bool) : res (list (state Z Q Q BA BN)) :=
    initial <- init_simple2d width height R_E ;;
    let initial_conditions := map inject_Z initial in
    model <- fungal_init set_order (inject_Z R_E) width height initial_conditions [] ;;
    ' (_, trajectory) <- evolve W fuel 0%nat (f_net model) (Some (CList initial_conditions)) (Some timesteps) None (fungal_demo_args model rand persist_network) ;;
    Ok trajectory.
End Demo.

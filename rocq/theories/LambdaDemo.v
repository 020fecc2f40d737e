(** * LambdaDemo: model of demos/langtons_lambda/rule_table_demo.py and rule_table_walkthrough_demo.py.

    The numbers of the scripts are parameters, and so are the outcomes of the random draws (see RuleTables.v and Utils.v). The plots draw the rows that are returned here;
    the titles of the second plot (the entropies of Analysis.v, as text) are not modelled. *)
From Verif Require Import Py Network Topology Evolve EvolveSpec Rules RuleTables Utils.
Open Scope list_scope.
Open Scope Z_scope.

Section Demo.
  Context {U I BA BN : Type} (W : env Z Z Z BA BN) (fuel : nat) (u0 : U).
  Context {F : Type} (quot : Z -> Z -> F) (flt feq : F -> F -> bool).

  (** the arguments of evolve, rule_table_demo.py:12-13, rule_table_walkthrough_demo.py:20-21; the others have their defaults *)
  Definition table_args (t : table) : @args Z Z Z U I :=
    mkArgs (Some (stateless (table_rule t))) None None [] ACTIVITIES_FIRST true false true true false None.

  (** rule_table_demo.py:4-15 (k = 4, r = 2, 128 cells of which 20 are random, 200 timesteps); [coin], [pick], [qdraw] and [rand] are the random draws *)
  Definition rule_table_demo (coin : nat -> bool) (pick : nat -> nat) (qdraw : Z) (rand : Z -> Z -> list Z) (k r n n_randomized timesteps : Z) : res (list (list Z)) :=
    ' (rule_table, _, _) <- random_rule_table quot coin pick k r None qdraw true true ;;
    network <- cellular_automaton n r true ;;
    initial_conditions <- init_random rand n k (Some n_randomized) 0 ;;
    ' (_, trajectory) <- evolve W fuel u0 network (Some (CList initial_conditions)) (Some timesteps) None (table_args rule_table) ;;
    get_activities_over_time_as_list W Z.leb trajectory.

  (** rule_table_walkthrough_demo.py:10-23: one turn of the loop; the accumulator has the table, what was printed and plotted, and the number of turns.
      table_walk_through is called without isotropic, whose default is False. *)
  Definition walkthrough_turn (pick : nat -> nat -> nat) (rand : nat -> Z -> Z -> list Z) (k r n timesteps q : Z) (acc : table * list (F * list (list Z)) * nat) (lambda_val : F)
      : res (table * list (F * list (list Z)) * nat) :=
    let '(rule_table, ca_list, i) := acc in
    network <- cellular_automaton n r true ;;
    initial_conditions <- init_random (rand i) n k None 0 ;;
    ' (rule_table', actual_lambda) <- table_walk_through quot flt feq (pick i) (S (length rule_table)) rule_table lambda_val k r q true false ;;
    ' (_, trajectory) <- evolve W fuel u0 network (Some (CList initial_conditions)) (Some timesteps) None (table_args rule_table') ;;
    activities <- get_activities_over_time_as_list W Z.leb trajectory ;;
    Ok (rule_table', ca_list ++ [(actual_lambda, activities)], S i).

  (** rule_table_walkthrough_demo.py:4-29 (k = 4, r = 2, 128 cells, 200 timesteps, lambda_vals 0.15, 0.37, 0.75): the table after the walks, and for each value the printed
      lambda and the plotted rows *)
  Definition walkthrough_demo (coin : nat -> bool) (pick0 : nat -> nat) (pick : nat -> nat -> nat) (qdraw : Z) (rand : nat -> Z -> Z -> list Z) (k r n timesteps : Z) (lambda_vals : list F)
      : res (table * list (F * list (list Z))) :=
    ' (rule_table, _, q) <- random_rule_table quot coin pick0 k r None qdraw true true ;;
    ' (rule_table', ca_list, _) <- rfold (walkthrough_turn pick rand k r n timesteps q) lambda_vals (rule_table, [], 0%nat) ;;
    Ok (rule_table', ca_list).
End Demo.

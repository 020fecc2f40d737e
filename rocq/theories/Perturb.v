(** * Perturb: model of demos/perturbation_demo/perturbation_demo.py and perturbation_eca_demo.py.

    The state of numpy's random generator is the number of draws made so far; the sequence of draws is a parameter. The activities of
    perturbation_demo.py are exact rationals instead of floats and [np.exp] is a parameter. The numbers of the scripts are parameters too. Plots
    are not modelled; perturbation_reversible_demo.py is in RevDemos.v. *)
From Coq Require Import QArith.
From Verif Require Import Py Network Topology Evolve EvolveSpec Rules Utils Fungal.
Open Scope list_scope.
Open Scope Z_scope.

(** the arguments of evolve, perturbation_demo.py:39-40, perturbation_eca_demo.py:18-19; the others have their defaults *)
Definition pert_args {A I} `{EqD A} (h : node_ctx Z Z A I -> res A) (p : @perturbation Z A nat I) : @args Z Z A nat I :=
  mkArgs (Some (stateless h)) None (Some p) [] ACTIVITIES_FIRST true false true true false None.

Section Eca.
  Context {I BA BN : Type} (W : env Z Z Z BA BN) (fuel : nat).

  (** perturbation_eca_demo.py:10-16, with [cell] for 100 and [draw u] for the result of np.random.randint(2) after [u] draws *)
  Definition perturb (cell : Z) (draw : nat -> Z) : @perturbation Z Z nat I := fun u pctx =>
    if p_label pctx =? cell then Ok (S u, draw u) else Ok (u, p_act pctx).

  (** perturbation_eca_demo.py:7-21: the rows plotted *)
  Definition perturbation_eca_demo (n rule cell : Z) (draw : nat -> Z) (initial_conditions : list Z) (timesteps : Z) : res (list (list Z)) :=
    network <- cellular_automaton n 1 true ;;
    ' (_, trajectory) <- evolve W fuel 0%nat network (Some (CList initial_conditions)) (Some timesteps) None (pert_args (nks_ca_rule rule) (perturb cell draw)) ;;
    get_activities_over_time_as_list W Z.leb trajectory.
End Eca.

Section Noise.
  Context {I BA BN : Type} (W : env Z Z Q BA BN) (fuel : nat) (expo : Q -> Q).
  Notation ctx := (node_ctx Z Z Q I).
  Open Scope Q_scope.

  (** np.sign *)
  Definition np_sign (x : Q) : Q := if Qle_bool x 0 then (if Qeq_bool x 0 then 0 else - (1)) else 1.

  (** perturbation_demo.py:11-14, with [draw u] for the result of np.random.uniform() after [u] draws *)
  Definition noise_perturbation (noise_amount : Q) (draw : nat -> Q) : @perturbation Z Q nat I := fun u pctx =>
    Ok (S u, p_act pctx + np_sign (p_act pctx - 1 / 2) * draw u * noise_amount).

  (** perturbation_demo.py:23 and 35 *)
  Definition lambda_ (x : Q) : Q := expo (- (10) * ((x - 1) * (x - 1))) + expo (- (10) * ((x - 3) * (x - 3))).

  (** perturbation_demo.py:16-25 *)
  Definition algebraic_rule_90 (x : ctx) : res Q :=
    l <- of_opt IndexError (py_nth (x_nacts x) 0%Z) ;;
    r <- of_opt IndexError (py_nth (x_nacts x) 2%Z) ;;
    Ok (lambda_ (l + r)).

  (** perturbation_demo.py:27-37 *)
  Definition algebraic_rule_30 (x : ctx) : res Q :=
    match x_nacts x with
    | [a; b; c] => Ok (lambda_ (a + b + c + b * c))
    | _ => Err ValueError
    end.

  (** perturbation_demo.py:6-40: the network and the trajectory *)
  Definition perturbation_demo (n : Z) (h : ctx -> res Q) (noise_amount : Q) (draw : nat -> Q) (initial_conditions : list Q) (timesteps : Z) :=
    network <- cellular_automaton n 1 true ;;
    ' (_, trajectory) <- evolve W fuel 0%nat network (Some (CList initial_conditions)) (Some timesteps) None (pert_args h (noise_perturbation noise_amount draw)) ;;
    Ok (network, trajectory).
End Noise.

(** * Model of demos/mlp/mlp_demo.py

    The arithmetic is a parameter: [N] with zero, addition, multiplication and the test [x > 0]. What is proved holds for
    floats with their rounding as well as for exact numbers, because the order of the operations is modelled. The CSV files
    are modelled by their rows of numbers; matplotlib and the softmax at the end are not modelled. *)
From Verif Require Import Py Network Evolve DemoNets.
Open Scope string_scope.
Open Scope list_scope.
Open Scope Z_scope.

Section Mlp.
  Context {N : Type} (zero : N) (add mul : N -> N -> N) (positive : N -> bool).

  (** mlp_demo.py:15-17: [if node1 not in weights: weights[node1] = {}; weights[node1][node2] = float(weight)] *)
  Definition put_weight (ws : dict Z (dict Z N)) (node1 node2 : Z) (w : N) : dict Z (dict Z N) :=
    dset ws node1 (dset (match dget ws node1 with Some r => r | None => [] end) node2 w).

  (** mlp_demo.py:7-18, [read_weights]; [rows] are the lines of the file *)
  Definition read_weights (rows : list (list N)) : dict Z (dict Z N) :=
    fold_left (fun ws il =>
      fold_left (fun ws jw => put_weight ws (Z.of_nat (fst jw)) (Z.of_nat (fst il)) (snd jw)) (enumerate (snd il)) ws)
      (enumerate rows) [].

  (** mlp_demo.py:21-30, [read_image_activities] *)
  Definition read_image (rows : list (list N)) : dict Z N :=
    fst (fold_left (fun s line =>
      fold_left (fun s a => (dset (fst s) (snd s) a, snd s + 1)) line s) rows ([], 0)).

  (** mlp_demo.py:33-36, [set_weights] *)
  Definition set_weights (ws : dict Z (dict Z N)) : mut (L:=Z) (V:=N) unit :=
    mfor ws (fun iw => mfor (snd iw) (fun jw => update_edge (fst iw) (fst jw) None [("weight", snd jw)])).

  (** mlp_demo.py:39-40 *)
  Definition relu (x : N) : N := if positive x then x else zero.
  (** mlp_demo.py:43-44 *)
  Definition identity (x : N) : N := x.

  (** mlp_demo.py:86-90 *)
  Definition mlp_network (n : Z) (ws : dict Z (dict Z N)) : network Z N * res unit :=
    mthen (mfor (zrange 0 n) (fun i => mfor (zrange 0 n) (fun j => add_edge i j [])))
          (set_weights ws) empty_network.

  (** mlp_demo.py:93-98, [activity_rule]; [ctx.connection_states[w][0]["weight"]] is [ctx.edge_data(w, "weight")], the same
      three look-ups (evolution.py:64-65) *)
  Definition mlp_rule {I} (activation : dict Z (N -> N)) (x : node_ctx Z N N I) : res N :=
    v <- rfold (fun v l =>
           w <- edge_data x l "weight" 0 ;;
           a <- of_opt KeyError (dget (x_acts x) l) ;;
           Ok (add v (mul w a))) (x_nbrs x) zero ;;
    f <- of_opt KeyError (dget activation (x_time x)) ;;
    Ok (f v).

  (** mlp_demo.py:101-105, [topology_rule] *)
  Definition mlp_topology (weights : dict Z (dict Z (dict Z N))) (n : network Z N) (S : dict Z N) (t : Z) : res (network Z N) :=
    ws <- of_opt KeyError (dget weights t) ;;
    result_of (set_weights ws n).

  (** mlp_demo.py:73-84: the weights and the activations of the timesteps *)
  Definition demo_weights (rows23 rows34 : list (list N)) : dict Z (dict Z (dict Z N)) :=
    [(1, read_weights rows23); (2, read_weights rows34); (3, [])].
  Definition demo_activation : dict Z (N -> N) := [(1, relu); (2, relu); (3, identity)].
End Mlp.

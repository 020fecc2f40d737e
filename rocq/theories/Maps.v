(** * Model of demos/logistic_map, demos/lorenz_attractor, demos/reaction_diffusion and demos/continuous_automata

    As in Continuous.v, floating-point numbers are modelled as exact rationals: no rounding, no overflow. The networks are
    built with the functions of Network.v and Topology.v; the runs are those of Evolve.v. *)
From Coq Require Import QArith Qround.
From Verif Require Import Py Network Topology Evolve Fungal Continuous.
Open Scope string_scope.
Open Scope list_scope.
Open Scope Q_scope.

(** ** The logistic map *)
(** logistic_map_demo.py:13-14, logistic_map_demo2.py:14-15, logistic_map_demo3.py:14-15 *)
Definition logistic_network (growth_rates : list Q) : network Z Q * res unit :=
  match disconnected (DInt (Z.of_nat (length growth_rates))) with
  | (n, Err e) => (n, Err e)
  | (n, Ok _) => mfor (enumerate growth_rates) (fun ir => add_edge (Z.of_nat (fst ir)) (Z.of_nat (fst ir)) [("growth_rate", snd ir)]) n
  end.

(** logistic_map_demo.py:19-20, logistic_map_demo2.py:19-20, logistic_map_demo3.py:19-20 *)
Definition logistic_rule {I} (x : node_ctx Z Q Q I) : res Q :=
  rate <- edge_data x (x_label x) "growth_rate" 0 ;;
  Ok (rate * x_cur x * (1 - x_cur x)).

(** ** The Lorenz system *)
(** lorenz_attractor_demo.py:13: [Network(1)] *)
Definition lorenz_node : network Z Q := init_network 1.

(** lorenz_attractor_demo.py:18-25; the activity is a tuple of three floats *)
Definition lorenz_rule {V I} (a b r dt : Q) (c : node_ctx Z V (Q * Q * Q) I) : res (Q * Q * Q) :=
  let '(x, y, z) := x_cur c in
  let x_n := x + a * (y - x) * dt in
  let y_n := y + (r * x - y - x * z) * dt in
  let z_n := z + (x * y - b * z) * dt in
  Ok (x_n, y_n, z_n).

(** lorenz_attractor_demo2.py:13-21 *)
Definition lorenz_network (a b r : Q) : network string Q * res unit :=
 (mthen (add_edge "x" "x" [("weight", a)])
 (mthen (add_edge "y" "x" [("weight", a)])
 (mthen (add_edge "x" "y" [("weight", r)])
 (mthen (add_edge "z" "y" [("weight", 1)])
 (mthen (add_edge "y" "y" [("weight", 1)])
 (mthen (add_edge "x" "z" [("weight", 1)])
 (mthen (add_edge "y" "z" [("weight", 1)])
        (add_edge "z" "z" [("weight", b)])))))))) empty_network.

(** lorenz_attractor_demo2.py:26-44; [ctx.connection_states[w][0]["weight"]] is [ctx.edge_data(w, "weight")], the
    same three look-ups (evolution.py:64-65) *)
Definition lorenz_node_rule {I} (dt : Q) (c : node_ctx string Q Q I) : res Q :=
  if eqb (x_label c) "x" then
    let x := x_cur c in
    w_x <- edge_data c "x" "weight" 0 ;;
    y <- activity_of c "y" ;;
    w_y <- edge_data c "y" "weight" 0 ;;
    Ok (x + (w_y * y - w_x * x) * dt)
  else if eqb (x_label c) "y" then
    let y := x_cur c in
    w_y <- edge_data c "y" "weight" 0 ;;
    x <- activity_of c "x" ;;
    w_x <- edge_data c "x" "weight" 0 ;;
    z <- activity_of c "z" ;;
    w_z <- edge_data c "z" "weight" 0 ;;
    Ok (y + (w_x * x - w_y * y - x * w_z * z) * dt)
  else
    let z := x_cur c in
    w_z <- edge_data c "z" "weight" 0 ;;
    x <- activity_of c "x" ;;
    w_x <- edge_data c "x" "weight" 0 ;;
    y <- activity_of c "y" ;;
    w_y <- edge_data c "y" "weight" 0 ;;
    Ok (z + (w_x * x * w_y * y - w_z * z) * dt).

(** ** Reaction and diffusion *)
(** reaction_diffusion_demo.py:38-56, the function [react_diffuse]; the comprehension pairs [enumerate(ctx.neighbour_labels)] with an indexed look-up in
    [ctx.neighbourhood_activities] (IndexError if there are too few) and skips the node itself *)
Definition others {V I} (x : node_ctx Z V (Q * Q) I) : res (list (Q * Q)) :=
  rmap (fun i => of_opt IndexError (nth_error (x_nacts x) i))
       (map fst (filter (fun iv => negb (eqb (snd iv) (x_label x))) (enumerate (x_nbrs x)))).

Definition react_diffuse {V I} (r_u r_v f k : Q) (x : node_ctx Z V (Q * Q) I) : res (Q * Q) :=
  let prev_u := fst (x_cur x) in
  let prev_v := snd (x_cur x) in
  nb <- others x ;;
  let neighbourhood_u := map fst nb in
  let neighbourhood_v := map snd nb in
  let diffusion_u := fold_left Qplus neighbourhood_u 0 - 4 * prev_u in
  let diffusion_v := fold_left Qplus neighbourhood_v 0 - 4 * prev_v in
  let inter_u := (- prev_u * (prev_v * prev_v)) + f * (1 - prev_u) in
  let inter_v := (prev_u * (prev_v * prev_v)) - k * prev_v in
  let new_u := prev_u + r_u * diffusion_u + inter_u in
  let new_v := prev_v + r_v * diffusion_v + inter_v in
  Ok (new_u, new_v).

(** ** The continuous cellular automaton *)
(** [math.modf(q)[0]]: the fractional part, with the sign of [q] *)
Definition modf_frac (q : Q) : Q := q - inject_Z (Z.quot (Qnum q) (Zpos (Qden q))).

(** continuous_automata_demo.py:12-16 *)
Definition continuous_rule {V I} (x : node_ctx Z V Q I) : res Q :=
  let activities := x_nacts x in
  mean <- qdiv (fold_left Qplus activities 0) (inject_Z (Z.of_nat (length activities))) ;;
  Ok (modf_frac (mean * (3 / 2))).

(** * Tsp: model of netomaton/hopfield_tank_tsp_net.py over the reals.

    Floats are real numbers ([math.sqrt], [np.tanh] are the exact functions; no nan), [u_0] is not 0 (there Python divides by zero).
    [plot_tour] (lines 104-111) draws and is not modelled. *)
From Coq Require Import Reals.
From Verif Require Import Py Network Topology Evolve Lattice.
Open Scope string_scope.
Open Scope list_scope.
Open Scope Z_scope.

Notation point := (R * R)%type.

(** equality of activities, for memoization keys *)
#[export] Instance EqD_R : EqD R := Req_EM_T.

(** the hyperparameters, hopfield_tank_tsp_net.py:12-31 *)
Record hyper := mkHyper { h_dt : R; h_A : R; h_B : R; h_C : R; h_D : R; h_u0 : R; h_n : R }.

(** hopfield_tank_tsp_net.py:50 and 98: [math.sqrt((to[0] - from[0]) ** 2 + (to[1] - from[1]) ** 2)] *)
Definition between (from to : point) : R := sqrt ((fst to - fst from) ^ 2 + (snd to - snd from) ^ 2).

(** hopfield_tank_tsp_net.py:37-54 *)
Definition get_distances (points : list point) : res (list (Z * Z * R)) :=
  let len := Z.of_nat (length points) in
  rfold (fun distances i =>
    from_point <- of_opt IndexError (py_nth points i) ;;
    rfold (fun distances j =>
      to_point <- of_opt IndexError (py_nth points j) ;;
      Ok (distances ++ [(i, j, between from_point to_point)]))
      (zrange (i + 1) len) distances)
    (zrange 0 (len - 1)) [].

(** hopfield_tank_tsp_net.py:113-129 *)
Definition get_distances_map (distances : list (Z * Z * R)) : dict (Z * Z) R :=
  fold_left (fun m e => let '(a, b, d) := e in dset (dset (dset (dset m (a, b) d) (b, a) d) (a, a) 0%R) (b, b) 0%R) distances [].

(** hopfield_tank_tsp_net.py:131-150; the state of the loops is (node_label_map, current_node) *)
Definition get_node_label_map (points : list point) : dict Z (Z * Z) :=
  let num_points := Z.of_nat (length points) in
  fst (fold_left (fun s current_point =>
         fold_left (fun s n => (dset (fst s) (snd s) (current_point, n), snd s + 1)) (zrange 0 num_points) s)
       (zrange 0 num_points) ([], 0)).

(** hopfield_tank_tsp_net.py:152-156 *)
Definition get_coordinate_map (node_label_map : dict Z (Z * Z)) : dict (Z * Z) Z :=
  fold_left (fun m e => dset m (snd e) (fst e)) node_label_map [].

(** hopfield_tank_tsp_net.py:158-160 *)
Definition get_adjacency_matrix (node_label_map : dict Z (Z * Z)) : list (list Z) :=
  repeat (repeat 1 (length node_label_map)) (length node_label_map).

(** hopfield_tank_tsp_net.py:24-35: the object after __init__ *)
Record tsp := mkTsp { t_points : list point; t_hyper : hyper; t_dist : dict (Z * Z) R; t_label : dict Z (Z * Z); t_coord : dict (Z * Z) Z; t_adj : list (list Z) }.
Definition tsp_init (points : list point) (h : hyper) : res tsp :=
  ds <- get_distances points ;;
  let labels := get_node_label_map points in
  Ok (mkTsp points h (get_distances_map ds) labels (get_coordinate_map labels) (get_adjacency_matrix labels)).

(** hopfield_tank_tsp_net.py:166-167 *)
Definition V_of (h : hyper) (u : R) : R := (1 / 2 * (1 + tanh (u / h_u0 h)))%R.

(** hopfield_tank_tsp_net.py:169-173; the message without the label *)
Definition get_opposite (activities : list R) (labels : list Z) (opposite : Z) : res R :=
  let fix go (i : Z) (l : list Z) :=
    match l with
    | [] => Err (Raise "could not find the opposite neighbour index")
    | n :: l => if n =? opposite then of_opt IndexError (py_nth activities i) else go (i + 1) l
    end
  in go 0 labels.

(** hopfield_tank_tsp_net.py:175-204; [sums] is (A_sum, B_sum, C_sum, D_sum) *)
Record sums := mkSums { s_A : R; s_B : R; s_C : R; s_D : R }.
Definition activity_rule {I} (o : tsp) (x : node_ctx Z Z R I) : res R :=
  let V := V_of (t_hyper o) in let n := Z.of_nat (length (t_points o)) in let h := t_hyper o in
  ' (node_row, node_col) <- of_opt KeyError (dget (t_label o) (x_label x)) ;;
  s <- rfold (fun s (ia : nat * R) =>
         let (i, neighbour_activity) := ia in
         neighbour_label <- of_opt IndexError (py_nth (x_nbrs x) (Z.of_nat i)) ;;
         ' (r, c) <- of_opt KeyError (dget (t_label o) neighbour_label) ;;
         let a := if (r =? node_row) && negb (c =? node_col) then (s_A s + V neighbour_activity)%R else s_A s in
         let b := if (c =? node_col) && negb (r =? node_row) then (s_B s + V neighbour_activity)%R else s_B s in
         let g := (s_C s + V neighbour_activity)%R in
         if c =? (node_col - 1) mod n then
           opp_label <- of_opt KeyError (dget (t_coord o) (r, (node_col + 1) mod n)) ;;
           opp <- get_opposite (x_nacts x) (x_nbrs x) opp_label ;;
           d <- of_opt KeyError (dget (t_dist o) (r, node_row)) ;;
           Ok (mkSums a b g (s_D s + d * (V neighbour_activity + V opp)))
         else Ok (mkSums a b g (s_D s)))
       (enumerate (x_nacts x)) (mkSums 0 0 0 0) ;;
  let activity := (- x_cur x - h_A h * s_A s - h_B h * s_B s - h_C h * (s_C s - h_n h) - h_D h * s_D s)%R in
  Ok (x_cur x + h_dt h * activity)%R.

(** [l.reshape(k, k)], numpy; [None] when the size does not fit *)
Definition reshape {A} (k : nat) (l : list A) : option (list (list A)) :=
  if Nat.eqb (length l) (k * k) then Some (map (fun i => firstn k (skipn (i * k) l)) (seq 0 k)) else None.

(** hopfield_tank_tsp_net.py:56-60; the activities are a rectangular table *)
Definition get_permutation_matrix (o : tsp) (activities : list (list R)) : res (list (list R)) :=
  last <- of_opt IndexError (py_nth activities (-1)) ;;
  m <- of_opt ValueError (reshape (length (t_points o)) last) ;;
  Ok (map (map (V_of (t_hyper o))) m).

(** [np.argmax(row)]: the first position of the largest entry; ValueError on an empty row *)
Fixpoint argmax_from (i best : Z) (v : R) (l : list R) : Z :=
  match l with
  | [] => best
  | x :: l => if Rlt_dec v x then argmax_from (i + 1) i x l else argmax_from (i + 1) best v l
  end.
Definition argmax (row : list R) : res Z :=
  match row with [] => Err ValueError | x :: l => Ok (argmax_from 1 0 x l) end.

(** hopfield_tank_tsp_net.py:62-102, with the networkx graph of Lattice.v; the message without the position *)
Definition get_tour_graph (points : list point) (M : list (list R)) : res (ugraph * dict Z point * R) :=
  let len := Z.of_nat (length points) in
  if negb (Nat.eqb (length points) (length M)) then Err AssertionError else
  row0 <- of_opt IndexError (py_nth M 0) ;;
  if negb (Nat.eqb (length points) (length row0)) then Err AssertionError else
  let G := fold_left ug_add_node (zrange 0 len) [] in
  order <- rfold (fun order (ir : nat * list R) =>
             tour_index <- argmax (snd ir) ;;
             if dmem order tour_index then Err (Raise "a point has already claimed a position in the tour")
             else Ok (dset order tour_index (Z.of_nat (fst ir)))) (enumerate M) [] ;;
  ' (G, distances) <- rfold (fun (s : ugraph * list R) e =>
             let (tour_index, from_index) := e : Z * Z in
             to_index <- of_opt KeyError (dget order ((tour_index + 1) mod len)) ;;
             from_point <- of_opt IndexError (py_nth points from_index) ;;
             to_point <- of_opt IndexError (py_nth points to_index) ;;
             Ok (ug_add_edge (fst s) from_index to_index, snd s ++ [between from_point to_point])) order (G, []) ;;
  Ok (G, map (fun ip => (Z.of_nat (fst ip), snd ip)) (enumerate points), fold_left Rplus distances 0%R).

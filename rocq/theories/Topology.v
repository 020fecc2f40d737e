(** * Topology: model of /repo/netomaton/topology/adjacency.py and /repo/netomaton/topology/networks.py.

    Matrices are lists of lists. The float entries [0.] and [1.] of adjacency.py are the integers 0 and 1 here. *)
From Verif Require Import Py Network.
Open Scope string_scope.
Open Scope Z_scope.

(** [M[i][j] = x] with Python indices; IndexError when out of range. *)
Definition mat_set {A} (M : list (list A)) (i j : Z) (x : A) : res (list (list A)) :=
  match py_index (length M) i with
  | None => Err IndexError
  | Some i' =>
      match nth_error M i' with
      | None => Err IndexError
      | Some row =>
          match py_index (length row) j with
          | None => Err IndexError
          | Some j' => Ok (upd_nth M i' (fun row => upd_nth row j' (fun _ => x)))
          end
      end
  end.

(** adjacency.py:19 and :53, [[0. for j in range(n)] for i in range(n)] *)
Definition zero_matrix (n : Z) : list (list Z) := repeat (repeat 0 (Z.to_nat n)) (Z.to_nat n).

(** adjacency.py:4-30 *)
Definition adj_cellular_automaton (n r : Z) (boundary : string) : res (list (list Z)) :=
  if n <? 3 then Err (Raise "There must be at least 3 cells") else
  if eqb boundary "periodic" then
    rfold (fun M w =>
      rfold (fun M c =>
        if w =? c then
          M <- mat_set M w c 1 ;;
          rfold (fun M i =>
            M <- mat_set M w (c - (1 + i)) 1 ;;
            mat_set M w ((c + (1 + i)) mod n) 1)
            (zrange 0 r) M
        else Ok M)
        (zrange 0 n) M)
      (zrange 0 n) (zero_matrix n)
  else Err (Raise "unsupported boundary condition").

(** adjacency.py:56, :58, :60-66: [criteria a_i b_i a_o b_o radius rownum] *)
Definition crit_von_neumann (ai bi ao bo r rownum : Z) : bool := Z.abs (ai - ao) + Z.abs (bi - bo) <=? r.
Definition crit_moore (ai bi ao bo r rownum : Z) : bool := (Z.abs (ai - ao) <=? r) && (Z.abs (bi - bo) <=? r).
Definition crit_hex (ai bi ao bo r rownum : Z) : bool :=
  let vn := Z.abs (ai - ao) + Z.abs (bi - bo) <=? r in
  let ex := if rownum mod 2 =? 0 then bi - bo <? r else bo - bi <? r in
  vn || ex.

(** adjacency.py:88-91 *)
Definition get_neighbourhood_points2d (a b r : Z) (criteria : Z -> Z -> Z -> Z -> Z -> Z -> bool) (rownum : Z) : list (Z * Z) :=
  let neighbourhood_points := map (fun x => map (fun y => (x, y)) (zrange (b - r) (b + r + 1))) (zrange (a - r) (a + r + 1)) in
  let filtered := map (fun row => filter (fun p => criteria (fst p) (snd p) a b r rownum) row) neighbourhood_points in
  concat filtered.

(** adjacency.py:71, [np.array(range(n)).reshape((rows, cols)).tolist()], for rows, cols > 0 *)
Definition lattice_ids (rows cols : Z) : list (list Z) :=
  map (fun a => map (fun b => a * cols + b) (zrange 0 cols)) (zrange 0 rows).

(** [lattice[x][y]] with Python indices *)
Definition lattice_get (l : list (list Z)) (x y : Z) : res Z :=
  row <- of_opt IndexError (py_nth l x) ;; of_opt IndexError (py_nth row y).

(** adjacency.py:33-85. [reshape] rejects negative dimensions (ValueError). *)
Definition adj_cellular_automaton2d (rows cols r : Z) (neighbourhood boundary : string) : res (list (list Z)) :=
  let n := rows * cols in
  if n <? 9 then Err (Raise "There must be at least 9 cells") else
  if eqb boundary "periodic" then
    criteria <- (if eqb neighbourhood "von Neumann" then Ok crit_von_neumann
                 else if eqb neighbourhood "Moore" then Ok crit_moore
                 else if eqb neighbourhood "Hex" then Ok crit_hex
                 else Err (Raise "neighbourhood type not supported")) ;;
    if rows <? 0 then Err ValueError else
    let lattice := lattice_ids rows cols in
    rfold (fun M a =>
      let rownum := a + 1 in
      rfold (fun M b =>
        adjacency_row_num <- lattice_get lattice a b ;;
        rfold (fun M point =>
          let x := if fst point =? -1 then fst point else fst point mod rows in
          let y := if snd point =? -1 then snd point else snd point mod cols in
          j <- lattice_get lattice x y ;;
          mat_set M adjacency_row_num j 1)
          (get_neighbourhood_points2d a b r criteria rownum) M)
        (zrange 0 cols) M)
      (zrange 0 rows) (zero_matrix n)
  else Err (Raise "unsupported boundary condition").

(** [sorted(l)] on integers (insertion sort; any stable sort gives the same list of integers). *)
Fixpoint zinsert (x : Z) (l : list Z) : list Z :=
  match l with
  | [] => [x]
  | y :: ys => if x <=? y then x :: y :: ys else y :: zinsert x ys
  end.
Fixpoint zsort (l : list Z) : list Z :=
  match l with [] => [] | x :: xs => zinsert x (zsort xs) end.

(** [collections.deque.rotate(k)]: k steps to the right, a no-op on an empty deque. *)
Definition deque_rotate {A} (l : list A) (k : Z) : list A :=
  match l with
  | [] => []
  | _ => let m := Z.to_nat (k mod Z.of_nat (length l)) in
         skipn (length l - m) l ++ firstn (length l - m) l
  end.

(** networks.py:8-25. [arr.index(val)] raises ValueError when absent. *)
Definition shift_to_center (nodes : list Z) (node_to_center_on : Z) : res (list Z) :=
  let center := Z.of_nat (length nodes / 2) in
  idx <- of_opt ValueError (py_find nodes node_to_center_on) ;;
  Ok (deque_rotate (zsort nodes) (center - Z.of_nat idx)).

(** networks.py:85-91. [val != 0] is [nz val]. Indices are [enumerate] positions. *)
Definition from_adjacency_matrix {V} (nz : V -> bool) (adj : list (list V)) : network Z V * res unit :=
  mfor (enumerate adj) (fun irow =>
    mfor (enumerate (snd irow)) (fun jval =>
      if nz (snd jval) then add_edge (Z.of_nat (fst irow)) (Z.of_nat (fst jval)) [("weight", snd jval)]
      else mret tt))
    empty_network.

Definition nzb (x : Z) : bool := negb (x =? 0).

(** networks.py:31-33 and :40-42: the rotation system of an ordered automaton *)
Definition set_ordered (network : network Z Z) : Network.network Z Z * res unit :=
  match rmap (fun node =>
          inc <- in_edges network node ;;
          shifted <- shift_to_center (dkeys inc) node ;;
          Ok (node, shifted)) (nodes network) with
  | Ok rs => set_rotation_system rs network
  | Err e => (network, Err e)
  end.

(** networks.py:28-34; the argument [periodic] is not used by the code. *)
Definition cellular_automaton (n r : Z) (ordered : bool) : res (network Z Z) :=
  adjacency_matrix <- adj_cellular_automaton n r "periodic" ;;
  match from_adjacency_matrix nzb adjacency_matrix with
  | (_, Err e) => Err e
  | (network, Ok _) =>
      if ordered then
        match set_ordered network with (n', Ok _) => Ok n' | (_, Err e) => Err e end
      else Ok network
  end.

(** networks.py:37-43; the argument [periodic] is not used by the code. *)
Definition cellular_automaton2d (rows cols r : Z) (neighbourhood : string) (ordered : bool) : res (network Z Z) :=
  adjacency_matrix <- adj_cellular_automaton2d rows cols r neighbourhood "periodic" ;;
  match from_adjacency_matrix nzb adjacency_matrix with
  | (_, Err e) => Err e
  | (network, Ok _) =>
      if ordered then
        match set_ordered network with (n', Ok _) => Ok n' | (_, Err e) => Err e end
      else Ok network
  end.

(** networks.py:71-82: an int, a list (or ndarray) of labels, or anything else (e.g. a tuple: nothing is added). *)
Inductive disconnected_arg (L : Type) := DInt (n : Z) | DList (l : list L) | DOther.
Arguments DInt {L}. Arguments DList {L}. Arguments DOther {L}.
Definition disconnected {V} (nodes : disconnected_arg Z) : network Z V * res unit :=
  match nodes with
  | DInt n => (init_network n, Ok tt)
  | DList l => mfor l (fun v => add_node v []) empty_network
  | DOther => (empty_network, Ok tt)
  end.

(** networks.py:113-145; [edge_attributes] is None or a nested dict (KeyError when an entry is missing). *)
Definition bipartite {L V} `{EqD L} (set1 set2 : list L) (edge_attributes : option (dict L (dict L (attrs_of V))))
  : network L V * res unit :=
  mfor set1 (fun node1 =>
    mfor set2 (fun node2 =>
      match edge_attributes with
      | None => add_edge_bidir node1 node2 []
      | Some ea =>
          match (match dget ea node1 with Some d => dget d node2 | None => None end) with
          | Some attrs => add_edge_bidir node1 node2 attrs
          | None => mraise KeyError
          end
      end)) empty_network.

(** networks.py:148-158. networkx 2.5: [nx.complete_graph] rejects a negative n and [nx.adjacency_matrix] a graph without
    nodes (NetworkXError); the adjacency matrix of a complete graph has 0 on the diagonal and 1 elsewhere. *)
Definition complete_adjacency (n : Z) : list (list Z) :=
  map (fun i => map (fun j => if i =? j then 0 else 1) (zrange 0 n)) (zrange 0 n).
Definition complete (n : Z) : network Z Z * res unit :=
  if n <=? 0 then (empty_network, Err (Raise "NetworkXError"))
  else from_adjacency_matrix nzb (complete_adjacency n).

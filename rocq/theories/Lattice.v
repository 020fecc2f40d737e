(** * Lattice: model of [lattice], /repo/netomaton/topology/networks.py:46-68, and of the networkx 2.5 functions it calls. *)
From Verif Require Import Py Network.
Open Scope string_scope.
Open Scope list_scope.
Open Scope Z_scope.

(** [nx.Graph] without attributes: the adjacency of each node, in insertion order *)
Definition ugraph := dict Z (list Z).

(** networkx 2.5 [Graph.add_node] / the node creation of [Graph.add_edge] *)
Definition ug_add_node (g : ugraph) (v : Z) : ugraph := if dmem g v then g else dset g v [].
(** [self._adj[u][v] = datadict]: a key that is present keeps its place *)
Definition ug_link (g : ugraph) (u v : Z) : ugraph :=
  match dget g u with
  | Some l => if existsb (Z.eqb v) l then g else dset g u (l ++ [v])
  | None => g
  end.
(** networkx 2.5 [Graph.add_edge] *)
Definition ug_add_edge (g : ugraph) (u v : Z) : ugraph := ug_link (ug_link (ug_add_node (ug_add_node g u) v) u v) v u.
(** [add_nodes_from] then [add_edges_from] on an empty graph *)
Definition ug_of (nodes : list Z) (edges : list (Z * Z)) : ugraph :=
  fold_left (fun g e => ug_add_edge g (fst e) (snd e)) edges (fold_left ug_add_node nodes []).

(** networkx 2.5 [EdgeView.__iter__]: neighbours of nodes already passed are skipped *)
Fixpoint ug_edges_from (seen : list Z) (g : ugraph) : list (Z * Z) :=
  match g with
  | [] => []
  | (n, nbrs) :: g' => map (fun nbr => (n, nbr)) (filter (fun nbr => negb (existsb (Z.eqb nbr) seen)) nbrs) ++ ug_edges_from (n :: seen) g'
  end.
Definition ug_edges (g : ugraph) : list (Z * Z) := ug_edges_from [] g.

(** networkx 2.5 [path_graph(n)] and [cycle_graph(n)] for an integer n *)
Definition pairwise_range (n : Z) : list (Z * Z) := map (fun i => (i, i + 1)) (zrange 0 (n - 1)).
Definition path_graph (n : Z) : res ugraph :=
  if n <? 0 then Err (Raise "NetworkXError") else Ok (ug_of (zrange 0 n) (pairwise_range n)).
Definition cycle_graph (n : Z) : res ugraph :=
  if n <? 0 then Err (Raise "NetworkXError") else if n =? 0 then Err IndexError
  else Ok (ug_of (zrange 0 n) (pairwise_range n ++ [(n - 1, 0)])).

(** networkx 2.5 [cartesian_product(G, H)]. The node (u, x) is written u * len(H) + x: G has nodes 0 .. len(G)-1 and H has nodes
    0 .. len(H)-1 here, and the later relabelling to integers numbers the pairs in this order. *)
Definition cartesian_product (G H : ugraph) : ugraph :=
  let m := Z.of_nat (length H) in
  ug_of (flat_map (fun u => map (fun x => u * m + x) (dkeys H)) (dkeys G))
    (flat_map (fun e => map (fun x => (fst e * m + x, snd e * m + x)) (dkeys H)) (ug_edges G) ++
     flat_map (fun u => map (fun e => (u * m + fst e, u * m + snd e)) (ug_edges H)) (dkeys G)).

(** networkx 2.5 [relabel_nodes(G, mapping)]: a new graph from the nodes and edges *)
Definition relabel_copy (f : Z -> Z) (G : ugraph) : ugraph := ug_of (map f (dkeys G)) (map (fun e => (f (fst e), f (snd e))) (ug_edges G)).

(** networkx 2.5 [grid_graph(dim, periodic)] for a boolean [periodic] and integer dimensions; the last step flattens the tuples *)
Definition grid_graph (dim : list Z) (periodic : bool) : res ugraph :=
  let func := if periodic then cycle_graph else path_graph in
  match dim with
  | [] => Ok []
  | d :: ds =>
      G0 <- func d ;;
      G <- rfold (fun G d => Gnew <- func d ;; Ok (cartesian_product Gnew G)) ds G0 ;;
      Ok (relabel_copy (fun v => v) G)
  end.

(** networks.py:46-68 *)
Definition lattice {V} (dim : list Z) (periodic self_loops : bool) (first_label : Z) : res (network Z V) :=
  G <- grid_graph dim periodic ;;
  let G := relabel_copy (fun v => v + first_label) G in
  match mfor (ug_edges G) (fun e => if (fst e =? snd e) && negb self_loops then mret tt
                                    else mthen (add_edge (snd e) (fst e) []) (add_edge (fst e) (snd e) [])) empty_network with
  | (n, Ok _) => Ok n
  | (_, Err e) => Err e
  end.

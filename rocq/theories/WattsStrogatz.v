(** * WattsStrogatz: model of [watts_strogatz_graph], /repo/netomaton/topology/networks.py:94-110, and of the networkx 2.5
    functions it calls. *)
From Verif Require Import Py Network Topology Lattice.
Open Scope string_scope.
Open Scope list_scope.
Open Scope Z_scope.

(** networkx 2.5 [Graph.has_edge], [Graph.degree(u)] (a self-loop counts twice) *)
Definition ug_has_edge (g : ugraph) (u v : Z) : bool :=
  match dget g u with Some l => existsb (Z.eqb v) l | None => false end.
Definition ug_degree (g : ugraph) (u : Z) : Z :=
  match dget g u with Some l => Z.of_nat (length l) + (if existsb (Z.eqb u) l then 1 else 0) | None => 0 end.
(** [del self._adj[u][v]] *)
Definition ug_unlink (g : ugraph) (u v : Z) : ugraph :=
  match dget g u with Some l => dset g u (filter (fun w => negb (w =? v)) l) | None => g end.
(** networkx 2.5 [Graph.remove_edge] *)
Definition ug_remove_edge (g : ugraph) (u v : Z) : res ugraph :=
  if ug_has_edge g u v then Ok (let g' := ug_unlink g u v in if u =? v then g' else ug_unlink g' v u)
  else Err (Raise "NetworkXError").

(** [zip(nodes, nodes[j:] + nodes[0:j])] with [nodes = list(range(n))] *)
Definition ws_pairs (n j : Z) : list (Z * Z) := combine (zrange 0 n) (zrange j n ++ zrange 0 j).

(** the [while]/[else] loop. [pick i mod n] is the outcome of the [i]-th [seed.choice(nodes)]; [None]: left by [break].
    [fuel] bounds the number of redraws. *)
Fixpoint redraw (fuel : nat) (n : Z) (pick : nat -> Z) (g : ugraph) (u w : Z) (i : nat) : res (option Z * nat) :=
  if (w =? u) || ug_has_edge g u w then
    match fuel with
    | O => Err OutOfFuel
    | S fuel =>
        let w := pick i mod n in
        if n - 1 <=? ug_degree g u then Ok (None, S i) else redraw fuel n pick g u w (S i)
    end
  else Ok (Some w, i).

(** one iteration of the inner rewiring loop; [coin j u] is the outcome of [seed.random() < p] there, which happens once per (j, u) *)
Definition rewire (fuel : nat) (n : Z) (coin : Z -> Z -> bool) (pick : nat -> Z) (j : Z) (st : ugraph * nat) (e : Z * Z) : res (ugraph * nat) :=
  let (g, i) := st in
  let (u, v) := e in
  if coin j u then
    ' (ow, i) <- redraw fuel n pick g u (pick i mod n) (S i) ;;
    match ow with
    | None => Ok (g, i)
    | Some w => g' <- ug_remove_edge g u v ;; Ok (ug_add_edge g' u w, i)
    end
  else Ok (g, i).

(** networkx 2.5 [watts_strogatz_graph(n, k, p, seed)] for k < n *)
Definition ws_ring (n k : Z) : ugraph := ug_of [] (flat_map (ws_pairs n) (zrange 1 (k / 2 + 1))).
Definition ws_graph (fuel : nat) (coin : Z -> Z -> bool) (pick : nat -> Z) (n k : Z) : res ugraph :=
  ' (g, i) <- rfold (fun st j => rfold (rewire fuel n coin pick j) (ws_pairs n j) st) (zrange 1 (k / 2 + 1)) (ws_ring n k, O) ;;
  Ok g.

(** [nx.adjacency_matrix(G).todense().tolist()]: rows and columns in node order; a graph without nodes is rejected *)
Definition ug_adjacency (g : ugraph) : res (list (list Z)) :=
  match g with
  | [] => Err (Raise "NetworkXError")
  | _ => Ok (map (fun u => map (fun v => if ug_has_edge g u v then 1 else 0) (dkeys g)) (dkeys g))
  end.

(** networks.py:94-110; for k == n networkx returns the complete graph, modelled by [complete] (Topology.v) *)
Definition watts_strogatz_graph (fuel : nat) (coin : Z -> Z -> bool) (pick : nat -> Z) (n k : Z) : res (network Z Z) :=
  if n <? k then Err (Raise "NetworkXError")
  else if k =? n then match complete n with (net, Ok _) => Ok net | (_, Err e) => Err e end
  else
    g <- ws_graph fuel coin pick n k ;;
    adj <- ug_adjacency g ;;
    match from_adjacency_matrix nzb adj with (net, Ok _) => Ok net | (_, Err e) => Err e end.

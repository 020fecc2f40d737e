(** * Hopfield: model of netomaton/hopfield_net.py.

    Patterns are lists of ints; the int64 arithmetic of the adjacency matrix is unbounded here. *)
From Verif Require Import Py Network Topology Evolve EvolveSpec Async.
Open Scope string_scope.
Open Scope list_scope.
Open Scope Z_scope.

(** [M[i, j]]; IndexError when out of range *)
Definition mat_get {A} (M : list (list A)) (i j : Z) : res A :=
  row <- of_opt IndexError (py_nth M i) ;; of_opt IndexError (py_nth row j).

(** hopfield_net.py:26-31, one pattern *)
Definition learn (M : list (list Z)) (p : list Z) : res (list (list Z)) :=
  rfold (fun M i =>
    rfold (fun M j =>
      if i =? j then mat_set M i j 0
      else
        pi <- of_opt IndexError (py_nth p i) ;;
        pj <- of_opt IndexError (py_nth p j) ;;
        x <- mat_get M i j ;;
        mat_set M i j (x + pi * pj))
      (zrange 0 (Z.of_nat (length p))) M)
    (zrange 0 (Z.of_nat (length p))) M.

(** hopfield_net.py:17-32; the adjacency matrix and the network *)
Definition train (P : list (list Z)) : res (list (list Z) * network Z Z) :=
  p0 <- of_opt IndexError (py_nth P 0) ;;
  M <- rfold learn P (zero_matrix (Z.of_nat (length p0))) ;;
  match from_adjacency_matrix nzb M with
  | (net, Ok _) => Ok (M, net)
  | (_, Err e) => Err e
  end.

(** hopfield_net.py:34-45 *)
Definition hopfield_rule {I} (x : node_ctx Z Z Z I) : res Z :=
  V <- rfold (fun V neighbour_label =>
         states <- of_opt KeyError (dget (x_conn x) neighbour_label) ;;
         s0 <- of_opt IndexError (py_nth states 0) ;;
         weight <- of_opt KeyError (dget s0 "weight") ;;
         a <- of_opt KeyError (dget (x_acts x) neighbour_label) ;;
         Ok (V + weight * a)) (x_nbrs x) 0 ;;
  Ok (if 0 <=? V then 1 else -1).

(** hopfield_net.py:14: the wrapped rule of HopfieldNet(n); its own state is unit *)
Definition hopfield_activity_rule {I} (shuffle : nat -> nat -> list Z) : @rule Z Z Z (unit * async Z) I :=
  async_call shuffle true (stateless hopfield_rule).
Definition hopfield_init (shuffle : nat -> nat -> list Z) (n : nat) : res (async Z) := async_init shuffle None (Some n).

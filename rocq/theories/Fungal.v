(** * Fungal: model of /repo/netomaton/fungal_growth_model.py.

    Activities, weights and random numbers are exact rationals instead of floats. [np.random.random()] is an arbitrary stream
    [rand]; the user state counts the numbers drawn. The seed only chooses the stream. *)
From Coq Require Import QArith.
From Verif Require Import Py Network Lattice Evolve.
Open Scope string_scope.
Open Scope list_scope.
Open Scope Z_scope.

(** needed to state runs of [evolve]; only memoization, which is off here, compares activities *)
#[export] Instance EqD_Q : EqD Q.
Proof. intros x y. decide equality; [apply Pos.eq_dec|apply Z.eq_dec]. Defined.

Definition Qpos (x : Q) : bool := negb (Qle_bool x 0).

Record fungal := mkFungal {
  f_RE : Q;
  f_links : list (Z * Z);
  f_net : network Z Q;
  f_layer : list Q }.

(** fungal_growth_model.py:39-41: the lattice edges as a set of frozensets; a pair stands for the frozenset of its components *)
Definition add_link (links : list (Z * Z)) (ij : Z * Z) : list (Z * Z) :=
  if existsb (fun l => ((fst l =? fst ij) && (snd l =? snd ij)) || ((fst l =? snd ij) && (snd l =? fst ij))) links then links else links ++ [ij].

(** fungal_growth_model.py:52-53 *)
Definition mark_resource (layer : list Q) (nz : nat) : res (list Q) :=
  if (nz <? length layer)%nat then Ok (upd_nth layer nz (fun _ => 1%Q)) else Err IndexError.

(** fungal_growth_model.py:18-56. [set_order] is the order in which Python iterates over the set of links, and over the two
    elements of each link. *)
Definition fungal_init (set_order : list (Z * Z) -> list (Z * Z)) (R_E : Q) (width height : Z) (initial_conditions : list Q) (resource_layer : list Q) : res fungal :=
  let num_agents := width * height in
  underlying_network <- lattice (V:=Q) [1; width; height] true false 0 ;;
  let links := fold_left (fun links e => add_link links (fst e)) (edges underlying_network) [] in
  layer <- match resource_layer with
           | _ :: _ => if Z.of_nat (length resource_layer) =? num_agents then Ok resource_layer else Err AssertionError
           | [] => rfold mark_resource (map fst (filter (fun ix => negb (Qeq_bool (snd ix) 0)) (enumerate initial_conditions))) (repeat 0%Q (Z.to_nat num_agents))
           end ;;
  Ok (mkFungal R_E (set_order links) (init_network num_agents) layer).

(** a method call on the network object that is being changed *)
Definition mrun (m : mut unit) (n : network Z Q) : res (network Z Q) := match m n with (n', Ok _) => Ok n' | (_, Err e) => Err e end.

(** fungal_growth_model.py:73 and 78, [1 / (self._d - curr_network.degree(j))] *)
Definition grow_p (curr_network : network Z Q) (j : Z) : res Q :=
  d <- degree curr_network j ;; if 4 - d =? 0 then Err ZeroDivisionError else Ok (1 / inject_Z (4 - d))%Q.

Definition Qlt_bool (x y : Q) : bool := negb (Qle_bool y x).

(** fungal_growth_model.py:63-87, one link; [k] numbers have been drawn *)
Definition grow (rand : nat -> Q) (curr_network : network Z Q) (activities : dict Z Q) (st : nat * network Z Q) (ij : Z * Z) : res (nat * network Z Q) :=
  let (k, new_network) := st in let (i, j) := ij in
  Si <- of_opt KeyError (dget activities i) ;;
  Sj <- of_opt KeyError (dget activities j) ;;
  let A_i_j := has_edge curr_network i j in
  let A_j_i := has_edge curr_network j i in
  if A_i_j || A_j_i then Ok st else
  match Qpos Si, Qpos Sj with
  | false, false => Ok st
  | false, true =>
      p <- grow_p curr_network j ;;
      if Qlt_bool (rand k) p then n <- mrun (add_edge j i []) new_network ;; Ok (S k, n) else Ok (S k, new_network)
  | true, false =>
      p <- grow_p curr_network i ;;
      if Qlt_bool (rand k) p then n <- mrun (add_edge i j []) new_network ;; Ok (S k, n) else Ok (S k, new_network)
  | true, true =>
      n <- mrun (if Qlt_bool (rand k) (1 # 2) then add_edge i j [] else add_edge j i []) new_network ;; Ok (S k, n)
  end.

(** fungal_growth_model.py:89-90, one edge *)
Definition reweigh (new_network : network Z Q) (e : Z * Z * dict string Q) : res (network Z Q) :=
  let '(i, j, _) := e in
  d <- out_degree new_network i ;;
  if d =? 0 then Err ZeroDivisionError else mrun (update_edge i j None [("weight", 1 / inject_Z d)%Q]) new_network.

(** fungal_growth_model.py:58-92. [Network.edges] (state.py:140-145) is a generator over the live
    dictionaries; the loop body only updates edge attributes, so it yields the same edges as the list taken before the loop, and
    the attributes it yields are not used. *)
Definition topology_rule (o : fungal) (rand : nat -> Q) (k : nat) (c : topo_ctx Z Q Q) : res (nat * option (network Z Q)) :=
  ' (k', n1) <- rfold (grow rand (t_net c) (t_acts c)) (f_links o) (k, copy (t_net c)) ;;
  n2 <- rfold reweigh (edges n1) n1 ;;
  Ok (k', Some n2).

(** fungal_growth_model.py:94-105 *)
Definition activity_rule {I} (o : fungal) (x : node_ctx Z Q Q I) : res Q :=
  let contribution0 := match x_nbrs x with [] => x_cur x | _ => 0%Q end in
  contribution <- rfold (fun acc nb =>
      cs <- of_opt KeyError (dget (x_conn x) nb) ;;
      e <- of_opt IndexError (py_nth cs 0) ;;
      w <- of_opt KeyError (dget e "weight") ;;
      a <- of_opt KeyError (dget (x_acts x) nb) ;;
      Ok (acc + w * a)%Q) (x_nbrs x) contribution0 ;;
  let phi := if Qpos (x_cur x) then 1%Q else 0%Q in
  L <- of_opt IndexError (py_nth (f_layer o) (x_label x)) ;;
  Ok (contribution + f_RE o * phi * L)%Q.

(** * Sandpile: model of netomaton/sandpile.py. *)
From Verif Require Import Py Network Topology Evolve.
Open Scope string_scope.
Open Scope list_scope.
Open Scope Z_scope.

(** sandpile.py:13-15; rows and columns are positive where this is called *)
Definition get_boundary_indices (rows cols : Z) : list Z :=
  let m a b := a * cols + b in
  map (m 0) (zrange 0 cols) ++ map (m (rows - 1)) (zrange 0 cols) ++ map (fun a => m a 0) (zrange 0 rows) ++ map (fun a => m a (cols - 1)) (zrange 0 rows).

Record sandpile := mkSandpile { sp_net : network Z Z; sp_boundary : list Z; sp_closed : bool }.

(** sandpile.py:7-11 *)
Definition sandpile_init (rows cols : Z) (is_closed_boundary : bool) : res sandpile :=
  network <- cellular_automaton2d rows cols 1 "von Neumann" true ;;
  Ok (mkSandpile network (get_boundary_indices rows cols) is_closed_boundary).

(** [l.pop(i)] for an index i >= 0 *)
Definition list_pop {A} (l : list A) (i : nat) : res (list A) :=
  if (i <? length l)%nat then Ok (firstn i l ++ skipn (S i) l) else Err IndexError.

(** sandpile.py:17-33 *)
Definition sandpile_rule {I} (o : sandpile) (x : node_ctx Z Z Z I) : res Z :=
  if sp_closed o && existsb (Z.eqb (x_label x)) (sp_boundary o) then Ok 0
  else
    idx <- of_opt ValueError (py_find (x_nbrs x) (x_label x)) ;;
    neighbour_activities <- list_pop (x_nacts x) idx ;;
    let new_activity := fold_left (fun a na => if 4 <=? na then a + 1 else a) neighbour_activities (x_cur x) in
    Ok (if 4 <=? x_cur x then new_activity - 4 else new_activity).

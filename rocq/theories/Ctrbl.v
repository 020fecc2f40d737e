(** * Ctrbl: model of netomaton/ctrbl_rule.py.

    States are an arbitrary type [A] with decidable equality; the 5-tuples of the rule table are lists. *)
From Verif Require Import Py Network Topology Evolve.
Open Scope string_scope.
Open Scope list_scope.
Open Scope Z_scope.

(** ctrbl_rule.py:92-129 *)
Record von_neumann := mkVN { vn_center : Z; vn_top : Z; vn_bottom : Z; vn_left : Z; vn_right : Z }.

(** ctrbl_rule.py:69-75, the body of the inner loop; [%] is Python's *)
Definition vn_at (rows cols row idx : Z) : von_neumann :=
  let center := idx in
  let left := ((center - row * cols) - 1) mod cols + row * cols in
  let right := ((center - row * cols) + 1) mod cols + row * cols in
  let top := (center - cols) mod (rows * cols) in
  let bottom := (center + cols) mod (rows * cols) in
  mkVN center top bottom left right.

(** ctrbl_rule.py:54-77: the dict and the running index *)
Definition init_neighbourhood_map (rows cols : Z) : dict Z von_neumann :=
  fst (fold_left (fun s row =>
         fold_left (fun s (_ : Z) => let '(m, idx) := s in (dset m idx (vn_at rows cols row idx), idx + 1)) (zrange 0 cols) s)
       (zrange 0 rows) ([], 0)).

Section Ctrbl.
  Context {A : Type} `{EqD A}.

  (** [r.insert(1, r.pop(4))], ctrbl_rule.py:87 *)
  Definition rotate_key (r : list A) : res (list A) :=
    x <- of_opt IndexError (nth_error r 4) ;;
    let r' := firstn 4 r ++ skipn 5 r in
    Ok (firstn 1 r' ++ [x] ++ skipn 1 r').

  (** ctrbl_rule.py:79-89 *)
  Definition init_rule_table (rule_table : dict (list A) A) (add_rotations : bool) : res (dict (list A) A) :=
    rfold (fun d ri =>
        let '(rule, image) := ri in
        let d := dset d rule image in
        if add_rotations then
          ' (_, d) <- rfold (fun s (_ : Z) => let '(r, d) := s in r <- rotate_key r ;; Ok (r, dset d r image)) (zrange 0 3) (rule, d) ;;
          Ok d
        else Ok d)
      rule_table [].

  (** the attributes of a CTRBLRule object *)
  Record ctrbl := mkCtrbl {
    cr_network : network Z Z;
    cr_map : dict Z von_neumann;
    cr_table : dict (list A) A }.

  (** ctrbl_rule.py:23-33 *)
  Definition ctrbl_init (rows cols : Z) (rule_table : dict (list A) A) (add_rotations : bool) : res ctrbl :=
    network <- cellular_automaton2d rows cols 1 "von Neumann" false ;;
    let neighbourhood_map := init_neighbourhood_map rows cols in
    rotation_system <- rfold (fun rs node =>
        neigh <- of_opt KeyError (dget neighbourhood_map node) ;;
        Ok (dset rs node [vn_center neigh; vn_top neigh; vn_right neigh; vn_bottom neigh; vn_left neigh]))
      (nodes network) [] ;;
    match set_rotation_system rotation_system network with
    | (network, Ok _) => table <- init_rule_table rule_table add_rotations ;; Ok (mkCtrbl network neighbourhood_map table)
    | (_, Err e) => Err e
    end.

  (** ctrbl_rule.py:35-40. The message is formatted with the key: TypeError unless it has five elements. *)
  Definition ctrbl_rule {L V I} (c : ctrbl) (ctx : node_ctx L V A I) : res A :=
    let key := x_nacts ctx in
    match dget (cr_table c) key with
    | Some a => Ok a
    | None => if Nat.eqb (length key) 5 then Err (Raise "neighbourhood state not in rule table") else Err TypeError
    end.
End Ctrbl.
Arguments ctrbl A : clear implicits.
Arguments mkCtrbl {A}.

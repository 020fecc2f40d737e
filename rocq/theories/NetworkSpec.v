(** * Specification of a directed multigraph, independent of the data structure in Network.v.

    An abstract graph is the list of its nodes (in creation order, with attributes) and the list of its edges
    (in insertion order). Every operation is an append, a filter or a map. *)
From Verif Require Import Py.

Record graph (L V : Type) := mkG {
  g_nodes : list (L * dict string V);
  g_edges : list (L * L * dict string V) }.
Arguments mkG {L V}. Arguments g_nodes {L V}. Arguments g_edges {L V}.

Section Spec.
  Context {L V : Type} `{EqD L}.
  Notation graph := (graph L V).
  Notation attrs := (dict string V).

  Definition src (e : L * L * attrs) : L := fst (fst e).
  Definition tgt (e : L * L * attrs) : L := snd (fst e).
  Definition dat (e : L * L * attrs) : attrs := snd e.

  Definition is_node (g : graph) (v : L) : Prop := In v (map fst (g_nodes g)).
  Definition is_nodeb (g : graph) (v : L) : bool := if in_dec eqd v (map fst (g_nodes g)) then true else false.

  (** the edges from [i] to [j], as attribute dicts, in insertion order *)
  Definition between (g : graph) (i j : L) : list attrs :=
    map dat (filter (fun e => eqb (src e) i && eqb (tgt e) j) (g_edges g)).

  Definition ensure_node (g : graph) (v : L) : graph :=
    if is_nodeb g v then g else mkG (g_nodes g ++ [(v, [])]) (g_edges g).

  (** merge [a] into the attributes of node [v], creating it if needed *)
  Definition spec_add_node (g : graph) (v : L) (a : attrs) : graph :=
    let g' := ensure_node g v in
    mkG (map (fun na => if eqd (fst na) v then (fst na, dupdate (snd na) a) else na) (g_nodes g')) (g_edges g').

  Definition spec_add_edge (g : graph) (i j : L) (a : attrs) : graph :=
    let g' := ensure_node (ensure_node g i) j in
    mkG (g_nodes g') (g_edges g' ++ [(i, j, a)]).

  Definition spec_remove_edge (g : graph) (i j : L) : graph :=
    mkG (g_nodes g) (filter (fun e => negb (eqb (src e) i && eqb (tgt e) j)) (g_edges g)).

  Definition spec_remove_node (g : graph) (v : L) : graph :=
    mkG (filter (fun na => negb (eqb (fst na) v)) (g_nodes g))
        (filter (fun e => negb (eqb (src e) v || eqb (tgt e) v)) (g_edges g)).

  (** merge [a] into every edge from [i] to [j] *)
  Definition spec_update_all (g : graph) (i j : L) (a : attrs) : graph :=
    mkG (g_nodes g)
        (map (fun e => if eqb (src e) i && eqb (tgt e) j then (i, j, dupdate (dat e) a) else e) (g_edges g)).

  (** merge [a] into the [k]-th edge from [i] to [j] *)
  Fixpoint update_kth (es : list (L * L * attrs)) (i j : L) (k : nat) (a : attrs) : list (L * L * attrs) :=
    match es with
    | [] => []
    | e :: es' =>
        if eqb (src e) i && eqb (tgt e) j then
          match k with
          | 0 => (i, j, dupdate (dat e) a) :: es'
          | S k' => e :: update_kth es' i j k' a
          end
        else e :: update_kth es' i j k a
    end.
  Definition spec_update_kth (g : graph) (i j : L) (k : nat) (a : attrs) : graph :=
    mkG (g_nodes g) (update_kth (g_edges g) i j k a).

  (** merge at a list of Python indices, stopping with [false] at the first index out of range *)
  Fixpoint spec_update_at (g : graph) (i j : L) (ks : list Z) (a : attrs) : graph * bool :=
    match ks with
    | [] => (g, true)
    | k :: ks' =>
        let m := Z.of_nat (length (between g i j)) in
        if (- m <=? k)%Z && (k <? m)%Z then
          spec_update_at (spec_update_kth g i j (Z.to_nat (k mod m)) a) i j ks' a
        else (g, false)
    end.

  (** no duplicate nodes, no dangling edges *)
  Definition graph_ok (g : graph) : Prop :=
    NoDup (map fst (g_nodes g)) /\
    (forall e, In e (g_edges g) -> is_node g (src e) /\ is_node g (tgt e)).

  Definition edges_into (g : graph) (v : L) := filter (fun e => eqb (tgt e) v) (g_edges g).
  Definition edges_from (g : graph) (v : L) := filter (fun e => eqb (src e) v) (g_edges g).

  (** the distinct sources of edges into [v], in order of the oldest surviving edge *)
  Fixpoint dedup (l : list L) : list L :=
    match l with
    | [] => []
    | x :: xs => x :: filter (fun y => negb (eqb x y)) (dedup xs)
    end.
  Definition in_neighbours (g : graph) (v : L) : list L := dedup (map src (edges_into g v)).

  Definition empty_graph : graph := mkG [] [].
End Spec.

(** ** The abstract machine: one step per public mutating call *)
From Verif Require Import Network.

Section Machine.
  Context {L V : Type} `{EqD L}.

  (** abstract state: the graph and the rotation system last assigned *)
  Definition astate : Type := graph L V * option (dict L (list L)).

  (** does a keyword argument collide with one of these names? *)
  Definition names (ps : list string) (a : dict string V) : bool := existsb (fun p => dmem a p) ps.

  Definition rotation_valid (g : graph L V) (rs : dict L (list L)) : bool :=
    forallb (fun e => forallb (is_nodeb g) (fst e :: snd e)) rs.

  Definition spec_step (s : astate) (o : op (L:=L) (V:=V)) : astate * res unit :=
    let (g, rot) := s in
    match o with
    | OpAddNode v a =>
        if names ["self"; "node_label"]%string a then (s, Err TypeError)
        else if names ["in"; "out"; "incoming"; "outgoing"]%string a then (s, Err Unmodelled)
        else ((spec_add_node g v a, rot), Ok tt)
    | OpAddEdge i j a =>
        if names ["self"; "i"; "j"]%string a then (s, Err TypeError)
        else ((spec_add_edge g i j a, rot), Ok tt)
    | OpAddEdgeBidir i j a =>
        if names ["self"; "i"; "j"]%string a then (s, Err TypeError)
        else ((spec_add_edge (spec_add_edge g i j a) j i a, rot), Ok tt)
    | OpUpdateEdge i j ks a =>
        if names ["self"; "i"; "j"; "indices"]%string a then (s, Err TypeError)
        else match between g i j with
             | [] => (s, Err (Raise "edge does not exist"))
             | _ => match ks with
                    | None => ((spec_update_all g i j a, rot), Ok tt)
                    | Some ks => let (g', ok) := spec_update_at g i j ks a in
                                 ((g', rot), if ok then Ok tt else Err IndexError)
                    end
             end
    | OpRemoveEdge i j =>
        match between g i j with
        | [] => (s, Err KeyError)
        | _ => ((spec_remove_edge g i j, rot), Ok tt)
        end
    | OpRemoveNode v =>
        if is_nodeb g v then ((spec_remove_node g v, rot), Ok tt) else (s, Err KeyError)
    | OpSetRotation rs =>
        if rotation_valid g rs then ((g, Some rs), Ok tt) else (s, Err AssertionError)
    | OpCopy => ((g, None), Ok tt)
    end.

  Fixpoint spec_steps (s : astate) (os : list (op (L:=L) (V:=V))) : astate * list (res unit) :=
    match os with
    | [] => (s, [])
    | o :: os' => let (s1, r) := spec_step s o in
                  let (s2, rs) := spec_steps s1 os' in (s2, r :: rs)
    end.
End Machine.

(** The networks a program can build: everything any session of public calls leads to from [Network()]. *)
Definition reachable {L V} `{EqD L} (n : network L V) : Prop := exists os, fst (run_ops os empty_network) = n.

(** Python's [==] on networks (state.py:284-285): nested dict equality, order of dict keys ignored, order of lists not. *)
Definition attrs_eq {V} (a b : dict string V) : Prop := deq a b.
Definition inc_eq {L V} `{EqD L} (a b : dict L (list (dict string V))) : Prop :=
  forall i, match dget a i, dget b i with
            | Some x, Some y => Forall2 attrs_eq x y
            | None, None => True
            | _, _ => False
            end.
Definition node_eq {L V} `{EqD L} (a b : node L V) : Prop :=
  n_in a = n_in b /\ n_out a = n_out b /\ inc_eq (n_inc a) (n_inc b) /\ n_outg a = n_outg b /\ attrs_eq (n_attr a) (n_attr b).
Definition net_eq {L V} `{EqD L} (a b : network L V) : Prop :=
  forall v, match dget (net_nodes a) v, dget (net_nodes b) v with
            | Some x, Some y => node_eq x y
            | None, None => True
            | _, _ => False
            end.

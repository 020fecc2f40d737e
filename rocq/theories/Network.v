(** * Network: model of class [Network], /repo/netomaton/state.py:6-285.

    Labels are an arbitrary type [L] with decidable equality, attribute values an arbitrary type [V].
    A mutating method is a function [network -> network * res unit]: the first component is the state of the
    object after the call, also when the call raises.

    Simplifications:
    - attribute values are immutable and edges never share an attribute dict (each call packs its own [**attr]);
    - the live dicts handed out by [in_edges], [edge], [to_dict] and [__getitem__] are values here (callers that write
      through them are not modelled);
    - [add_node] with an attribute named "in", "out", "incoming" or "outgoing" overwrites the bookkeeping of the node
      in Python; it is [Unmodelled] here. *)
From Verif Require Import Py.
Open Scope Z_scope.

(** Attribute dict of an edge or node: the [**attr] keyword arguments. *)
Notation attrs_of V := (dict string V) (only parsing).

(** state.py:250-251 [_new_node]: the dict {"in", "out", "incoming", "outgoing"}; [n_attr] holds the extra keys that
    [add_node] merges into the same dict (state.py:67). *)
Record node (L V : Type) := mkNode {
  n_in : Z;
  n_out : Z;
  n_inc : dict L (list (attrs_of V));
  n_outg : list L;
  n_attr : attrs_of V }.
Arguments mkNode {L V}.
Arguments n_in {L V}. Arguments n_out {L V}. Arguments n_inc {L V}. Arguments n_outg {L V}. Arguments n_attr {L V}.

(** state.py:7 [__slots__ = ("_network", "_rotation_system")] *)
Record network (L V : Type) := mkNet {
  net_nodes : dict L (node L V);
  net_rot : option (dict L (list L)) }.
Arguments mkNet {L V}. Arguments net_nodes {L V}. Arguments net_rot {L V}.

Section Network.
  Context {L V : Type} `{EqD L}.

  Notation node := (node L V).
  Notation network := (network L V).
  Notation attrs := (dict string V).

  (** A method call: state after the call, and its result or exception. *)
  Definition mut (A : Type) : Type := network -> network * res A.

  Definition mret {A} (a : A) : mut A := fun n => (n, Ok a).
  Definition mraise {A} (e : exn) : mut A := fun n => (n, Err e).
  Definition mbind {A B} (m : mut A) (f : A -> mut B) : mut B :=
    fun n => match m n with (n', Ok a) => f a n' | (n', Err e) => (n', Err e) end.
  Definition mthen (m k : mut unit) : mut unit := mbind m (fun _ => k).
  Fixpoint mfor {A} (l : list A) (f : A -> mut unit) : mut unit :=
    match l with [] => mret tt | x :: xs => mthen (f x) (mfor xs f) end.

  Definition set_nodes (n : network) (ns : dict L node) : network := mkNet ns (net_rot n).

  (** [self._network[v]] with KeyError, and an in-place change of that node dict. *)
  Definition lookup (v : L) : mut node :=
    fun n => (n, of_opt KeyError (dget (net_nodes n) v)).
  Definition on_node (v : L) (f : node -> node) : mut unit :=
    fun n => match dget (net_nodes n) v with
             | Some nd => (set_nodes n (dset (net_nodes n) v (f nd)), Ok tt)
             | None => (n, Err KeyError)
             end.

  Definition with_in (nd : node) x := mkNode x (n_out nd) (n_inc nd) (n_outg nd) (n_attr nd).
  Definition with_out (nd : node) x := mkNode (n_in nd) x (n_inc nd) (n_outg nd) (n_attr nd).
  Definition with_inc (nd : node) x := mkNode (n_in nd) (n_out nd) x (n_outg nd) (n_attr nd).
  Definition with_outg (nd : node) x := mkNode (n_in nd) (n_out nd) (n_inc nd) x (n_attr nd).
  Definition with_attr (nd : node) x := mkNode (n_in nd) (n_out nd) (n_inc nd) (n_outg nd) x.

  (** state.py:250-251 *)
  Definition new_node : node := mkNode 0 0 [] [] [].

  (** state.py:246-248 *)
  Definition init_node (v : L) : mut unit :=
    fun n => if dmem (net_nodes n) v then (n, Ok tt)
             else (set_nodes n (dset (net_nodes n) v new_node), Ok tt).

  (** state.py:253-263 *)
  Definition increment_out_degree (v : L) (k : Z) : mut unit := on_node v (fun nd => with_out nd (n_out nd + k)).
  Definition decrement_out_degree (v : L) (k : Z) : mut unit := on_node v (fun nd => with_out nd (n_out nd - k)).
  Definition increment_in_degree (v : L) (k : Z) : mut unit := on_node v (fun nd => with_in nd (n_in nd + k)).
  Definition decrement_in_degree (v : L) (k : Z) : mut unit := on_node v (fun nd => with_in nd (n_in nd - k)).

  (** state.py:265-266 *)
  Definition add_outgoing (i j : L) : mut unit := on_node i (fun nd => with_outg nd (n_outg nd ++ [j])).

  (** state.py:268-269 *)
  Definition remove_outgoing (i j : L) : mut unit :=
    on_node i (fun nd => with_outg nd (filter (fun x => negb (eqb x j)) (n_outg nd))).

  (** state.py:271-273 *)
  Definition remove_incoming (i j : L) : mut unit :=
    on_node j (fun nd => if dmem (n_inc nd) i then with_inc nd (ddel (n_inc nd) i) else nd).

  (** Python refuses a keyword argument that collides with a named parameter ("got multiple values for argument"). *)
  Definition kwargs_clash (params : list string) (attr : attrs) : bool :=
    existsb (fun p => dmem attr p) params.

  (** [d.setdefault(i, []).append(a)] as written in state.py:33-35 *)
  Definition append_incoming (inc : dict L (list attrs)) (i : L) (a : attrs) : dict L (list attrs) :=
    match dget inc i with
    | Some l => dset inc i (l ++ [a])
    | None => dset inc i [a]
    end.

  (** state.py:18-38 *)
  Definition add_edge (i j : L) (attr : attrs) : mut unit :=
    if kwargs_clash ["self"; "i"; "j"]%string attr then mraise TypeError else
    mthen (init_node i)
   (mthen (init_node j)
   (mthen (on_node j (fun nd => with_inc nd (append_incoming (n_inc nd) i attr)))
   (mthen (increment_in_degree j 1)
   (mthen (increment_out_degree i 1)
          (add_outgoing i j))))).

  (** state.py:40-54 *)
  Definition add_edge_bidir (i j : L) (attr : attrs) : mut unit :=
    if kwargs_clash ["self"; "i"; "j"]%string attr then mraise TypeError else
    mthen (add_edge i j attr) (add_edge j i attr).

  (** state.py:56-67 *)
  Definition add_node (v : L) (attr : attrs) : mut unit :=
    if kwargs_clash ["self"; "node_label"]%string attr then mraise TypeError else
    if kwargs_clash ["in"; "out"; "incoming"; "outgoing"]%string attr then mraise Unmodelled else
    mthen (init_node v) (on_node v (fun nd => with_attr nd (dupdate (n_attr nd) attr))).

  (** state.py:76-78, one index [k] of the list of parallel edges *)
  Definition update_edge_at (i j : L) (attr : attrs) (k : Z) : mut unit :=
    mbind (lookup j) (fun nd =>
      match dget (n_inc nd) i with
      | None => mraise KeyError
      | Some es =>
          match py_set_nth es k (fun e => dupdate e attr) with
          | None => mraise IndexError
          | Some es' => on_node j (fun nd => with_inc nd (dset (n_inc nd) i es'))
          end
      end).

  (** state.py:147-148 *)
  Definition has_edge (n : network) (i j : L) : bool :=
    match dget (net_nodes n) j with
    | Some nd => dmem (n_inc nd) i
    | None => false
    end.

  (** state.py:69-78 *)
  Definition update_edge (i j : L) (indices : option (list Z)) (attr : attrs) : mut unit :=
    if kwargs_clash ["self"; "i"; "j"; "indices"]%string attr then mraise TypeError else
    fun n =>
      if negb (has_edge n i j) then (n, Err (Raise "edge does not exist")) else
      match indices with
      | None =>
          on_node j (fun nd =>
            match dget (n_inc nd) i with
            | Some es => with_inc nd (dset (n_inc nd) i (map (fun e => dupdate e attr) es))
            | None => nd
            end) n
      | Some ks => mfor ks (update_edge_at i j attr) n
      end.

  (** state.py:80-87. The two loops iterate the node's own "incoming" dict and "outgoing" list; the first loop may
      rebind "outgoing" (self-loop), so it is read again before the second loop. *)
  Definition remove_node (v : L) : mut unit :=
    mbind (lookup v) (fun nd =>
    mthen (mfor (n_inc nd) (fun ies =>
             mthen (decrement_out_degree (fst ies) (Z.of_nat (length (snd ies))))
                   (remove_outgoing (fst ies) v)))
   (mbind (lookup v) (fun nd' =>
    mthen (mfor (n_outg nd') (fun j =>
             mthen (decrement_in_degree j 1) (remove_incoming v j)))
          (fun n => (set_nodes n (ddel (net_nodes n) v), Ok tt))))).

  (** state.py:89-101. [n] is read first: KeyError before any change. *)
  Definition remove_edge (i j : L) : mut unit :=
    mbind (lookup j) (fun nd =>
    match dget (n_inc nd) i with
    | None => mraise KeyError
    | Some es =>
        let k := Z.of_nat (length es) in
        mthen (remove_outgoing i j)
       (mthen (decrement_out_degree i k)
       (mthen (decrement_in_degree j k)
              (remove_incoming i j)))
    end).

  (** state.py:136-138 *)
  Definition nodes (n : network) : list L := dkeys (net_nodes n).

  (** state.py:281-282 *)
  Definition net_len (n : network) : nat := length (net_nodes n).

  (** state.py:107-125 *)
  Definition set_rotation_system (rs : dict L (list L)) : mut unit := fun n =>
    if forallb (fun e => dmem (net_nodes n) (fst e) &&
                         forallb (fun x => dmem (net_nodes n) x) (snd e)) rs
    then (mkNet (net_nodes n) (Some rs), Ok tt)
    else (n, Err AssertionError).

  (** state.py:127-131 *)
  Definition in_edges (n : network) (v : L) : res (dict L (list attrs)) :=
    nd <- of_opt KeyError (dget (net_nodes n) v) ;; Ok (n_inc nd).
  Definition edge (n : network) (i j : L) : res (list attrs) :=
    inc <- in_edges n j ;; of_opt KeyError (dget inc i).

  (** state.py:140-145 *)
  Definition edges (n : network) : list (L * L * attrs) :=
    flat_map (fun jv => flat_map (fun ies => map (fun k => (fst ies, fst jv, k)) (snd ies))
                                 (n_inc (snd jv))) (net_nodes n).

  (** state.py:150-157 *)
  Definition degree (n : network) (v : L) : res Z :=
    nd <- of_opt KeyError (dget (net_nodes n) v) ;; Ok (n_out nd + n_in nd).
  Definition in_degree (n : network) (v : L) : res Z :=
    nd <- of_opt KeyError (dget (net_nodes n) v) ;; Ok (n_in nd).
  Definition out_degree (n : network) (v : L) : res Z :=
    nd <- of_opt KeyError (dget (net_nodes n) v) ;; Ok (n_out nd).

  (** [Network()], state.py:9-16 with n = 0 *)
  Definition empty_network : network := mkNet [] None.

  (** state.py:159-160 [copy] = decompress . compress. Idealised here: the node dict is reproduced exactly and a new object
      with [_rotation_system = None] is built (state.py:179-181); Msgpack.v proves that the real byte-level
      round trip has this effect for msgpack-plain labels and attributes. *)
  Definition copy (n : network) : network := mkNet (net_nodes n) None.

  (** The public mutating calls, for statements about arbitrary call sequences. *)
  Inductive op :=
  | OpAddNode (v : L) (a : attrs)
  | OpAddEdge (i j : L) (a : attrs)
  | OpAddEdgeBidir (i j : L) (a : attrs)
  | OpUpdateEdge (i j : L) (ks : option (list Z)) (a : attrs)
  | OpRemoveEdge (i j : L)
  | OpRemoveNode (v : L)
  | OpSetRotation (rs : dict L (list L))
  | OpCopy.

  Definition run_op (o : op) : mut unit :=
    match o with
    | OpAddNode v a => add_node v a
    | OpAddEdge i j a => add_edge i j a
    | OpAddEdgeBidir i j a => add_edge_bidir i j a
    | OpUpdateEdge i j ks a => update_edge i j ks a
    | OpRemoveEdge i j => remove_edge i j
    | OpRemoveNode v => remove_node v            (* also [del network[v]], state.py:278-279 *)
    | OpSetRotation rs => set_rotation_system rs
    | OpCopy => fun n => (copy n, Ok tt)         (* continue with the copy *)
    end.

  (** A session: each call is made whatever the outcome of the previous one (the caller catches exceptions). *)
  Fixpoint run_ops (os : list op) (n : network) : network * list (res unit) :=
    match os with
    | [] => (n, [])
    | o :: os' => let (n1, r) := run_op o n in
                  let (n2, rs) := run_ops os' n1 in (n2, r :: rs)
    end.

  (** *** Adjacency matrix, state.py:216-244 *)

  Section AdjMatrix.
    (** Numbers found under the weight attribute, with Python's [0], [1] and [+] (ints or floats). *)
    Context {N : Type} (zero one : N) (add : N -> N -> N) (num : V -> N).

    (** state.py:237 *)
    Definition edge_weight (weight : option string) (a : attrs) : N :=
      match weight with
      | Some w => match dget a w with Some x => num x | None => one end
      | None => one
      end.

    (** [M[i][j] += w] / [M[i][j] = w] with IndexError *)
    Definition mat_upd (M : list (list N)) (i j : nat) (f : N -> N) : res (list (list N)) :=
      match nth_error M i with
      | None => Err IndexError
      | Some row => if Nat.ltb j (length row) then Ok (upd_nth M i (fun row => upd_nth row j f)) else Err IndexError
      end.

    Definition to_adjacency_matrix (n : network) (nodelist : option (list L)) (sum_multiedges : bool)
               (weight : option string) : res (list (list N)) :=
      let num_nodes := length (net_nodes n) in
      let M := repeat (repeat zero num_nodes) num_nodes in
      let nl := match nodelist with
                | Some (x :: xs) => x :: xs
                | _ => nodes n                          (* [if not nodelist]: None or empty *)
                end in
      rfold (fun M e =>
               let '(n1, n2, a) := e in
               i <- of_opt ValueError (py_find nl n1) ;;
               j <- of_opt ValueError (py_find nl n2) ;;
               mat_upd M i j (fun x => if sum_multiedges then add x (edge_weight weight a)
                                       else edge_weight weight a))
            (edges n) M.
  End AdjMatrix.

  (** *** networkx conversion, state.py:183-214 *)

  (** [nx.MultiDiGraph] (networkx 2.5): node attribute dicts in insertion order and, per source node, successors in
      insertion order with their parallel edges in key order 0,1,2,... (no edge is ever removed here). *)
  Record mdigraph := mkMdg { g_node : dict L attrs; g_succ : dict L (dict L (list attrs)) }.

  (** networkx 2.5 [MultiDiGraph.add_node(node_for_adding, **attr)] *)
  Definition nx_add_node (g : mdigraph) (v : L) (a : attrs) : res mdigraph :=
    if kwargs_clash ["self"; "node_for_adding"]%string a then Err TypeError else
    match dget (g_node g) v with
    | None => Ok (mkMdg (dset (g_node g) v (dupdate [] a)) (dset (g_succ g) v []))
    | Some a0 => Ok (mkMdg (dset (g_node g) v (dupdate a0 a)) (g_succ g))
    end.

  (** networkx 2.5 [MultiDiGraph.add_edge(u_for_edge, v_for_edge, key=None, **attr)]; an attribute called "key" would be
      taken for the edge key: [Unmodelled]. *)
  Definition nx_add_edge (g : mdigraph) (u v : L) (a : attrs) : res mdigraph :=
    if kwargs_clash ["self"; "u_for_edge"; "v_for_edge"]%string a then Err TypeError else
    if kwargs_clash ["key"]%string a then Err Unmodelled else
    let ensure g v := match dget (g_node g) v with
                      | Some _ => g
                      | None => mkMdg (dset (g_node g) v []) (dset (g_succ g) v [])
                      end in
    let g2 := ensure (ensure g u) v in
    let succ_u := match dget (g_succ g2) u with Some d => d | None => [] end in
    Ok (mkMdg (g_node g2) (dset (g_succ g2) u (append_incoming succ_u v (dupdate [] a)))).

  (** state.py:199-214 *)
  Definition to_networkx (n : network) : res mdigraph :=
    g <- rfold (fun g vn => nx_add_node g (fst vn) (n_attr (snd vn))) (net_nodes n) (mkMdg [] []) ;;
    rfold (fun g e => nx_add_edge g (fst (fst e)) (snd (fst e)) (snd e)) (edges n) g.

  (** networkx 2.5 [G.edges(data=True)]: sources in node order, then successors, then parallel edges. *)
  Definition nx_edges (g : mdigraph) : list (L * L * attrs) :=
    flat_map (fun us => flat_map (fun vs => map (fun a => (fst us, fst vs, a)) (snd vs)) (snd us)) (g_succ g).

  (** state.py:183-197 *)
  Definition from_networkx (g : mdigraph) : network * res unit :=
    mthen (mfor (g_node g) (fun va => add_node (fst va) (snd va)))
          (mfor (nx_edges g) (fun e => add_edge (fst (fst e)) (snd (fst e)) (snd e))) empty_network.

End Network.

(** state.py:9-15 [Network(n)]: nodes 0..n-1, no edges. *)
Definition init_network {V} (n : Z) : network Z V :=
  mkNet (map (fun i => (i, new_node)) (zrange 0 n)) None.

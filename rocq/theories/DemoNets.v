(** * DemoNets: the topology rules of the demos in which the network itself evolves

    demos/evolving_networks, demos/functional_network_automata, demos/restricted_network_automata,
    demos/randomly_growing_network and demos/random_attachment_model.

    Simplifications: a topology rule is a function from the network it is given to the network it returns (with the default
    [copy_network=True] the given network is a private copy, so that mutating it in place is not visible elsewhere: C28);
    [np.random.choice] and [random.random] are arbitrary functions of the timestep (each rule draws at most once per call). *)
From Verif Require Import Py Network Evolve.
Open Scope string_scope.
Open Scope list_scope.
Open Scope Z_scope.

(** what is left of a mutable object after a block of statements, or the exception the block raises *)
Definition result_of {L V} (m : network L V * res unit) : res (network L V) :=
  match m with (n, Ok _) => Ok n | (_, Err e) => Err e end.

(** ** demos/evolving_networks/evolving_networks_demo.py *)
Section Evolving.
  Context {V : Type}.
  Notation network := (network string V).

  (** evolving_networks_demo.py:32-34: a loop over the live dict [in_edges(node)], whose size Python checks before it hands out
      the next key; [inserted.pop()] takes the last element *)
  Fixpoint attach (v : string) (size : nat) (ks inserted : list string) : mut (L:=string) (V:=V) unit := fun n =>
    match in_edges n v with
    | Err e => (n, Err e)
    | Ok inc =>
        if negb (Nat.eqb (length inc) size) then (n, Err (Raise "dictionary changed size during iteration")) else
        match ks with
        | [] => (n, Ok tt)
        | k :: ks' =>
            match rev inserted with
            | [] => (n, Err IndexError)
            | c :: r => mthen (add_edge_bidir c k []) (attach v size ks' (rev r)) n
            end
        end
    end.

  (** evolving_networks_demo.py:23-36, the body of the loop for one node *)
  Definition insert_triangle (v : string) : mut (L:=string) (V:=V) unit :=
    let a := (v ++ "a")%string in
    let b := (v ++ "b")%string in
    let c := (v ++ "c")%string in
    mthen (add_edge_bidir a b [])
   (mthen (add_edge_bidir a c [])
   (mthen (add_edge_bidir b c [])
   (fun n => match in_edges n v with
             | Err e => (n, Err e)
             | Ok inc => mthen (attach v (length inc) (dkeys inc) [a; b; c]) (remove_node v) n
             end))).

  (** evolving_networks_demo.py:19-38 *)
  Definition evolving_rule (n : network) : res network := result_of (mfor (nodes n) insert_triangle (copy n)).
End Evolving.

(** ** demos/functional_network_automata/functional_network_automata_demo.py *)
Section Functional.
  Context {L V I : Type} `{EqD L}.

  (** functional_network_automata_demo.py:11-14 *)
  Definition signal_rule (x : node_ctx L V Z I) : res Z := Ok (if 0 <? zsum (x_nacts x) then 1 else x_cur x).

  (** functional_network_automata_demo.py:19-24, one edge of the loop *)
  Definition cut_one (acts : dict L Z) (e : L * L * dict string V) : mut (L:=L) (V:=V) unit := fun n =>
    match dget acts (fst (fst e)), dget acts (snd (fst e)) with
    | Some a, Some b => if (a =? 1) && (b =? 1) then remove_edge (fst (fst e)) (snd (fst e)) n else (n, Ok tt)
    | _, _ => (n, Err KeyError)
    end.

  (** functional_network_automata_demo.py:16-26 *)
  Definition cut_rule (n : network L V) (acts : dict L Z) (t : Z) : res (network L V) :=
    result_of (mfor (edges n) (cut_one acts) (copy n)).
End Functional.

(** ** demos/restricted_network_automata/restricted_network_automata_demo.py *)
Section Restricted.
  Context {L V : Type} `{EqD L}.

  (** restricted_network_automata_demo.py:41-55, one pair (i, j) *)
  Definition link_one (under cur : network L V) (i : L) (di : Z) (j : L) : mut (L:=L) (V:=V) unit := fun n =>
    if eqd i j then (n, Ok tt) else
    match in_degree cur j with
    | Err e => (n, Err e)
    | Ok dj =>
        if (di + dj =? 2) && negb (has_edge cur j i) && has_edge under j i then add_edge j i [] n
        else if (di + dj =? 3) && has_edge cur j i then (n, Ok tt)
        else if has_edge cur j i then remove_edge j i n
        else (n, Ok tt)
    end.

  (** restricted_network_automata_demo.py:39-40, one node i *)
  Definition link_row (under cur : network L V) (i : L) : mut (L:=L) (V:=V) unit := fun n =>
    match in_degree cur i with
    | Err e => (n, Err e)
    | Ok di => mfor (nodes under) (link_one under cur i di) n
    end.

  (** restricted_network_automata_demo.py:36-56 *)
  Definition restricted_rule (under n : network L V) : res (network L V) :=
    result_of (mfor (nodes under) (link_row under n) (copy n)).
End Restricted.

(** ** demos/randomly_growing_network and demos/random_attachment_model *)
Section Random.
  Context {V : Type}.
  Notation network := (network Z V).

  (** randomly_growing_network_demo1.py:16-24; [pick] is the node drawn from [range(num_nodes)] *)
  Definition grow_rule (pick : Z) (n : network) : res network :=
    let new := Z.of_nat (net_len n) in
    result_of (mthen (add_node new []) (mthen (add_edge new pick []) (add_edge pick new [])) n).

  (** randomly_growing_network_demo2.py:28-38; [pick] is None when random.random() >= delta, else the two nodes drawn *)
  Definition callaway_rule (pick : option (Z * Z)) (n : network) : res network :=
    let new := Z.of_nat (net_len n) in
    result_of (mthen (add_node new [])
      (match pick with
       | None => mret tt
       | Some (c0, c1) => mthen (add_edge c1 c0 []) (add_edge c0 c1 [])
       end) n).

  (** random_attachment_model_demo.py:17-23; [pick] are the two different nodes drawn *)
  Definition attachment_rule (pick : Z * Z) (n : network) : res network :=
    let (c0, c1) := pick in
    if negb (has_edge n c1 c0) && negb (has_edge n c0 c1)
    then result_of (mthen (add_edge c1 c0 []) (add_edge c0 c1 []) n)
    else Ok n.
End Random.

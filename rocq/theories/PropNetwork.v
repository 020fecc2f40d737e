(** Property theorems for class Network (C01, C02, C05, C07, C08). *)
From Verif Require Import Py PyFacts Network NetworkSpec NetworkProofs NetworkProofs2 NetworkProofs3.
Open Scope Z_scope.
Open Scope string_scope.

(** A concrete session used to show that hypotheses are satisfiable: parallel edges, a self-loop, removals. *)
Definition demo_ops : list (op (L:=string) (V:=Z)) :=
  [ OpAddEdge "a" "b" [("weight", 2)]; OpAddEdge "a" "b" [("weight", 5)]; OpAddEdge "b" "a" [];
    OpAddEdge "b" "b" []; OpAddEdge "a" "c" []; OpAddNode "d" [("colour", 7)];
    OpRemoveEdge "a" "c"; OpAddEdge "a" "b" [("weight", 11)]; OpUpdateEdge "a" "b" (Some [-1]) [("weight", 12)];
    OpRemoveNode "zzz" ].
Definition demo : network string Z := fst (run_ops demo_ops empty_network).
Definition demo_val : network string Z := Eval vm_compute in demo.
Lemma demo_eq : demo = demo_val.
Proof. vm_compute. reflexivity. Qed.

(** C01 *)
Theorem C01_degree_bookkeeping : forall (L V : Type) (EQ : EqD L) (n : network L V) (v : L), reachable n ->
    if in_dec eqd v (nodes n) then
      in_degree n v = Ok (Z.of_nat (length (filter (fun e => eqb (snd (fst e)) v) (edges n)))) /\
      out_degree n v = Ok (Z.of_nat (length (filter (fun e => eqb (fst (fst e)) v) (edges n)))) /\
      (exists di do, in_degree n v = Ok di /\ out_degree n v = Ok do /\ degree n v = Ok (do + di))
    else in_degree n v = Err KeyError /\ out_degree n v = Err KeyError /\ degree n v = Err KeyError.
Proof. exact @degrees_exact. Qed.
Print Assumptions C01_degree_bookkeeping.

(** [Network(k)] is one of the reachable networks. *)
Theorem C01_constructor_reachable : forall (V : Type) (k : Z), reachable (init_network k : network Z V).
Proof. exact @init_network_reachable. Qed.
Print Assumptions C01_constructor_reachable.

Example C01_nonvacuous : reachable demo /\ In "b" (nodes demo) /\ in_degree demo "b" = Ok 4 /\ out_degree demo "b" = Ok 2.
Proof. split; [exists demo_ops; exact eq_refl|]. vm_compute. auto 10. Qed.

(** C02: any session of calls, run on the implementation and on the abstract multigraph, has the same outcomes and
    the same answers to every query. *)
Theorem C02_multigraph_refinement : forall (L V : Type) (EQ : EqD L) (os : list (op (L:=L) (V:=V))),
    let '(n, outcomes) := run_ops os empty_network in
    let '((g, rot), outcomes') := spec_steps (empty_graph, None) os in
    outcomes = outcomes' /\
    nodes n = map fst (g_nodes g) /\
    net_len n = length (g_nodes g) /\
    (forall v, option_map n_attr (dget (net_nodes n) v) = dget (g_nodes g) v) /\
    (forall v, option_map n_outg (dget (net_nodes n) v) = if is_nodeb g v then Some (map tgt (edges_from g v)) else None) /\
    (forall v, in_edges n v = if is_nodeb g v then Ok (map (fun i => (i, between g i v)) (in_neighbours g v)) else Err KeyError) /\
    (forall i j, edge n i j = match between g i j with [] => Err KeyError | l => Ok l end) /\
    (forall i j, has_edge n i j = match between g i j with [] => false | _ => true end) /\
    Permutation (edges n) (g_edges g) /\
    net_rot n = rot.
Proof. exact @refinement. Qed.
Print Assumptions C02_multigraph_refinement.

(** a raising call (other than update_edge with a bad index) leaves the network untouched *)
Theorem C02_raise_changes_nothing : forall (L V : Type) (EQ : EqD L) (n : network L V) (o : op) (e : exn),
    reachable n -> snd (run_op o n) = Err e -> e <> IndexError -> fst (run_op o n) = n.
Proof. exact @raise_no_change. Qed.
Print Assumptions C02_raise_changes_nothing.

(** the exception is real: update_edge with a list of indices, the second of which is out of range *)
Theorem C02_update_edge_atomic_refuted :
  exists (n : network string Z) (o : op), reachable n /\ snd (run_op o n) = Err IndexError /\ fst (run_op o n) <> n.
Proof.
  exists demo, (OpUpdateEdge "a" "b" (Some [0; 7]) [("weight", 1)]). split; [exists demo_ops; exact eq_refl|].
  split; [vm_compute; reflexivity|vm_compute; discriminate].
Qed.
Print Assumptions C02_update_edge_atomic_refuted.

Example C02_nonvacuous :
  edge demo "a" "b" = Ok [[("weight", 2)]; [("weight", 5)]; [("weight", 12)]] /\ length (edges demo) = 5%nat /\
  nodes demo = ["a"; "b"; "c"; "d"].
Proof. vm_compute. auto. Qed.

(** C05: the number an edge with attributes [a] counts for *)
Definition weighs {V N : Type} (one : N) (num : V -> N) (weight : option string) (a : dict string V) (w : N) : Prop :=
  match weight with
  | None => w = one
  | Some k => (exists x, dget a k = Some x /\ w = num x) \/ (dget a k = None /\ w = one)
  end.
Theorem C05_adjacency_matrix : forall (L V : Type) (EQ : EqD L) (N : Type) (zero one : N) (add : N -> N -> N) (num : V -> N)
    (n : network L V) (nodelist : list L) (sum : bool) (weight : option string),
    reachable n -> Permutation nodelist (nodes n) ->
    exists M, to_adjacency_matrix zero one add num n (Some nodelist) sum weight = Ok M /\
      length M = net_len n /\ (forall row, In row M -> length row = net_len n) /\
      forall p q u v, nth_error nodelist p = Some u -> nth_error nodelist q = Some v ->
        exists ws, Forall2 (weighs one num weight) (match edge n u v with Ok es => es | Err _ => [] end) ws /\
          entry M p q = Some (if sum then fold_left add ws zero else last ws zero).
Proof.
  intros L V EQ N zero one add num n nodelist sum weight Hr Hp.
  destruct (@to_adjacency_spec L V EQ N zero one add num n nodelist sum weight Hr Hp) as (M & E & Hl & Hrow & He).
  exists M. split; [assumption|]. split; [assumption|]. split; [assumption|]. intros p q u v Hu Hv. eexists. split; [|exact (He p q u v Hu Hv)].
  destruct (edge n u v) as [es|]; [|constructor]. induction es as [|a es IH]; [constructor|]. cbn [map]. constructor; [|exact IH].
  unfold weighs, edge_weight. destruct weight as [k|]; [|reflexivity]. destruct (dget a k) as [x|] eqn:Ex; [left; eauto|right; auto].
Qed.
Print Assumptions C05_adjacency_matrix.

Theorem C05_default_nodelist : forall (L V : Type) (EQ : EqD L) (N : Type) (zero one : N) (add : N -> N -> N) (num : V -> N)
    (n : network L V) (sum : bool) (weight : option string),
    to_adjacency_matrix zero one add num n None sum weight = to_adjacency_matrix zero one add num n (Some (nodes n)) sum weight /\
    to_adjacency_matrix zero one add num n (Some []) sum weight = to_adjacency_matrix zero one add num n (Some (nodes n)) sum weight.
Proof. exact @to_adjacency_default. Qed.
Print Assumptions C05_default_nodelist.

Theorem C05_missing_node : forall (L V : Type) (EQ : EqD L) (N : Type) (zero one : N) (add : N -> N -> N) (num : V -> N)
    (n : network L V) (nodelist : list L) (sum : bool) (weight : option string),
    reachable n -> NoDup nodelist -> nodelist <> [] -> incl nodelist (nodes n) ->
    (exists e, In e (edges n) /\ (~ In (fst (fst e)) nodelist \/ ~ In (snd (fst e)) nodelist)) ->
    to_adjacency_matrix zero one add num n (Some nodelist) sum weight = Err ValueError.
Proof. exact @to_adjacency_err. Qed.
Print Assumptions C05_missing_node.

Example C05_nonvacuous :
  to_adjacency_matrix 0 1 Z.add (fun x => x) demo (Some ["d"; "b"; "a"; "c"]) true (Some "weight")
  = Ok [[0;0;0;0]; [0;1;1;0]; [0;19;0;0]; [0;0;0;0]] /\
  Permutation ["d"; "b"; "a"; "c"] (nodes demo) /\
  (exists e, In e (edges demo) /\ ~ In (fst (fst e)) ["b"; "c"]).
Proof.
  split; [vm_compute; reflexivity|]. split.
  - vm_compute. apply (Permutation_trans (l' := ["b"; "a"; "c"; "d"])).
    + apply (Permutation_middle ["b"; "a"; "c"] [] "d").
    + apply perm_swap.
  - exists ("a", "b", [("weight", 2)]). vm_compute. split; [auto 10|]. intros [E|[E|[]]]; discriminate.
Qed.

(** C07 *)
Theorem C07_networkx_round_trip : forall (L V : Type) (EQ : EqD L) (n : network L V), reachable n -> plain_attrs n ->
    exists G n', to_networkx n = Ok G /\ from_networkx G = (n', Ok tt) /\
      nodes n' = nodes n /\
      (forall v, option_map n_attr (dget (net_nodes n') v) = option_map n_attr (dget (net_nodes n) v)) /\
      (forall i j, edge n' i j = edge n i j) /\
      (forall v, in_degree n' v = in_degree n v /\ out_degree n' v = out_degree n v /\ degree n' v = degree n v).
Proof. exact @networkx_roundtrip_api. Qed.
Print Assumptions C07_networkx_round_trip.

(** ... but the result need not be [==] to the original: the "outgoing" bookkeeping lists may be permuted. *)
Theorem C07_networkx_equality_refuted :
  exists (n : network string Z) G n', reachable n /\ plain_attrs n /\ to_networkx n = Ok G /\ from_networkx G = (n', Ok tt) /\
    ~ net_eq n' n.
Proof.
  set (os := [OpAddEdge "a" "b" []; OpAddEdge "a" "c" []; OpAddEdge "a" "b" []] : list (op (L:=string) (V:=Z))).
  let x := eval vm_compute in (fst (run_ops os empty_network)) in exists x.
  do 2 eexists. split; [exists os; vm_compute; reflexivity|]. split.
  { split.
    - intros v nd E. apply dget_some_in in E. cbn in E.
      destruct E as [E|[E|[E|[]]]]; inversion E; subst; (split; [constructor|reflexivity]).
    - intros e He. cbn in He. destruct He as [<-|[<-|[<-|[]]]]; (split; [constructor|reflexivity]). }
  split; [vm_compute; reflexivity|]. split; [vm_compute; reflexivity|].
  intros Heq. specialize (Heq "a"). vm_compute in Heq. destruct Heq as (_ & _ & _ & Ho & _). discriminate.
Qed.
Print Assumptions C07_networkx_equality_refuted.

Example C07_nonvacuous : reachable demo /\ plain_attrs demo.
Proof.
  split; [exists demo_ops; exact eq_refl|]. rewrite demo_eq. split.
  - intros v nd E. apply dget_some_in in E. cbn in E.
    destruct E as [E|[E|[E|[E|[]]]]]; inversion E; subst; cbn; (split; [|reflexivity]);
      repeat constructor; cbn; tauto.
  - intros e He. cbn in He. destruct He as [<-|[<-|[<-|[<-|[<-|[]]]]]]; (split; [|reflexivity]); repeat constructor; cbn; tauto.
Qed.

(** C08 *)
Theorem C08_rotation_setter : forall (L V : Type) (EQ : EqD L) (n : network L V) (rs : dict L (list L)), reachable n ->
    let ok := (forall k l, In (k, l) rs -> In k (nodes n) /\ forall x, In x l -> In x (nodes n)) in
    (ok -> set_rotation_system rs n = (mkNet (net_nodes n) (Some rs), Ok tt)) /\
    (~ ok -> set_rotation_system rs n = (n, Err AssertionError)).
Proof. exact @rotation_setter. Qed.
Print Assumptions C08_rotation_setter.

(** The assigned rotation system is not kept valid by later mutations. *)
Theorem C08_rotation_stays_valid_refuted :
  exists (n : network string Z) rs, reachable n /\ net_rot n = Some rs /\
    ~ (forall k l, In (k, l) rs -> In k (nodes n) /\ forall x, In x l -> In x (nodes n)).
Proof.
  exists (fst (run_ops [OpAddEdge "a" "b" []; OpSetRotation [("b", ["a"; "b"])]; OpRemoveNode "a"] empty_network)), [("b", ["a"; "b"])].
  split; [eexists; exact eq_refl|]. split; [vm_compute; reflexivity|].
  intros Hf. destruct (Hf "b" ["a"; "b"] (or_introl eq_refl)) as [_ Hx]. specialize (Hx "a" (or_introl eq_refl)).
  vm_compute in Hx. destruct Hx as [E|[]]; discriminate.
Qed.
Print Assumptions C08_rotation_stays_valid_refuted.

Example C08_nonvacuous :
  snd (set_rotation_system [("b", ["a"; "b"])] demo) = Ok tt /\
  snd (set_rotation_system [("b", ["a"; "q"])] demo) = Err AssertionError.
Proof. vm_compute. auto. Qed.

(** * Heap: evolve with networks as mutable objects, netomaton/evolution.py:163-236, 357-382.

    Evolve.v treats networks as values. Here every network object has an address in a heap and a State holds the address, so
    that a topology rule can mutate the network it is given in place (evolution.py:372-375) and the effect is visible
    wherever the same object is referenced. Everything else is taken from Evolve.v.

    Simplifications: only uncompressed runs (a compressed State packs the network when it is stored); a topology rule reaches
    no network object other than the one it is given. *)
From Verif Require Import Py Network Evolve.
Open Scope string_scope.
Open Scope list_scope.
Open Scope Z_scope.

Section Heap.
  Context {L V A U I BA BN : Type} `{EqD L} `{EqD A}.
  Context (W : env L V A BA BN).

  Notation network := (network L V).
  Notation acts := (dict L A).
  Notation attrs := (dict string V).
  Notation args := (@args L V A U I).
  Notation heap := (list network).
  Notation ref := nat.

  Definition hget (h : heap) (r : ref) : network := nth r h (mkNet [] None).

  (** what a topology rule returns: the object it was given, a new network, or something that is not a network *)
  Inductive returned := Same | Fresh (n : network) | NotNetwork.
  (** an in-place topology rule: new user state, the given network after the call, and what is returned *)
  Definition irule := U -> topo_ctx L V A -> res (U * network * returned).

  Context (g : args) (f : option irule) (mk : @memokey L V A I).

  (** evolution.py:357-382 *)
  Definition htopology (t : Z) (u : U) (a : acts) (h : heap) (prev : ref)
      (added : list (A * dict L attrs * L)) (removed : list L) : res (U * heap * ref) :=
    ' (h1, r1) <- match added, removed with
                  | [], [] => Ok (h, prev)
                  | _, _ => match adjust_nodes W added removed (copy (hget h prev)) with
                            | (n, Ok _) => Ok (h ++ [n], length h)
                            | (_, Err e) => Err e
                            end
                  end ;;
    match f with
    | None => Ok (u, h1, r1)
    | Some f =>
        let (h2, r2) := if g_copy g then (h1 ++ [copy (hget h1 r1)], length h1) else (h1, r1) in
        ' (u', n', ret) <- f u (mkTopo (hget h2 r2) a t) ;;
        let h3 := upd_nth h2 r2 (fun _ => n') in
        match ret with
        | Same => match net_nodes n' with
                  | [] => Err (Raise "topology rule must return a network")
                  | _ => Ok (u', h3, r2)
                  end
        | Fresh m => match net_nodes m with
                     | [] => Err (Raise "topology rule must return a network")
                     | _ => Ok (u', h3 ++ [m], length h3)
                     end
        | NotNetwork => Err (Raise "topology rule must return a network")
        end
    end.

  (** state.py:319-322: the State keeps the reference; persist_network as in evolution.py:379-380 *)
  Definition hset_network (h : heap) (r : ref) : option ref :=
    match net_nodes (hget h r) with [] => None | _ => Some r end.
  Definition hrecord (h : heap) (r : ref) : option ref := if g_pnet g then hset_network h r else None.

  Definition hstate : Type := option (stored acts BA) * option ref.

  (** a state as it reads with heap [h] *)
  Definition read (h : heap) (s : hstate) : state L V A BA BN :=
    mkState (fst s) (option_map (fun r => Raw (hget h r)) (snd s)).

  Record hcfg := mkH {
    k_u : U;
    k_act : acts;
    k_net : ref;
    k_tab : list (mk_K mk * A);
    k_map : option (dict L (list L));
    k_traj : list hstate;
    k_heap : heap }.

  (** evolution.py:197-232 *)
  Definition hstep (t : Z) (inp : inval I) (c : hcfg) : res hcfg :=
    past <- get_past W g (map (read (k_heap c)) (k_traj c)) t ;;
    match g_order g with
    | ACTIVITIES_FIRST =>
        s <- evolve_activities W g mk t inp (k_u c) (k_act c) (k_tab c) (hget (k_heap c) (k_net c)) past (k_map c) ;;
        sa <- record_activities W g (s_curr s) ;;
        ' (u2, h2, r2) <- htopology t (s_u s) (s_curr s) (k_heap c) (k_net c) (s_added s) (s_removed s) ;;
        let nmap := match s_added s, s_removed s with
                    | [], [] => k_map c
                    | _, _ => Some (get_neighbourhood_map (hget h2 r2))
                    end in
        Ok (mkH u2 (s_curr s) r2 (s_tab s) nmap (k_traj c ++ [(sa, hrecord h2 r2)]) h2)
    | TOPOLOGY_FIRST =>
        ' (u1, h2, r2) <- htopology t (k_u c) (k_act c) (k_heap c) (k_net c) [] [] ;;
        s <- evolve_activities W g mk t inp u1 (k_act c) (k_tab c) (hget h2 r2) past (k_map c) ;;
        sa <- record_activities W g (s_curr s) ;;
        Ok (mkH (s_u s) (s_curr s) r2 (s_tab s) (k_map c) (k_traj c ++ [(sa, hrecord h2 r2)]) h2)
    | SYNCHRONOUS =>
        ' (u1, h2, r2) <- htopology t (k_u c) (k_act c) (k_heap c) (k_net c) [] [] ;;
        s <- evolve_activities W g mk t inp u1 (k_act c) (k_tab c) (hget h2 (k_net c)) past (k_map c) ;;
        sa <- record_activities W g (s_curr s) ;;
        Ok (mkH (s_u s) (s_curr s) r2 (s_tab s) (k_map c) (k_traj c ++ [(sa, hrecord h2 r2)]) h2)
    end.

  Definition hwith_u (c : hcfg) (u : U) : hcfg := mkH u (k_act c) (k_net c) (k_tab c) (k_map c) (k_traj c) (k_heap c).

  Fixpoint hloop (infn : @input_fn L V A U I) (fuel : nat) (t : Z) (c : hcfg) : res hcfg :=
    match fuel with
    | O => Err OutOfFuel
    | S fu =>
        ' (u, inp) <- infn (k_u c) t (k_act c) (hget (k_heap c) (k_net c)) ;;
        match inp with
        | None => Ok (hwith_u c u)
        | Some i => c' <- hstep t i (hwith_u c u) ;; hloop infn fu (t + 1) c'
        end
    end.
End Heap.
Arguments Same {L V}. Arguments Fresh {L V}. Arguments NotNetwork {L V}.
Arguments k_u {L V A U I BA mk}. Arguments k_act {L V A U I BA mk}. Arguments k_net {L V A U I BA mk}.
Arguments k_tab {L V A U I BA mk}. Arguments k_map {L V A U I BA mk}. Arguments k_traj {L V A U I BA mk}.
Arguments k_heap {L V A U I BA mk}. Arguments mkH {L V A U I BA mk}.

Section Run.
  Context {L V A U I BA BN : Type} `{EqD L} `{EqD A}.
  Context (W : env L V A BA BN).

  (** evolution.py:163-236; the caller's network has address 0. Returns the user state, the final heap and the states. *)
  Definition hevolve (fuel : nat) (u0 : U) (n : network L V) (initial : option (cond L A)) (timesteps : option Z)
      (inp : option (@input L V A U I)) (g : @args L V A U I) (f : option (@irule L V A U)) : res (U * list (network L V) * list (@hstate L A BA)) :=
    let init := match initial with None => [] | Some c => to_dict W c end in
    infn <- get_input_function timesteps inp ;;
    if negb (Nat.eqb (length init) (net_len n)) && match g_rule g with Some _ => true | None => false end
    then Err (Raise "too few intial conditions specified") else
    sa <- set_activities W false init ;;
    let mk := match g_key g with Some k => k | None => default_key n end in
    let nmap := match f with None => Some (get_neighbourhood_map n) | Some _ => None end in
    c <- hloop W g f mk infn fuel 1 (mkH u0 init 0%nat [] nmap [(sa, hset_network [n] 0)] [n]) ;;
    Ok (k_u c, k_heap c, k_traj c).

  (** the same rule as a function on network values *)
  Definition value_rule (f : @irule L V A U) : @topology_rule L V A U := fun u c =>
    ' (u', n', ret) <- f u c ;;
    Ok (u', match ret with Same => Some n' | Fresh m => Some m | NotNetwork => None end).

  Definition set_topo (g : @args L V A U I) (f : option (@topology_rule L V A U)) : @args L V A U I :=
    mkArgs (g_rule g) f (g_pert g) (g_past g) (g_order g) (g_copy g) (g_comp g) (g_pact g) (g_pnet g) (g_memo g) (g_key g).
End Run.

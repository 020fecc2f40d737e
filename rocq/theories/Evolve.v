(** * Evolve: model of netomaton/evolution.py:8-441 and of class State (netomaton/state.py:288-322).

    Labels [L], edge/node attribute values [V], activities [A] and input values [I] are arbitrary types. User callbacks are
    arbitrary functions that may raise and may keep state: they receive and return a user state of arbitrary type [U].

    Simplifications:
    - [check_np] (evolution.py:498-501) only changes the representation of numpy scalars; it is the identity here;
    - callbacks do not mutate the dicts and networks they are given (Heap.v models topology rules that do);
    - [network.copy()] is [Network.copy], which assumes msgpack-plain labels and attributes (NetCopy.v);
    - activities are hashable when memoization is used (an unhashable one raises TypeError in Python). *)
From Verif Require Import Py Network.
Open Scope string_scope.
Open Scope list_scope.
Open Scope Z_scope.

(** What [evolve] needs to know about the types: [lab i] is the integer label [i] (lists as conditions), [idx v] is the
    integer a label is when used as a list index, [inj a] is an activity as a node attribute, and the packers are
    [_Compressor.compress]/[decompress] on an activity dict and [Network.compress]/[decompress]. *)
Record env (L V A BA BN : Type) := mkEnv {
  e_lab : nat -> L;
  e_idx : L -> option Z;
  e_inj : A -> V;
  e_pack_a : dict L A -> res BA;
  e_unpack_a : BA -> res (dict L A);
  e_pack_n : network L V -> res BN;
  e_unpack_n : BN -> res (network L V) }.
Arguments mkEnv {L V A BA BN}.
Arguments e_lab {L V A BA BN}. Arguments e_idx {L V A BA BN}. Arguments e_inj {L V A BA BN}.
Arguments e_pack_a {L V A BA BN}. Arguments e_unpack_a {L V A BA BN}.
Arguments e_pack_n {L V A BA BN}. Arguments e_unpack_n {L V A BA BN}.

(** initial or past conditions: a dict, or a list / numpy array *)
Inductive cond (L A : Type) :=
| CDict (d : dict L A)
| CList (l : list A).
Arguments CDict {L A}. Arguments CList {L A}.

(** the input of one timestep: a str, another sequence, or anything else (number, numpy array, dict ...) *)
Inductive inval (I : Type) :=
| InStr (s : string)
| InSeq (l : list I)
| InVal (x : I).
Arguments InStr {I}. Arguments InSeq {I}. Arguments InVal {I}.

(** the input of one node *)
Inductive nodein (I : Type) :=
| NStr (s : string)
| NVal (x : I).
Arguments NStr {I}. Arguments NVal {I}.

(** evolution.py:8-65; [added_nodes] and [removed_nodes] are part of the rule's outcome *)
Record node_ctx (L V A I : Type) := mkCtx {
  x_label : L;
  x_time : Z;
  x_acts : dict L A;
  x_nbrs : list L;
  x_nacts : list A;
  x_conn : dict L (list (attrs_of V));
  x_cur : A;
  x_past : option (list (option (dict L A)));
  x_input : option (nodein I) }.
Arguments mkCtx {L V A I}.
Arguments x_label {L V A I}. Arguments x_time {L V A I}. Arguments x_acts {L V A I}. Arguments x_nbrs {L V A I}.
Arguments x_nacts {L V A I}. Arguments x_conn {L V A I}. Arguments x_cur {L V A I}. Arguments x_past {L V A I}.
Arguments x_input {L V A I}.

(** the activity returned by the rule, the nodes it added with [ctx.add_node(state, outgoing_links, label)] and the labels it
    passed to [ctx.remove_node], in call order *)
Record outcome (L V A : Type) := mkOut {
  o_act : A;
  o_added : list (A * dict L (attrs_of V) * L);
  o_removed : list L }.
Arguments mkOut {L V A}. Arguments o_act {L V A}. Arguments o_added {L V A}. Arguments o_removed {L V A}.

(** evolution.py:68-78 *)
Record topo_ctx (L V A : Type) := mkTopo { t_net : network L V; t_acts : dict L A; t_time : Z }.
Arguments mkTopo {L V A}. Arguments t_net {L V A}. Arguments t_acts {L V A}. Arguments t_time {L V A}.

(** evolution.py:81-92 *)
Record pert_ctx (L A I : Type) := mkPert { p_label : L; p_act : A; p_time : Z; p_input : option (nodein I) }.
Arguments mkPert {L A I}. Arguments p_label {L A I}. Arguments p_act {L A I}. Arguments p_time {L A I}. Arguments p_input {L A I}.

(** evolution.py:95-98 *)
Inductive update_order := ACTIVITIES_FIRST | TOPOLOGY_FIRST | SYNCHRONOUS.

(** What a State object holds: the object itself or its packed bytes (state.py:288-322). *)
Inductive stored (X B : Type) := Raw (x : X) | Packed (b : B).
Arguments Raw {X B}. Arguments Packed {X B}.
Record state (L V A BA BN : Type) := mkState {
  st_act : option (stored (dict L A) BA);
  st_net : option (stored (network L V) BN) }.
Arguments mkState {L V A BA BN}. Arguments st_act {L V A BA BN}. Arguments st_net {L V A BA BN}.

Section Evolve.
  Context {L V A U I BA BN : Type} `{EqD L} `{EqD A}.
  Context (W : env L V A BA BN).

  Notation network := (network L V).
  Notation attrs := (dict string V).
  Notation acts := (dict L A).
  Notation node_ctx := (node_ctx L V A I).
  Notation outcome := (outcome L V A).
  Notation state := (state L V A BA BN).

  (** *** State *)

  (** state.py:309-312; an empty dict is falsy and is not stored *)
  Definition set_activities (comp : bool) (a : acts) : res (option (stored acts BA)) :=
    match a with
    | [] => Ok None
    | _ => if comp then b <- e_pack_a W a ;; Ok (Some (Packed b)) else Ok (Some (Raw a))
    end.

  (** state.py:304-307 *)
  Definition activities (s : state) : res (option acts) :=
    match st_act s with
    | None => Ok None
    | Some (Raw a) => Ok (Some a)
    | Some (Packed b) => a <- e_unpack_a W b ;; Ok (Some a)
    end.

  (** state.py:319-322; a network without nodes is falsy ([__len__]) *)
  Definition set_network (comp : bool) (n : network) : res (option (stored network BN)) :=
    match net_nodes n with
    | [] => Ok None
    | _ => if comp then b <- e_pack_n W n ;; Ok (Some (Packed b)) else Ok (Some (Raw n))
    end.

  (** state.py:314-317 *)
  Definition state_network (s : state) : res (option network) :=
    match st_net s with
    | None => Ok None
    | Some (Raw n) => Ok (Some n)
    | Some (Packed b) => n <- e_unpack_n W b ;; Ok (Some n)
    end.

  (** *** Inputs *)

  (** the conversion of evolution.py:167-168 and 392-393 *)
  Definition to_dict (c : cond L A) : acts :=
    match c with CDict d => d | CList l => map (fun iv => (e_lab W (fst iv), snd iv)) (enumerate l) end.

  Inductive input :=
  | InputList (l : list (option (inval I)))
  | InputFun (f : U -> Z -> acts -> network -> res (U * option (inval I))).

  Definition input_fn := U -> Z -> acts -> network -> res (U * option (inval I)).

  (** evolution.py:424-431 *)
  Definition timestep_input (num_steps : Z) : input_fn := fun u t _ _ =>
    Ok (u, if t =? num_steps then None else Some (InStr "__timestep__")).

  (** evolution.py:434-441 *)
  Definition list_input (l : list (option (inval I))) : input_fn := fun u t _ _ =>
    if Z.of_nat (length l) <=? t - 1 then Ok (u, None)
    else x <- of_opt IndexError (py_nth l (t - 1)) ;; Ok (u, x).

  (** evolution.py:407-417; [input] overrides [timesteps] *)
  Definition get_input_function (timesteps : option Z) (inp : option input) : res input_fn :=
    match inp, timesteps with
    | Some (InputFun f), _ => Ok f
    | Some (InputList l), _ => Ok (list_input l)
    | None, Some n => Ok (timestep_input n)
    | None, None => Err (Raise "either the timesteps or input must be provided")
    end.

  (** evolution.py:269 with [_is_indexable] (evolution.py:420-421): a str is a Sequence too *)
  Definition node_input (inp : inval I) (v : L) : res (option (nodein I)) :=
    match inp with
    | InStr s =>
        if String.eqb s "__timestep__" then Ok None
        else i <- of_opt TypeError (e_idx W v) ;;
             c <- of_opt IndexError (py_nth (list_ascii_of_string s) i) ;; Ok (Some (NStr (String c "")))
    | InSeq l =>
        i <- of_opt TypeError (e_idx W v) ;;
        x <- of_opt IndexError (py_nth l i) ;; Ok (Some (NVal x))
    | InVal x => Ok (Some (NVal x))
    end.

  (** evolution.py:45-46 *)
  Definition activity_of (x : node_ctx) (v : L) : res A := of_opt KeyError (dget (x_acts x) v).

  (** evolution.py:55-62; the default index is -1 *)
  Definition past_activity_of (x : node_ctx) (v : L) (i : Z) : res A :=
    l <- of_opt TypeError (x_past x) ;;
    e <- of_opt IndexError (py_nth l i) ;;
    d <- of_opt TypeError e ;;
    of_opt KeyError (dget d v).

  (** evolution.py:64-65; the default index is 0 *)
  Definition edge_data (x : node_ctx) (w : L) (attr : string) (i : Z) : res V :=
    es <- of_opt KeyError (dget (x_conn x) w) ;;
    e <- of_opt IndexError (py_nth es i) ;;
    of_opt KeyError (dget e attr).

  (** *** Memoization keys, evolution.py:314-354. [mk_eqb] is Python's equality of keys. *)
  Record memokey := mkKey { mk_K : Type; mk_eqb : mk_K -> mk_K -> bool; mk_to : node_ctx -> mk_K }.

  (** tuple(ctx.neighbourhood_activities) *)
  Definition ordered_key : memokey := mkKey (list A) eqb x_nacts.

  (** frozenset(Counter(ctx.neighbourhood_activities).items()): equal iff every activity occurs equally often *)
  Definition multiset_eqb (l1 l2 : list A) : bool :=
    forallb (fun x => Nat.eqb (count l1 x) (count l2 x)) (l1 ++ l2).
  Definition unordered_key : memokey := mkKey (list A) multiset_eqb x_nacts.

  (** evolution.py:182-184 *)
  Definition default_key (n : network) : memokey :=
    match net_rot n with None => unordered_key | Some _ => ordered_key end.

  Section Table.
    Context (mk : memokey).
    Fixpoint mem_find (tab : list (mk_K mk * A)) (k : mk_K mk) : option A :=
      match tab with
      | [] => None
      | (k', a) :: tab' => if mk_eqb mk k k' then Some a else mem_find tab' k
      end.
  End Table.

  (** *** Arguments of evolve that stay fixed *)
  Definition rule := U -> node_ctx -> res (U * outcome).
  Definition topology_rule := U -> topo_ctx L V A -> res (U * option network).
  Definition perturbation := U -> pert_ctx L A I -> res (U * A).

  Record args := mkArgs {
    g_rule : option rule;
    g_topo : option topology_rule;
    g_pert : option perturbation;
    g_past : list (cond L A);
    g_order : update_order;
    g_copy : bool;
    g_comp : bool;
    g_pact : bool;
    g_pnet : bool;
    g_memo : bool;
    g_key : option memokey }.

  Section Run.
    Context (g : args) (mk : memokey).
    Notation table := (list (mk_K mk * A)).

    (** evolution.py:401-404 *)
    Definition in_neighbours_map (n : network) : dict L (list L) :=
      map (fun kv => (fst kv, dkeys (n_inc (snd kv)))) (net_nodes n).
    Definition get_neighbourhood_map (n : network) : dict L (list L) :=
      match net_rot n with Some r => r | None => in_neighbours_map n end.

    (** evolution.py:294-300 *)
    Definition get_neighbour_labels (v : L) (nmap : option (dict L (list L))) (n : network)
        (conn : dict L (list attrs)) : res (list L) :=
      match nmap with
      | Some m => of_opt KeyError (dget m v)
      | None => match net_rot n with
                | Some r => of_opt KeyError (dget r v)
                | None => Ok (dkeys conn)
                end
      end.

    (** evolution.py:385-398: entry [i] comes from [past_conditions] or from the trajectory; [last_t] counts down as [i] does *)
    Definition past_entry (traj : list state) (last_t : Z) : res (option acts) :=
      if last_t <? 1 then c <- of_opt IndexError (py_nth (g_past g) (last_t - 1)) ;; Ok (Some (to_dict c))
      else s <- of_opt KeyError (py_nth traj (last_t - 1)) ;; activities s.
    Fixpoint past_loop (traj : list state) (i : nat) (last_t : Z) (acc : list (option acts)) : res (list (option acts)) :=
      match i with
      | O => Ok acc
      | S i' => e <- past_entry traj last_t ;; past_loop traj i' (last_t - 1) (e :: acc)
      end.
    Definition get_past (traj : list state) (t : Z) : res (option (list (option acts))) :=
      match g_past g with
      | [] => Ok None
      | _ => l <- past_loop traj (length (g_past g)) (t - 1) [] ;; Ok (Some l)
      end.

    (** the variables of [do_activity_rule] that change from node to node *)
    Record nst := mkNst {
      s_u : U;
      s_curr : acts;
      s_tab : table;
      s_added : list (A * dict L attrs * L);
      s_removed : list L }.

    (** evolution.py:303-311 and 273-277 *)
    Definition apply_rule (r : rule) (u : U) (tab : table) (x : node_ctx) : res (U * table * outcome) :=
      if g_memo g then
        match mem_find mk tab (mk_to mk x) with
        | Some a => Ok (u, tab, mkOut a [] [])
        | None => ' (u', o) <- r u x ;; Ok (u', tab ++ [(mk_to mk x, o_act o)], o)
        end
      else ' (u', o) <- r u x ;; Ok (u', tab, o).

    (** evolution.py:265-271 *)
    Definition node_context (t : Z) (inp : inval I) (prev : acts) (n : network)
        (past : option (list (option acts))) (nmap : option (dict L (list L))) (v : L) : res node_ctx :=
      conn <- in_edges n v ;;
      nbrs <- get_neighbour_labels v nmap n conn ;;
      cur <- of_opt KeyError (dget prev v) ;;
      nacts <- rmap (fun w => of_opt KeyError (dget prev w)) nbrs ;;
      ni <- node_input inp v ;;
      Ok (mkCtx v t prev nbrs nacts conn cur past ni).

    (** evolution.py:264-289, one node *)
    Definition node_step (r : rule) (t : Z) (inp : inval I) (prev : acts) (n : network)
        (past : option (list (option acts))) (nmap : option (dict L (list L))) (s : nst) (v : L) : res nst :=
      x <- node_context t inp prev n past nmap v ;;
      ' (u1, tab1, o) <- apply_rule r (s_u s) (s_tab s) x ;;
      let added := s_added s ++ o_added o in
      let removed := s_removed s ++ o_removed o in
      let curr := if existsb (eqb v) (o_removed o) then s_curr s else dset (s_curr s) v (o_act o) in
      match g_pert g with
      | None => Ok (mkNst u1 curr tab1 added removed)
      | Some p =>
          a <- of_opt KeyError (dget curr v) ;;
          ' (u2, a') <- p u1 (mkPert v a t (x_input x)) ;;
          Ok (mkNst u2 (dset curr v a') tab1 added removed)
      end.

    (** evolution.py:259-291 *)
    Definition do_activity_rule (r : rule) (t : Z) (inp : inval I) (u : U) (prev : acts) (tab : table) (n : network)
        (past : option (list (option acts))) (nmap : option (dict L (list L))) : res nst :=
      rfold (node_step r t inp prev n past nmap) (nodes n) (mkNst u [] tab [] []).

    (** evolution.py:239-256: new user state, activities (before being recorded), table, added and removed nodes *)
    Definition evolve_activities (t : Z) (inp : inval I) (u : U) (prev : acts) (tab : table) (n : network)
        (past : option (list (option acts))) (nmap : option (dict L (list L))) : res nst :=
      match g_rule g with
      | None => Ok (mkNst u [] tab [] [])
      | Some r =>
          s <- do_activity_rule r t inp u prev tab n past nmap ;;
          Ok (mkNst (s_u s) (fold_left (fun d anl => dset d (snd anl) (fst (fst anl))) (s_added s) (s_curr s))
                    (s_tab s) (s_added s) (s_removed s))
      end.

    (** evolution.py:253-254 / 379-380 *)
    Definition record_activities (a : acts) : res (option (stored acts BA)) :=
      if g_pact g then set_activities (g_comp g) a else Ok None.
    Definition record_network (n : network) : res (option (stored network BN)) :=
      if g_pnet g then set_network (g_comp g) n else Ok None.

    (** evolution.py:360-370: deletions, then insertions with their outgoing links, on a copy *)
    Definition add_one (anl : A * dict L attrs * L) : mut unit :=
      let '(a, links, v) := anl in
      mthen (add_node v [("activity", e_inj W a)]) (mfor links (fun tc => add_edge v (fst tc) (snd tc))).
    Definition adjust_nodes (added : list (A * dict L attrs * L)) (removed : list L) : mut unit :=
      mthen (mfor removed remove_node) (mfor added add_one).

    (** evolution.py:357-382 without the recording *)
    Definition evolve_topology (t : Z) (u : U) (a : acts) (prev : network)
        (added : list (A * dict L attrs * L)) (removed : list L) : res (U * network) :=
      n1 <- match added, removed with
            | [], [] => Ok prev
            | _, _ => match adjust_nodes added removed (copy prev) with
                      | (n, Ok _) => Ok n
                      | (_, Err e) => Err e
                      end
            end ;;
      match g_topo g with
      | None => Ok (u, n1)
      | Some f =>
          ' (u', r) <- f u (mkTopo (if g_copy g then copy n1 else n1) a t) ;;
          match r with
          | Some n2 => match net_nodes n2 with
                       | [] => Err (Raise "topology rule must return a network")
                       | _ => Ok (u', n2)
                       end
          | None => Err (Raise "topology rule must return a network")
          end
      end.

    (** the variables of the loop of evolution.py:191-232 *)
    Record cfg := mkCfg {
      c_u : U;
      c_act : acts;
      c_net : network;
      c_tab : table;
      c_map : option (dict L (list L));
      c_traj : list state }.

    (** evolution.py:197-232, one timestep with input [inp] *)
    Definition step (t : Z) (inp : inval I) (c : cfg) : res cfg :=
      past <- get_past (c_traj c) t ;;
      match g_order g with
      | ACTIVITIES_FIRST =>
          s <- evolve_activities t inp (c_u c) (c_act c) (c_tab c) (c_net c) past (c_map c) ;;
          sa <- record_activities (s_curr s) ;;
          ' (u2, n2) <- evolve_topology t (s_u s) (s_curr s) (c_net c) (s_added s) (s_removed s) ;;
          sn <- record_network n2 ;;
          let nmap := match s_added s, s_removed s with
                      | [], [] => c_map c
                      | _, _ => Some (get_neighbourhood_map n2)
                      end in
          Ok (mkCfg u2 (s_curr s) n2 (s_tab s) nmap (c_traj c ++ [mkState sa sn]))
      | TOPOLOGY_FIRST =>
          ' (u1, n2) <- evolve_topology t (c_u c) (c_act c) (c_net c) [] [] ;;
          sn <- record_network n2 ;;
          s <- evolve_activities t inp u1 (c_act c) (c_tab c) n2 past (c_map c) ;;
          sa <- record_activities (s_curr s) ;;
          Ok (mkCfg (s_u s) (s_curr s) n2 (s_tab s) (c_map c) (c_traj c ++ [mkState sa sn]))
      | SYNCHRONOUS =>
          ' (u1, n2) <- evolve_topology t (c_u c) (c_act c) (c_net c) [] [] ;;
          sn <- record_network n2 ;;
          s <- evolve_activities t inp u1 (c_act c) (c_tab c) (c_net c) past (c_map c) ;;
          sa <- record_activities (s_curr s) ;;
          Ok (mkCfg (s_u s) (s_curr s) n2 (s_tab s) (c_map c) (c_traj c ++ [mkState sa sn]))
      end.

    Definition with_u (c : cfg) (u : U) : cfg := mkCfg u (c_act c) (c_net c) (c_tab c) (c_map c) (c_traj c).

    (** evolution.py:192-232, [while True] *)
    Fixpoint loop (infn : input_fn) (fuel : nat) (t : Z) (c : cfg) : res cfg :=
      match fuel with
      | O => Err OutOfFuel
      | S f =>
          ' (u, inp) <- infn (c_u c) t (c_act c) (c_net c) ;;
          match inp with
          | None => Ok (with_u c u)
          | Some i => c' <- step t i (with_u c u) ;; loop infn f (t + 1) c'
          end
      end.
  End Run.

  (** evolution.py:163-236. Returns the user state and the trajectory. *)
  Definition evolve (fuel : nat) (u0 : U) (n : network) (initial : option (cond L A)) (timesteps : option Z)
      (inp : option input) (g : args) : res (U * list state) :=
    let init := match initial with None => [] | Some c => to_dict c end in
    infn <- get_input_function timesteps inp ;;
    if negb (Nat.eqb (length init) (net_len n)) && match g_rule g with Some _ => true | None => false end
    then Err (Raise "too few intial conditions specified") else
    sa <- set_activities (g_comp g) init ;;
    sn <- set_network (g_comp g) n ;;
    let mk := match g_key g with Some k => k | None => default_key n end in
    let nmap := match g_topo g with None => Some (get_neighbourhood_map n) | Some _ => None end in
    c <- loop g mk infn fuel 1 (mkCfg mk u0 init n [] nmap [mkState sa sn]) ;;
    Ok (c_u mk c, c_traj mk c).

End Evolve.

Arguments mk_K {L V A I}. Arguments mk_eqb {L V A I}. Arguments mk_to {L V A I}. Arguments mkKey {L V A I}.
Arguments s_u {L V A U I mk}. Arguments s_curr {L V A U I mk}. Arguments s_tab {L V A U I mk}.
Arguments s_added {L V A U I mk}. Arguments s_removed {L V A U I mk}. Arguments mkNst {L V A U I mk}.
Arguments c_u {L V A U I BA BN mk}. Arguments c_act {L V A U I BA BN mk}. Arguments c_net {L V A U I BA BN mk}.
Arguments c_tab {L V A U I BA BN mk}. Arguments c_map {L V A U I BA BN mk}. Arguments c_traj {L V A U I BA BN mk}.
Arguments mkCfg {L V A U I BA BN mk}. Arguments with_u {L V A U I BA BN mk}.

(** * Wolfram: model of netomaton/wolfram_physics_model.py.

    Nodes are ints; relations are tuples of ints. The symbols of the rules are any hashable type [S]. Edge attributes are
    strings, ints and booleans. *)
From Coq Require Import DecimalString.
From Verif Require Import Py Network Evolve Utils WolframSpec.
Open Scope string_scope.
Open Scope list_scope.
Open Scope Z_scope.

Inductive aval := AStr (s : string) | AInt (z : Z) | ABool (b : bool).

(** str(n) *)
Definition str_nat (n : nat) : string := NilEmpty.string_of_uint (Nat.to_uint n).

Notation wnet := (network Z aval).
Notation wattrs := (dict string aval).

(** wolfram_physics_model.py:25-27 *)
Definition prev_state (label : string) (hyper : bool) (num : Z) : wattrs :=
  ("label", AStr label) :: (if hyper then [("hyperedge_index", AInt num)] else []).

(** wolfram_physics_model.py:22-32, [for node in relation]; returns last_node *)
Fixpoint add_path (label : string) (hyper : bool) (prev : option Z) (num last : Z) (rel : relation) : wnet -> wnet * res Z :=
  match rel with
  | [] => mret last
  | node :: rest =>
      let last := if last <? node then node else last in
      match prev with
      | None => add_path label hyper (Some node) num last rest
      | Some p => mbind (add_edge p node (prev_state label hyper num)) (fun _ => add_path label hyper (Some node) (num + 1) last rest)
      end
  end.

(** wolfram_physics_model.py:18-35, [for c, relation in enumerate(config)] *)
Fixpoint add_relations (c : nat) (last : Z) (cfg : config) : wnet -> wnet * res Z :=
  match cfg with
  | [] => mret last
  | rel :: rest =>
      let label := str_nat (c + 1) in
      mbind (add_path label (2 <? Z.of_nat (length rel)) None 0 last rel) (fun last =>
      mbind (match rel with [n] => add_edge n n [("label", AStr label); ("unary", ABool true)] | _ => mret tt end) (fun _ =>
      add_relations (c + 1) last rest))
  end.

(** wolfram_physics_model.py:9-36 *)
Definition init_network_and_conditions (cfg : config) : res (wnet * Z) :=
  match add_relations 0 0 cfg empty_network with
  | (n, Ok last) => Ok (n, last)
  | (_, Err e) => Err e
  end.

(** the dicts [edges] and [hyperedges] *)
Definition hyper_parts := list ((Z * Z) * Z).
Definition tables := (dict string relation * dict string hyper_parts)%type.

(** wolfram_physics_model.py:47-56, one connection *)
Definition read_connection (from_node to_node : Z) (eh : tables) (connection : wattrs) : res tables :=
  let '(edges, hyperedges) := eh in
  lv <- of_opt KeyError (dget connection "label") ;;
  label <- (match lv with AStr s => Ok s | _ => Err Unmodelled end) ;;
  if dmem connection "unary" then Ok (dset edges label [from_node], hyperedges) else
  match dget connection "hyperedge_index" with
  | Some (AInt i) =>
      let parts := match dget hyperedges label with Some l => l | None => [] end in
      Ok (edges, dset hyperedges label (parts ++ [((from_node, to_node), i)]))
  | Some _ => Err Unmodelled
  | None => Ok (dset edges label [from_node; to_node], hyperedges)
  end.

(** wolfram_physics_model.py:40-56 *)
Definition read_network (net : wnet) : res tables :=
  rfold (fun eh to_node =>
    in_edges <- in_edges net to_node ;;
    rfold (fun eh ic => rfold (read_connection (fst ic) to_node) (snd ic) eh) in_edges eh) (nodes net) ([], []).

(** wolfram_physics_model.py:61-70 *)
Definition merge_parts (parts : hyper_parts) : res relation :=
  rfold (fun merged (part : (Z * Z) * Z) =>
    let '(edge, index) := part in
    merged <- of_opt IndexError (py_set_nth merged index (fun _ => fst edge)) ;;
    if index + 2 =? Z.of_nat (length merged) then of_opt IndexError (py_set_nth merged (-1) (fun _ => snd edge)) else Ok merged)
  parts (repeat 0 (length parts + 1)).

(** wolfram_physics_model.py:38-75 *)
Definition network_to_config (net : wnet) : res config :=
  ' (edges, hyperedges) <- read_network net ;;
  merged <- rmap (fun lp => r <- merge_parts (snd lp) ;; Ok (fst lp, r)) hyperedges ;;
  let edges := dupdate edges merged in
  rmap (fun label => of_opt KeyError (dget edges label)) (sorted String.leb (dkeys edges)).

(** wolfram_physics_model.py:153-157 *)
Definition to_configurations (nets : list wnet) : res (list config) := rmap network_to_config nets.

Section Rules.
  Context {S : Type} `{EqD S}.
  Notation bindings := (dict S Z).

  (** wolfram_physics_model.py:137-151, [for i, symbol in enumerate(rule)] *)
  Fixpoint match_symbols (rule : list S) (rel : relation) (b : bindings) (added : list S) : bool * bindings :=
    match rule, rel with
    | s :: rule', v :: rel' =>
        match dget b s with
        | Some w => if negb (v =? w) then (false, fold_left ddel added b) else match_symbols rule' rel' b added
        | None => match_symbols rule' rel' (dset b s v) (added ++ [s])
        end
    | _, _ => (true, b)
    end.

  (** wolfram_physics_model.py:132-151 *)
  Definition matches (rule : list S) (rel : relation) (b : bindings) : bool * bindings :=
    if negb (Nat.eqb (length rule) (length rel)) then (false, b) else match_symbols rule rel b [].

  (** wolfram_physics_model.py:96-101, [for relation in list(relations)] *)
  Fixpoint find_relation (rule : list S) (b : bindings) (rels : config) : option relation * bindings :=
    match rels with
    | [] => (None, b)
    | r :: rs => let '(ok, b') := matches rule r b in if ok then (Some r, b') else find_relation rule b' rs
    end.

  (** relations.remove(relation) *)
  Fixpoint remove_first (r : relation) (rels : config) : config :=
    match rels with [] => [] | x :: xs => if eqb r x then xs else x :: remove_first r xs end.

  (** the variables of wolfram_physics_model.py:80-111 *)
  Record scan := mkScan {
    sc_rels : config; sc_partial : config; sc_matched : list (config * bindings); sc_b : bindings; sc_go : bool }.

  (** wolfram_physics_model.py:92-107, one rule *)
  Definition scan_rule (n_in : nat) (st : scan) (rule : list S) : scan :=
    let '(found, b) := find_relation rule (sc_b st) (sc_rels st) in
    let '(rels, partial) := match found with Some r => (remove_first r (sc_rels st), sc_partial st ++ [r]) | None => (sc_rels st, sc_partial st) end in
    let '(matched, partial) := if Nat.eqb (length partial) n_in then (sc_matched st ++ [(partial, b)], []) else (sc_matched st, partial) in
    mkScan rels partial matched b (match found with Some _ => true | None => false end).

  (** wolfram_physics_model.py:84-111, [while scanning] *)
  Fixpoint scan_loop (fuel : nat) (rules_in : list (list S)) (rels unmatched : config) (matched : list (config * bindings))
      : res (config * config * list (config * bindings)) :=
    match fuel with
    | O => Err OutOfFuel
    | Datatypes.S f =>
        let st := fold_left (scan_rule (length rules_in)) rules_in (mkScan rels [] matched [] true) in
        let unmatched := unmatched ++ sc_partial st in
        if sc_go st then scan_loop f rules_in (sc_rels st) unmatched (sc_matched st)
        else Ok (sc_rels st, unmatched, sc_matched st)
    end.

  (** wolfram_physics_model.py:121-125, one symbol: (last_node, bindings, new_edge) *)
  Definition emit_symbol (st : Z * bindings * relation) (s : S) : Z * bindings * relation :=
    let '(last, b, edge) := st in
    match dget b s with
    | Some n => (last, b, edge ++ [n])
    | None => (last + 1, dset b s (last + 1), edge ++ [last + 1])
    end.
  (** wolfram_physics_model.py:119-126, one rule: (last_node, bindings, new_config) *)
  Definition emit_rule (st : Z * bindings * config) (rule_out : list S) : Z * bindings * config :=
    let '(last, b, cfg) := st in
    let '(last, b, edge) := fold_left emit_symbol rule_out (last, b, []) in
    (last, b, cfg ++ [edge]).
  (** wolfram_physics_model.py:118-126, one group: (last_node, new_config) *)
  Definition emit_group (rules_out : list (list S)) (st : Z * config) (mb : config * bindings) : Z * config :=
    let '(last, cfg) := st in
    let '(last, _, cfg) := fold_left emit_rule rules_out (last, snd mb, cfg) in
    (last, cfg).

  (** the object: its network and last_node; the rules do not change *)
  Record model := mkModel { m_net : wnet; m_last : Z }.

  (** wolfram_physics_model.py:5-7 *)
  Definition model_init (cfg : config) : res model :=
    ' (n, last) <- init_network_and_conditions cfg ;; Ok (mkModel n last).

  (** wolfram_physics_model.py:80-126, from the relations on; returns the new configuration *)
  Definition rewrite_config (fuel : nat) (rules_in rules_out : list (list S)) (last : Z) (relations : config) : res config :=
    ' (rels, unmatched, matched) <- scan_loop fuel rules_in relations [] [] ;;
    Ok (snd (fold_left (emit_group rules_out) matched (last, rels ++ unmatched))).

  (** wolfram_physics_model.py:77-130, topology_rule *)
  Definition wolfram_rule {A} (fuel : nat) (rules_in rules_out : list (list S)) (m : model) (cctx : topo_ctx Z aval A) : res (model * option wnet) :=
    relations <- network_to_config (t_net cctx) ;;
    new_config <- rewrite_config fuel rules_in rules_out (m_last m) relations ;;
    ' (n, last) <- init_network_and_conditions new_config ;;
    Ok (mkModel n last, Some n).
End Rules.

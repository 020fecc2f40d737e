(** * Reference semantics of evolve: what each timestep does, told without caches, tables or packing *)
From Verif Require Import Py Network Evolve.
Open Scope string_scope.
Open Scope list_scope.
Open Scope Z_scope.

Section Spec.
  Context {L V A U I BA BN : Type} `{EqD L} `{EqD A}.
  Context (W : env L V A BA BN).

  Notation network := (network L V).
  Notation attrs := (dict string V).
  Notation acts := (dict L A).
  Notation ctx := (node_ctx L V A I).
  Notation args := (@args L V A U I).
  Notation state := (state L V A BA BN).
  Notation input_fn := (@input_fn L V A U I).

  (** the neighbours of [v] in the network [n]: the entry of the rotation system, or else the sources of the in-edges *)
  Definition nbrs_of (n : network) (v : L) (l : list L) : Prop :=
    match net_rot n with
    | Some r => dget r v = Some l
    | None => exists inc, in_edges n v = Ok inc /\ l = map fst inc
    end.

  (** what node [v] receives from the input of a timestep *)
  Definition input_of (inp : inval I) (v : L) (x : option (nodein I)) : Prop :=
    match inp with
    | InStr s => if String.eqb s "__timestep__" then x = None
                 else exists i c, e_idx W v = Some i /\ py_nth (list_ascii_of_string s) i = Some c /\ x = Some (NStr (String c ""))
    | InSeq l => exists i y, e_idx W v = Some i /\ py_nth l i = Some y /\ x = Some (NVal y)
    | InVal y => x = Some (NVal y)
    end.

  (** the context of node [v] at time [t], given the network and activities in force *)
  Record ctx_for (n : network) (S : acts) (t : Z) (past : option (list (option acts))) (inp : inval I) (v : L) (x : ctx) : Prop := {
    cf_label : x_label x = v;
    cf_time : x_time x = t;
    cf_acts : x_acts x = S;
    cf_nbrs : nbrs_of n v (x_nbrs x);
    cf_nacts : Forall2 (fun w a => dget S w = Some a) (x_nbrs x) (x_nacts x);
    cf_conn : in_edges n v = Ok (x_conn x);
    cf_cur : dget S v = Some (x_cur x);
    cf_past : x_past x = past;
    cf_input : input_of inp v (x_input x) }.

  (** one invocation of the rule: context, outcome, activity after the perturbation *)
  Record call := mkCall { k_ctx : ctx; k_out : outcome L V A; k_fin : A }.

  (** the invocations of one timestep, threading the user state; a perturbation gets the rule's result *)
  Inductive calls_from (r : rule) (p : option perturbation) : U -> list call -> U -> Prop :=
  | cf_nil u : calls_from r p u [] u
  | cf_cons u u1 u2 u' x o a ks :
      r u x = Ok (u1, o) ->
      match p with
      | None => u2 = u1 /\ a = o_act o
      | Some f => ~ In (x_label x) (o_removed o) /\
                  f u1 (mkPert (x_label x) (o_act o) (x_time x) (x_input x)) = Ok (u2, a)
      end ->
      calls_from r p u2 ks u' ->
      calls_from r p u (mkCall x o a :: ks) u'.

  (** the activities after the invocations: one entry per node that did not remove itself, in node order, then the
      activities of the added nodes *)
  Definition own_removed (k : call) : bool := existsb (eqb (x_label (k_ctx k))) (o_removed (k_out k)).
  Definition kept (ks : list call) : acts :=
    map (fun k => (x_label (k_ctx k), k_fin k)) (filter (fun k => negb (own_removed k)) ks).
  Definition added_of (ks : list call) : list (A * dict L attrs * L) := flat_map (fun k => o_added (k_out k)) ks.
  Definition removed_of (ks : list call) : list L := flat_map (fun k => o_removed (k_out k)) ks.
  Definition new_activities (ks : list call) : acts :=
    fold_left (fun d anl => dset d (snd anl) (fst (fst anl))) (added_of ks) (kept ks).

  (** all nodes of [n] are updated from the activities [S] *)
  Definition activities_step (g : args) (n : network) (S : acts) (t : Z) past inp (u : U) (ks : list call) (u' : U) (S' : acts) : Prop :=
    match g_rule g with
    | None => ks = [] /\ u' = u /\ S' = []
    | Some r => Forall2 (ctx_for n S t past inp) (nodes n) (map k_ctx ks) /\ calls_from r (g_pert g) u ks u' /\ S' = new_activities ks
    end.

  (** the network after the deletions and insertions, on a copy *)
  Definition adjusted (n : network) (added : list (A * dict L attrs * L)) (removed : list L) (n1 : network) : Prop :=
    match added, removed with
    | [], [] => n1 = n
    | _, _ => adjust_nodes W added removed (copy n) = (n1, Ok tt)
    end.

  (** the topology rule, applied to a copy when copy_network is set *)
  Definition topology_step (g : args) (n1 : network) (S : acts) (t : Z) (u : U) (u' : U) (n' : network) : Prop :=
    match g_topo g with
    | None => u' = u /\ n' = n1
    | Some f => f u (mkTopo (if g_copy g then copy n1 else n1) S t) = Ok (u', Some n') /\ nodes n' <> []
    end.

  Record snap := mkSnap { h_u : U; h_act : acts; h_net : network }.

  (** one timestep, from snapshot [a] (after the input function moved the user state to [u]) to snapshot [b] *)
  Definition timestep (g : args) (t : Z) past inp (a : snap) (u : U) (b : snap) : Prop :=
    match g_order g with
    | ACTIVITIES_FIRST => exists ks u1 n1,
        activities_step g (h_net a) (h_act a) t past inp u ks u1 (h_act b) /\
        adjusted (h_net a) (added_of ks) (removed_of ks) n1 /\
        topology_step g n1 (h_act b) t u1 (h_u b) (h_net b)
    | TOPOLOGY_FIRST => exists ks u1,
        topology_step g (h_net a) (h_act a) t u u1 (h_net b) /\
        activities_step g (h_net b) (h_act a) t past inp u1 ks (h_u b) (h_act b)
    | SYNCHRONOUS => exists ks u1,
        topology_step g (h_net a) (h_act a) t u u1 (h_net b) /\
        activities_step g (h_net a) (h_act a) t past inp u1 ks (h_u b) (h_act b)
    end.

  (** past_activities at time [t]: entry [L - k] is the state at time [t - 1 - k]; negative times come from past_conditions *)
  Definition past_at (g : args) (traj : list state) (t : Z) (past : option (list (option acts))) : Prop :=
    match g_past g, past with
    | [], None => True
    | _ :: _, Some l =>
        length l = length (g_past g) /\
        forall k, (1 <= k <= length (g_past g))%nat ->
          exists e, nth_error l (length (g_past g) - k) = Some e /\
          let time := t - 1 - Z.of_nat k in
          if 0 <=? time then exists s, nth_error traj (Z.to_nat time) = Some s /\ activities W s = Ok e
          else exists c, nth_error (g_past g) (Z.to_nat (Z.of_nat (length (g_past g)) + time)) = Some c /\ e = Some (to_dict W c)
    | _, _ => False
    end.

  (** the recorded state shows the snapshot, or nothing when persistence is off *)
  Definition shows_a (g : args) (s : state) (b : snap) : Prop :=
    if g_pact g then set_activities W (g_comp g) (h_act b) = Ok (st_act s) else st_act s = None.
  Definition shows_n (g : args) (s : state) (b : snap) : Prop :=
    if g_pnet g then set_network W (g_comp g) (h_net b) = Ok (st_net s) else st_net s = None.

  (** the whole run: [hs] are the snapshots, [traj] the recorded states, [uf] the final user state *)
  Record run_spec (infn : input_fn) (g : args) (u0 : U) (init : acts) (n : network) (hs : list snap) (uf : U) (traj : list state) : Prop := {
    rs_length : length hs = length traj;
    rs_first : nth_error hs 0 = Some (mkSnap u0 init n);
    rs_first_state : exists s, nth_error traj 0 = Some s /\ set_activities W (g_comp g) init = Ok (st_act s) /\ set_network W (g_comp g) n = Ok (st_net s);
    rs_step : forall k a b, nth_error hs k = Some a -> nth_error hs (S k) = Some b ->
      exists u inp past s,
        infn (h_u a) (Z.of_nat k + 1) (h_act a) (h_net a) = Ok (u, Some inp) /\
        past_at g (firstn (S k) traj) (Z.of_nat k + 1) past /\
        timestep g (Z.of_nat k + 1) past inp a u b /\
        nth_error traj (S k) = Some s /\ shows_a g s b /\ shows_n g s b;
    rs_last : forall a, nth_error hs (length hs - 1) = Some a ->
      infn (h_u a) (Z.of_nat (length hs)) (h_act a) (h_net a) = Ok (uf, None) }.

  (** a topology rule returns a network whose labels are distinct (it is a dict) *)
  Definition topo_ok (g : args) : Prop :=
    forall f u c u' n', g_topo g = Some f -> f u c = Ok (u', Some n') -> NoDup (nodes (t_net c)) -> NoDup (nodes n').

  (** the activity rule never adds or removes nodes *)
  Definition no_insert (g : args) : Prop :=
    forall r u x u' o, g_rule g = Some r -> r u x = Ok (u', o) -> o_added o = [] /\ o_removed o = [].

  (** ** Pure callbacks *)

  (** an activity rule that keeps no state and neither adds nor removes nodes (it may raise) *)
  Definition stateless (h : ctx -> res A) : rule := fun (u : U) x => a <- h x ;; Ok (u, mkOut a [] []).
  Definition pure_topo (F : network -> acts -> Z -> res network) : topology_rule := fun (u : U) c =>
    n <- F (t_net c) (t_acts c) (t_time c) ;; Ok (u, Some n).
  Definition pure_pert (p : pert_ctx L A I -> res A) : perturbation := fun (u : U) c => a <- p c ;; Ok (u, a).

  (** [S'] is the rule (then the perturbation) applied to every node of [n] with activities [S], in node order *)
  Definition updated (h : ctx -> res A) (p : option (pert_ctx L A I -> res A)) (n : network) (S : acts) (t : Z) past inp (S' : acts) : Prop :=
    map fst S' = nodes n /\
    forall v, In v (nodes n) -> exists x a a',
      ctx_for n S t past inp v x /\ h x = Ok a /\
      match p with None => a' = a | Some f => f (mkPert v a t (x_input x)) = Ok a' end /\
      dget S' v = Some a'.

  (** [n'] is the topology rule applied to (a copy of) [n] *)
  Definition rewired (F : option (network -> acts -> Z -> res network)) (cp : bool) (n : network) (S : acts) (t : Z) (n' : network) : Prop :=
    match F with
    | None => n' = n
    | Some f => f (if cp then copy n else n) S t = Ok n' /\ nodes n' <> []
    end.

  (** what reading an uncompressed state gives: nothing for an empty dict or a network without nodes *)
  Definition shown_acts (S : acts) : option acts := match S with [] => None | _ => Some S end.
  Definition shown_net (n : network) : option network := match nodes n with [] => None | _ => Some n end.

End Spec.
Arguments mkCall {L V A I}. Arguments k_ctx {L V A I}. Arguments k_out {L V A I}. Arguments k_fin {L V A I}.
Arguments mkSnap {L V A U}. Arguments h_u {L V A U}. Arguments h_act {L V A U}. Arguments h_net {L V A U}.

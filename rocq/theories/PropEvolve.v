(** Property theorems for evolve (C15 - C28). *)
From Verif Require Import Py PyFacts ListFacts Network NetworkSpec NetworkProofs Msgpack MsgpackSpec MsgpackProofs NetCopy Topology.
From Verif Require Import Evolve EvolveSpec EvolveProofs EvolveProofs2 EvolveProofs3 EvolveProofs4 Heap HeapProofs.
Open Scope string_scope.
Open Scope list_scope.
Open Scope Z_scope.

Section Theorems.
  Context {L V A U I BA BN : Type} `{EqD L} `{EqD A}.
  Notation env := (env L V A BA BN).
  Notation network := (network L V).
  Notation acts := (dict L A).
  Notation ctx := (node_ctx L V A I).
  Notation args := (@args L V A U I).
  Notation state := (state L V A BA BN).
  Notation call := (@call L V A I).
  Implicit Types (W : env) (g : args) (n : network) (u uf : U) (initial : option (cond L A)) (traj : list state).

  Definition start W initial : acts := match initial with None => [] | Some c => to_dict W c end.

  (** C15 *)
  Theorem C15_timesteps : forall W fuel u0 n initial T g, 1 <= T ->
    (forall uf traj, evolve W fuel u0 n initial (Some T) None g = Ok (uf, traj) -> Z.of_nat (length traj) = T) /\
    ((Z.to_nat T <= fuel)%nat -> evolve W fuel u0 n initial (Some T) None g = evolve W (Z.to_nat T) u0 n initial (Some T) None g).
  Proof.
    intros W fuel u0 n initial T g HT. split.
    - intros uf traj E. apply (evolve_length W fuel u0 n initial (Some T) None g (timestep_input T) T uf traj eq_refl (timestep_ends T HT) HT E).
    - intros Hf. apply (evolve_fuel W fuel u0 n initial (Some T) None g (timestep_input T) T eq_refl (timestep_ends T HT) HT Hf).
  Qed.

  (** the list ends the run at its first None or at its end, whatever [timesteps] is *)
  Theorem C15_list_input : forall W fuel u0 n initial ts (l : list (option (inval I))) k g,
    (forall j, (j < k)%nat -> exists i, nth_error l j = Some (Some i)) -> (nth_error l k = Some None \/ k = length l) ->
    (forall uf traj, evolve W fuel u0 n initial ts (Some (InputList l)) g = Ok (uf, traj) -> length traj = S k) /\
    ((S k <= fuel)%nat -> evolve W fuel u0 n initial ts (Some (InputList l)) g = evolve W (S k) u0 n initial ts (Some (InputList l)) g).
  Proof.
    intros W fuel u0 n initial ts l k g Hj Hk. pose proof (list_ends (L:=L) (V:=V) (A:=A) (U:=U) l k Hj Hk) as He. split.
    - intros uf traj E. pose proof (evolve_length W fuel u0 n initial ts (Some (InputList l)) g (list_input l) _ uf traj eq_refl He ltac:(lia) E). lia.
    - intros Hf. rewrite (evolve_fuel W fuel u0 n initial ts (Some (InputList l)) g (list_input l) _ eq_refl He ltac:(lia) ltac:(lia)). f_equal. lia.
  Qed.

  Theorem C15_list_without_none : forall W fuel u0 n initial ts (l : list (option (inval I))) g uf traj,
    ~ In None l -> evolve W fuel u0 n initial ts (Some (InputList l)) g = Ok (uf, traj) -> length traj = S (length l).
  Proof.
    intros W fuel u0 n initial ts l g uf traj Hn E. apply (C15_list_input W fuel u0 n initial ts l (length l) g) with (uf := uf); [|auto|exact E].
    intros j Hj. destruct (nth_error l j) as [[i|]|] eqn:Ej; [eauto| |].
    - exfalso. apply Hn. eapply nth_error_In. exact Ej.
    - apply nth_error_None in Ej. lia.
  Qed.

  (** a (possibly stateful) input function is asked once per state, for t = 1, 2, ...; the answer is None exactly at the end *)
  Theorem C15_input_function : forall W fuel u0 n initial ts f g uf traj,
    evolve W fuel u0 n initial ts (Some (InputFun f)) g = Ok (uf, traj) ->
    exists asked : list (U * acts * network), length asked = length traj /\ traj <> [] /\
      nth_error asked 0 = Some (u0, start W initial, n) /\
      forall k u a m, nth_error asked k = Some (u, a, m) -> exists u' r, f u (Z.of_nat k + 1) a m = Ok (u', r) /\
        (r = None <-> S k = length traj).
  Proof.
    intros W fuel u0 n initial ts f g uf traj E.
    destruct (evolve_run W _ _ _ _ _ _ _ _ _ E) as (infn & sa & sn & cs & Hin & _ & _ & _ & Hr & _ & Hlast & ->).
    cbn in Hin. injection Hin as <-. match type of Hr with Run _ _ _ _ _ ?c _ => set (c0 := c) in * end.
    exists (map (fun c => (c_u c, c_act c, c_net c)) (c0 :: cs)). destruct (run_traj W _ _ _ _ _ _ Hr) as (ss & Hl & -> & _).
    assert (Hlen : length (c_traj c0 ++ ss) = S (length cs)) by (rewrite app_length, Hl; reflexivity). rewrite Hlen.
    split; [rewrite map_length; reflexivity|]. split; [intros E0; rewrite E0 in Hlen; discriminate|]. split; [reflexivity|].
    intros k u a m Ek. rewrite nth_error_map in Ek. destruct (nth_error (c0 :: cs) k) as [c|] eqn:Ec; [|discriminate]. injection Ek as <- <- <-.
    destruct (nth_error (c0 :: cs) (S k)) as [c'|] eqn:Ec'.
    - destruct (run_nth W _ _ _ _ _ _ Hr k c c' Ec Ec') as (u & i & Ei & _). exists u, (Some i). split; [rewrite Z.add_comm; exact Ei|].
      split; [discriminate|]. intros Hk. assert (nth_error (c0 :: cs) (S k) = None) by (apply nth_error_None; cbn [length]; lia). congruence.
    - apply nth_error_None in Ec'. cbn [length] in Ec'. assert (Hk : (k < length (c0 :: cs))%nat) by (apply nth_error_Some; congruence). cbn [length] in Hk.
      assert (k = length cs) by lia. subst k. rewrite nth_last in Ec. injection Ec as Ec.
      subst c. exists uf, None. split; [replace (Z.of_nat (length cs) + 1) with (1 + Z.of_nat (length cs)) by lia; exact Hlast|]. tauto.
  Qed.

  Theorem C15_neither : forall W fuel u0 n initial g, exists m, evolve W fuel u0 n initial None None g = Err (Raise m).
  Proof. intros. eexists. reflexivity. Qed.

  (** no finite number of iterations is enough: if every finite run succeeds, the model runs out of any fuel *)
  Theorem C15_nonpositive_never_ends : forall W u0 n initial T g, T <= 0 ->
    (forall fuel r, evolve W fuel u0 n initial (Some T) None g <> Ok r) /\
    ((forall m, 1 <= m -> exists r, evolve W (Z.to_nat m) u0 n initial (Some m) None g = Ok r) ->
     forall fuel, evolve W fuel u0 n initial (Some T) None g = Err OutOfFuel).
  Proof.
    intros W u0 n initial T g HT. split; [intros fuel; apply evolve_never; assumption|]. intros Hr fuel. apply evolve_never; [assumption|].
    destruct (Hr (1 + Z.of_nat fuel) ltac:(lia)) as [r Er]. exists r. replace (Z.to_nat (1 + Z.of_nat fuel)) with (S fuel) in Er by lia. exact Er.
  Qed.

  (** a run of T steps is the beginning of every longer run *)
  Theorem C15_prefix : forall W fuel u0 n initial T T' g uf traj, 1 <= T <= T' ->
    evolve W fuel u0 n initial (Some T') None g = Ok (uf, traj) ->
    exists uf', evolve W fuel u0 n initial (Some T) None g = Ok (uf', firstn (Z.to_nat T) traj).
  Proof. exact evolve_prefix. Qed.

  (** C16 - C18. [h] and [F] are the pure activity and topology rules; [hs] lists S(t) and A(t), which are what the recorded
      states show; time t + 1 in the code is [k + 1]. *)
  Section Equations.
    Context (h : ctx -> res A) (F : option (network -> acts -> Z -> res network)).

    Definition pure_run W fuel u0 n initial ts inp g uf traj : Prop :=
      g_rule g = Some (stateless h) /\ g_topo g = option_map pure_topo F /\ g_pert g = None /\
      g_memo g = false /\ g_comp g = false /\ g_pact g = true /\ g_pnet g = true /\ NoDup (nodes n) /\
      (forall f m S t m', F = Some f -> f m S t = Ok m' -> NoDup (nodes m) -> NoDup (nodes m')) /\
      evolve W fuel u0 n initial ts inp g = Ok (uf, traj).

    Definition obeys W n initial ts inp g traj (eqn : Z -> option (list (option acts)) -> inval I -> acts -> network -> acts -> network -> Prop) : Prop :=
      exists infn (hs : list (acts * network)),
        get_input_function ts inp = Ok infn /\
        nth_error hs 0 = Some (start W initial, n) /\
        Forall2 (fun s h => activities W s = Ok (shown_acts (fst h)) /\ state_network W s = Ok (shown_net (snd h))) traj hs /\
        forall k S m S' m', nth_error hs k = Some (S, m) -> nth_error hs (Datatypes.S k) = Some (S', m') ->
          exists u u' i past, infn u (Z.of_nat k + 1) S m = Ok (u', Some i) /\
            past_at W g (firstn (Datatypes.S k) traj) (Z.of_nat k + 1) past /\
            eqn (Z.of_nat k + 1) past i S m S' m'.

    Theorem C16_activities_first : forall W fuel u0 n initial ts inp g uf traj,
      pure_run W fuel u0 n initial ts inp g uf traj -> g_order g = ACTIVITIES_FIRST ->
      obeys W n initial ts inp g traj (fun t past i S m S' m' => updated W h None m S t past i S' /\ rewired F (g_copy g) m S' t m').
    Proof.
      intros W fuel u0 n initial ts inp g uf traj (H1 & H2 & H3 & H4 & H5 & H6 & H7 & H8 & H9 & E) Ho.
      destruct (pure_equations W h None F fuel u0 n initial ts inp g uf traj H1 H3 H2 H4 H5 H6 H7 H8 H9 E) as (infn & hs & Hx).
      exists infn, hs. unfold equation in Hx. rewrite Ho in Hx. exact Hx.
    Qed.

    Theorem C17_topology_first : forall W fuel u0 n initial ts inp g uf traj,
      pure_run W fuel u0 n initial ts inp g uf traj -> g_order g = TOPOLOGY_FIRST ->
      obeys W n initial ts inp g traj (fun t past i S m S' m' => rewired F (g_copy g) m S t m' /\ updated W h None m' S t past i S').
    Proof.
      intros W fuel u0 n initial ts inp g uf traj (H1 & H2 & H3 & H4 & H5 & H6 & H7 & H8 & H9 & E) Ho.
      destruct (pure_equations W h None F fuel u0 n initial ts inp g uf traj H1 H3 H2 H4 H5 H6 H7 H8 H9 E) as (infn & hs & Hx).
      exists infn, hs. unfold equation in Hx. rewrite Ho in Hx. exact Hx.
    Qed.

    Theorem C18_synchronous : forall W fuel u0 n initial ts inp g uf traj,
      pure_run W fuel u0 n initial ts inp g uf traj -> g_order g = SYNCHRONOUS ->
      obeys W n initial ts inp g traj (fun t past i S m S' m' => rewired F (g_copy g) m S t m' /\ updated W h None m S t past i S').
    Proof.
      intros W fuel u0 n initial ts inp g uf traj (H1 & H2 & H3 & H4 & H5 & H6 & H7 & H8 & H9 & E) Ho.
      destruct (pure_equations W h None F fuel u0 n initial ts inp g uf traj H1 H3 H2 H4 H5 H6 H7 H8 H9 E) as (infn & hs & Hx).
      exists infn, hs. unfold equation in Hx. rewrite Ho in Hx. exact Hx.
    Qed.
  End Equations.

  (** C19. [n'] has the nodes of [n] in any other order; the rule [q] keeps no state but may add and remove nodes. *)
  Theorem C19_order_irrelevant : forall W (g : args) mk (q : ctx -> res (outcome L V A)) (p : option (pert_ctx L A I -> res A)) t inp prev past n n' nmap nmap' u tab (s : nst (U:=U) mk),
    g_memo g = false -> g_pert g = option_map pure_pert p ->
    NoDup (nodes n) -> Permutation (net_nodes n) (net_nodes n') -> net_rot n = net_rot n' ->
    (forall v, option_map (fun m => dget m v) nmap = option_map (fun m => dget m v) nmap') ->
    do_activity_rule W g mk (nostate q) t inp u prev tab n past nmap = Ok s ->
    exists s', do_activity_rule W g mk (nostate q) t inp u prev tab n' past nmap' = Ok s' /\
      (forall v, dget (s_curr s') v = dget (s_curr s) v) /\
      Permutation (s_curr s) (s_curr s') /\ Permutation (s_added s) (s_added s') /\ Permutation (s_removed s) (s_removed s') /\ s_u s' = s_u s.
  Proof. intros W g mk q p t inp prev past n n' nmap nmap' u tab s Hm Hp Hnd Hperm Hrot Hmap E. exact (rule_order_irrelevant W g mk q p Hm Hp t inp prev past n n' nmap nmap' u tab s Hnd Hperm Hrot Hmap E). Qed.

  (** C20 - C22. [hs] are the snapshots of the run; the nodes updated in step k + 1 are those of [in_force]. *)
  Definition plain_run W fuel u0 n initial ts inp g r uf traj : Prop :=
    g_rule g = Some r /\ g_memo g = false /\ NoDup (nodes n) /\ topo_ok g /\ (g_topo g = None \/ no_insert g \/ g_order g <> ACTIVITIES_FIRST) /\
    evolve W fuel u0 n initial ts inp g = Ok (uf, traj).

  Theorem C20_current_neighbourhood : forall W fuel u0 n initial ts inp g r uf traj,
    plain_run W fuel u0 n initial ts inp g r uf traj ->
    exists infn hs, run_spec W infn g u0 (start W initial) n hs uf traj /\
      forall k a b, nth_error hs k = Some a -> nth_error hs (S k) = Some b ->
        exists (ks : list call) u1 u2, calls_from r (g_pert g) u1 ks u2 /\ h_act b = new_activities ks /\
          map (fun c => x_label (k_ctx c)) ks = nodes (in_force g a b) /\
          forall c, In c ks ->
            nbrs_of (in_force g a b) (x_label (k_ctx c)) (x_nbrs (k_ctx c)) /\
            Forall2 (fun w y => dget (h_act a) w = Some y) (x_nbrs (k_ctx c)) (x_nacts (k_ctx c)) /\
            in_edges (in_force g a b) (x_label (k_ctx c)) = Ok (x_conn (k_ctx c)) /\
            dget (h_act a) (x_label (k_ctx c)) = Some (x_cur (k_ctx c)).
  Proof. intros W fuel u0 n initial ts inp g r uf traj (H1 & H2 & H3 & H4 & H5 & E). eapply neighbourhoods; eassumption. Qed.

  Theorem C21_input_delivery : forall W fuel u0 n initial ts inp g r uf traj,
    plain_run W fuel u0 n initial ts inp g r uf traj ->
    exists infn hs, run_spec W infn g u0 (start W initial) n hs uf traj /\
      forall k a b, nth_error hs k = Some a -> nth_error hs (S k) = Some b ->
        exists i (ks : list call) u1 u2, input_at inp k i /\ calls_from r (g_pert g) u1 ks u2 /\ h_act b = new_activities ks /\
          map (fun c => x_label (k_ctx c)) ks = nodes (in_force g a b) /\
          forall c, In c ks -> x_time (k_ctx c) = Z.of_nat k + 1 /\ input_of W i (x_label (k_ctx c)) (x_input (k_ctx c)).
  Proof. intros W fuel u0 n initial ts inp g r uf traj (H1 & H2 & H3 & H4 & H5 & E). eapply inputs_delivered; eassumption. Qed.

  Theorem C22_past_window : forall W fuel u0 n initial ts inp g r uf traj,
    plain_run W fuel u0 n initial ts inp g r uf traj -> g_comp g = false -> g_past g <> [] ->
    exists infn hs, run_spec W infn g u0 (start W initial) n hs uf traj /\
      forall k a b, nth_error hs k = Some a -> nth_error hs (S k) = Some b ->
        exists (ks : list call) u1 u2, calls_from r (g_pert g) u1 ks u2 /\ h_act b = new_activities ks /\
          map (fun c => x_label (k_ctx c)) ks = nodes (in_force g a b) /\
          forall c, In c ks -> exists l, x_past (k_ctx c) = Some l /\ length l = length (g_past g) /\
            forall j, (1 <= j <= length (g_past g))%nat -> exists e, nth_error l (length (g_past g) - j) = Some e /\
              (let time := x_time (k_ctx c) - 1 - Z.of_nat j in
               if 0 <=? time then exists h, nth_error hs (Z.to_nat time) = Some h /\
                                    e = (if g_pact g || (time =? 0) then shown_acts (h_act h) else None)
               else exists p, nth_error (g_past g) (Z.to_nat (Z.of_nat (length (g_past g)) + time)) = Some p /\ e = Some (to_dict W p)) /\
              (j = 1%nat -> forall v, past_activity_of (k_ctx c) v (-1) = (d <- of_opt TypeError e ;; of_opt KeyError (dget d v))).
  Proof. intros W fuel u0 n initial ts inp g r uf traj (H1 & H2 & H3 & H4 & H5 & E) Hc Hp. eapply past_window; eassumption. Qed.

  (** C23. The recorded activity is the perturbation of the rule's result, and the next step starts from it ([obeys] chains the
      recorded activities). *)
  Theorem C23_perturbed : forall W h F p fuel u0 n initial ts inp g uf traj,
    g_rule g = Some (stateless h) -> g_pert g = Some (pure_pert p) -> g_topo g = option_map pure_topo F ->
    g_memo g = false -> g_comp g = false -> g_pact g = true -> g_pnet g = true ->
    NoDup (nodes n) -> (forall f m S t m', F = Some f -> f m S t = Ok m' -> NoDup (nodes m) -> NoDup (nodes m')) ->
    evolve W fuel u0 n initial ts inp g = Ok (uf, traj) ->
    obeys W n initial ts inp g traj (fun t past i S m S' m' =>
      updated W h (Some p) (match g_order g with TOPOLOGY_FIRST => m' | _ => m end) S t past i S').
  Proof.
    intros W h F p fuel u0 n initial ts inp g uf traj Hr Hp Ht Hm Hc Ha Hn Hnd HF E.
    destruct (pure_equations W h (Some p) F fuel u0 n initial ts inp g uf traj Hr Hp Ht Hm Hc Ha Hn Hnd HF E) as (infn & hs & H1 & H2 & H3 & H4).
    exists infn, hs. repeat (split; [assumption|]). intros k S m S' m' E1 E2. destruct (H4 k S m S' m' E1 E2) as (u & u' & i & past & Ei & Hpast & Heq).
    exists u, u', i, past. split; [assumption|]. split; [assumption|]. unfold equation in Heq. destruct (g_order g); tauto.
  Qed.

  Theorem C23_identity_perturbation : forall W fuel u0 n initial ts inp g, no_self_removal g ->
    evolve W fuel u0 n initial ts inp (set_pert g (Some id_pert)) = evolve W fuel u0 n initial ts inp (set_pert g None).
  Proof. exact identity_perturbation. Qed.

  (** the rule invoked on [v] (the nodes [pre] before it were updated without raising) removes [v] *)
  Theorem C23_self_removal_raises : forall W (g : args) mk r p t inp u prev tab n past nmap pre v post (s : nst (U:=U) mk) x u1 tab1 o,
    g_pert g = Some p -> NoDup (nodes n) -> nodes n = pre ++ v :: post ->
    rfold (node_step W g mk r t inp prev n past nmap) pre (mkNst u [] tab [] []) = Ok s ->
    node_context W t inp prev n past nmap v = Ok x -> apply_rule g mk r (s_u s) (s_tab s) x = Ok (u1, tab1, o) -> In v (o_removed o) ->
    do_activity_rule W g mk r t inp u prev tab n past nmap = Err KeyError.
  Proof.
    intros W g mk r p t inp u prev tab n past nmap pre v post s x u1 tab1 o Hp Hnd En Epre Ex Er Hv. unfold do_activity_rule. rewrite En.
    eapply self_removal_raises; try eassumption. intros Hin.
    assert (Hk : forall l (s0 s1 : nst mk), rfold (node_step W g mk r t inp prev n past nmap) l s0 = Ok s1 -> forall w, In w (dkeys (s_curr s1)) -> In w (dkeys (s_curr s0)) \/ In w l).
    { clear. induction l as [|y l IH]; intros s0 s1 E w Hw; cbn [rfold] in E; [injection E as <-; auto|]. inv_bind E s2 E2. destruct (IH _ _ E w Hw) as [Hx|Hx]; [|cbn; auto].
      unfold node_step in E2. inv_bind E2 x Ex. inv_bind E2 uto Eu. destruct uto as [[u1 tab1] o]. cbn zeta in E2.
      assert (Hc : In w (dkeys (if existsb (eqb y) (o_removed o) then s_curr s0 else dset (s_curr s0) y (o_act o))) -> In w (dkeys (s_curr s0)) \/ In w (y :: l)).
      { destruct (existsb _ _); [auto|]. rewrite in_dkeys_dset. cbn. intuition congruence. }
      destruct (g_pert g); [|injection E2 as <-; auto]. inv_bind E2 a Ea. inv_bind E2 ua Eua. destruct ua. injection E2 as <-. cbn [s_curr] in Hx.
      rewrite in_dkeys_dset in Hx. destruct Hx as [->|Hx]; [right; cbn; auto|auto]. }
    destruct (Hk _ _ _ Epre v Hin) as [[]|Hx]. rewrite En in Hnd. apply NoDup_remove_2 in Hnd. apply Hnd, in_or_app. auto.
  Qed.

  (** C24 *)
  Theorem C24_memoization_transparent : forall W fuel u0 n initial ts inp g h, g_rule g = Some (stateless h) ->
    (let mk := match g_key g with Some k => k | None => default_key n end in
     forall x y, mk_eqb mk (mk_to mk x) (mk_to mk y) = true -> h x = h y) ->
    evolve W fuel u0 n initial ts inp (set_memo g true) = evolve W fuel u0 n initial ts inp (set_memo g false).
  Proof. exact memo_transparent. Qed.

  Theorem C24_default_key_ordered : forall W fuel u0 n initial ts inp g h, g_key g = None -> net_rot n <> None -> g_rule g = Some (stateless h) ->
    (forall x y, x_nacts x = x_nacts y -> h x = h y) ->
    evolve W fuel u0 n initial ts inp (set_memo g true) = evolve W fuel u0 n initial ts inp (set_memo g false).
  Proof. exact memo_ordered. Qed.

  Theorem C24_default_key_unordered : forall W fuel u0 n initial ts inp g h, g_key g = None -> net_rot n = None -> g_rule g = Some (stateless h) ->
    (forall x y, Permutation (x_nacts x) (x_nacts y) -> h x = h y) ->
    evolve W fuel u0 n initial ts inp (set_memo g true) = evolve W fuel u0 n initial ts inp (set_memo g false).
  Proof. exact memo_unordered. Qed.

  (** C25 *)
  Theorem C25_activities_follow_nodes : forall W fuel u0 n initial ts inp g r uf traj,
    g_memo g = false -> g_topo g = None -> g_order g = ACTIVITIES_FIRST -> g_rule g = Some r ->
    g_comp g = false -> g_pact g = true -> g_pnet g = true -> NoDup (nodes n) ->
    (forall u x u' o w, r u x = Ok (u', o) -> In w (o_removed o) -> w = x_label x) ->
    (forall v, In v (dkeys (start W initial)) <-> In v (nodes n)) ->
    evolve W fuel u0 n initial ts inp g = Ok (uf, traj) ->
    exists infn hs, run_spec W infn g u0 (start W initial) n hs uf traj /\
      Forall2 (fun s h => activities W s = Ok (shown_acts (h_act h)) /\ state_network W s = Ok (shown_net (h_net h))) traj hs /\
      forall k h, nth_error hs k = Some h ->
        (forall j a b, (j < k)%nat -> nth_error hs j = Some a -> nth_error hs (S j) = Some b -> links_ok W g j a b) ->
        forall v, In v (dkeys (h_act h)) <-> In v (nodes (h_net h)).
  Proof. exact keys_follow_nodes. Qed.

  (** C26 *)
  Theorem C26_persistence_only_blanks : forall W fuel u0 n initial ts inp g pa pn, g_comp g = false -> (g_past g = [] \/ pa = true) ->
    evolve W fuel u0 n initial ts inp (set_persist g pa pn) =
      ' (u, traj) <- evolve W fuel u0 n initial ts inp (set_persist g true true) ;; Ok (u, blanked pa pn traj).
  Proof. exact persist_flags. Qed.

  Theorem C26_persistence_only_blanks_compressed : forall W fuel u0 n initial ts inp g pa pn uf traj, (g_past g = [] \/ pa = true) ->
    evolve W fuel u0 n initial ts inp (set_persist g true true) = Ok (uf, traj) ->
    evolve W fuel u0 n initial ts inp (set_persist g pa pn) = Ok (uf, blanked pa pn traj).
  Proof. exact persist_flags_any. Qed.

  (** C28. With copy_network the object heap run shows exactly what the value-level evolve records, and the caller's object
      (address 0) is untouched, whatever the in-place rule [f] does to the network it is given. *)
  Theorem C28_copy_isolates : forall W fuel u0 n initial ts inp g f, g_copy g = true -> g_comp g = false ->
    match hevolve W fuel u0 n initial ts inp g f with
    | Ok (uf, hf, traj) => nth_error hf 0 = Some n /\
        evolve W fuel u0 n initial ts inp (set_topo g (option_map value_rule f)) = Ok (uf, map (read hf) traj)
    | Err e => evolve W fuel u0 n initial ts inp (set_topo g (option_map value_rule f)) = Err e
    end.
  Proof.
    intros W fuel u0 n initial ts inp g f Hc Hp. pose proof (hevolve_val W fuel u0 n initial ts inp g f Hc Hp) as Hr. unfold res_rel in Hr.
    destruct (hevolve _ _ _ _ _ _ _ _ _) as [[[uf hf] traj]|e]; destruct (evolve _ _ _ _ _ _ _ _) as [[uf' traj']|e']; try contradiction.
    - destruct Hr as (E1 & E2 & E3). cbn [fst snd] in *. split; [assumption|]. congruence.
    - congruence.
  Qed.

  (** so running longer never changes what the earlier states show *)
  Theorem C28_history_stable : forall W fuel u0 n initial T T' g f uf hf sts uf' hf' sts', g_copy g = true -> g_comp g = false -> 1 <= T <= T' ->
    hevolve W fuel u0 n initial (Some T) None g f = Ok (uf, hf, sts) ->
    hevolve W fuel u0 n initial (Some T') None g f = Ok (uf', hf', sts') ->
    map (read (BN:=BN) hf) sts = firstn (Z.to_nat T) (map (read hf') sts').
  Proof.
    intros W fuel u0 n initial T T' g f uf hf sts uf' hf' sts' Hc Hp HT E1 E2.
    pose proof (C28_copy_isolates W fuel u0 n initial (Some T) None g f Hc Hp) as H1. rewrite E1 in H1.
    pose proof (C28_copy_isolates W fuel u0 n initial (Some T') None g f Hc Hp) as H2. rewrite E2 in H2.
    destruct H1 as [_ H1], H2 as [_ H2]. destruct (C15_prefix W fuel u0 n initial T T' _ _ _ HT H2) as [u E]. congruence.
  Qed.

  (** without it, a rule that mutates and returns the network it is given: one object, shared by all states *)
  Theorem C28_shared_without_copy : forall W fuel u0 n initial ts inp g f uf hf sts, g_copy g = false ->
    (forall u c u' n' ret, f u c = Ok (u', n', ret) -> ret = Same) -> (no_insert g \/ g_order g <> ACTIVITIES_FIRST) ->
    hevolve W fuel u0 n initial ts inp g (Some f) = Ok (uf, hf, sts) ->
    exists nf, hf = [nf] /\ forall s m, In s sts -> st_net (read (BN:=BN) hf s) = Some m -> m = Raw nf.
  Proof. exact hevolve_shared. Qed.

  Theorem C28_synchronous_sees_mutation : forall W fuel u0 n initial ts inp g f, g_copy g = false ->
    (forall u c u' n' ret, f u c = Ok (u', n', ret) -> ret = Same) ->
    hevolve W fuel u0 n initial ts inp (set_order g SYNCHRONOUS) (Some f) = hevolve W fuel u0 n initial ts inp (set_order g TOPOLOGY_FIRST) (Some f).
  Proof. exact hevolve_sync. Qed.
End Theorems.

(** C27, over msgpack values *)
Theorem C27_compression : forall (U I : Type) fuel (u0 : U) n initial ts inp (g : @args val val val U I) uf traj,
  evolve msg_env fuel u0 n initial ts inp (set_comp g false) = Ok (uf, traj) ->
  (forall s, In s traj ->
     (forall a, activities msg_env s = Ok (Some a) -> packs (VMap a) /\ (g_past g = [] \/ everywhere no_tuple (VMap a))) /\
     (forall m, state_network msg_env s = Ok (Some m) -> packs (net_val m) /\ everywhere no_tuple (net_val m))) ->
  exists traj', evolve msg_env fuel u0 n initial ts inp (set_comp g true) = Ok (uf, traj') /\
    Forall2 (fun s s' => exists a m, activities msg_env s = Ok a /\ activities msg_env s' = Ok (option_map norm_acts a) /\
                                     state_network msg_env s = Ok m /\ state_network msg_env s' = Ok (option_map copy m)) traj traj'.
Proof. exact @compressed_evolve. Qed.

(** ... and without tuples the activities are the same *)
Theorem C27_activities_equal : forall d : dict val val, everywhere no_tuple (VMap d) -> norm_acts d = d.
Proof. exact norm_acts_id. Qed.

Print Assumptions C15_timesteps.
Print Assumptions C15_list_input.
Print Assumptions C15_list_without_none.
Print Assumptions C15_input_function.
Print Assumptions C15_neither.
Print Assumptions C15_nonpositive_never_ends.
Print Assumptions C15_prefix.
Print Assumptions C16_activities_first.
Print Assumptions C17_topology_first.
Print Assumptions C18_synchronous.
Print Assumptions C19_order_irrelevant.
Print Assumptions C20_current_neighbourhood.
Print Assumptions C21_input_delivery.
Print Assumptions C22_past_window.
Print Assumptions C23_perturbed.
Print Assumptions C23_identity_perturbation.
Print Assumptions C23_self_removal_raises.
Print Assumptions C24_memoization_transparent.
Print Assumptions C24_default_key_ordered.
Print Assumptions C24_default_key_unordered.
Print Assumptions C25_activities_follow_nodes.
Print Assumptions C26_persistence_only_blanks.
Print Assumptions C26_persistence_only_blanks_compressed.
Print Assumptions C27_compression.
Print Assumptions C27_activities_equal.
Print Assumptions C28_copy_isolates.
Print Assumptions C28_history_stable.
Print Assumptions C28_shared_without_copy.
Print Assumptions C28_synchronous_sees_mutation.

(** ** Examples: every theorem's hypotheses are met by a small run; [_refuted]: the boundaries of the claims *)

Definition W0 : env Z Z Z unit unit :=
  mkEnv Z.of_nat Some (fun a => a) (fun _ => Err Unmodelled) (fun _ => Err Unmodelled) (fun _ => Err Unmodelled) (fun _ => Err Unmodelled).
Notation args0 := (@args Z Z Z Z Z).
Notation ctx0 := (node_ctx Z Z Z Z).

Definition base (r : option (@rule Z Z Z Z Z)) (f : option (@topology_rule Z Z Z Z)) (p : option (@perturbation Z Z Z Z)) past o cp : args0 :=
  mkArgs r f p past o cp false true true false None.

Definition ok_net (r : res (network Z Z)) : network Z Z := match r with Ok n => n | Err _ => mkNet [] None end.
Definition ring5 : network Z Z := Eval vm_compute in ok_net (cellular_automaton 5 1 true).

(** sum of the neighbourhood modulo 2 *)
Definition xor_h (x : ctx0) : res Z := Ok (zsum (x_nacts x) mod 2).
Definition g_xor := base (Some (stateless xor_h)) None None [] ACTIVITIES_FIRST true.
Definition start5 := Some (CList (L:=Z) [0; 0; 1; 0; 0]).

Definition shown (r : res (Z * list (state Z Z Z unit unit))) : res (list (option (dict Z Z) * option (list Z))) :=
  ' (_, tr) <- r ;; rmap (fun s => a <- activities W0 s ;; m <- state_network W0 s ;; Ok (a, option_map nodes m)) tr.
Definition shown_a r := l <- shown r ;; Ok (map fst l).

Ltac is_ok := eexists; eexists; vm_compute; reflexivity.
Ltac splits := unfold pure_run, plain_run; repeat match goal with |- _ /\ _ => split end.
Ltac nodup := repeat (constructor; [cbn; intuition discriminate|]); constructor.

Example C15_nonvacuous :
  shown_a (evolve W0 5 0 ring5 start5 (Some 3) None g_xor) =
    Ok [Some [(0, 0); (1, 0); (2, 1); (3, 0); (4, 0)]; Some [(0, 0); (1, 1); (4, 0); (2, 1); (3, 1)]; Some [(0, 1); (1, 0); (4, 1); (2, 1); (3, 0)]] /\
  (exists r, evolve W0 9 0 ring5 start5 (Some 77) (Some (InputList [Some (InVal 1); Some (InVal 2); None; Some (InVal 3)])) g_xor = Ok r /\ length (snd r) = 3%nat) /\
  (exists r, evolve W0 9 0 ring5 start5 None (Some (InputList [Some (InVal 1); Some (InVal 2)])) g_xor = Ok r /\ length (snd r) = 3%nat) /\
  (exists r, evolve W0 9 5 ring5 start5 None (Some (InputFun (fun u t _ _ => Ok (u - 1, if u =? 1 then None else Some (InVal t))))) g_xor = Ok r /\ length (snd r) = 5%nat) /\
  evolve W0 9 5 ring5 start5 (Some 0) None g_xor = Err OutOfFuel.
Proof. splits; try (vm_compute; reflexivity); eexists; vm_compute; split; reflexivity. Qed.

(** a pure topology rule: at every timestep an edge from node 0 is added *)
Definition grow (n : network Z Z) (S : dict Z Z) (t : Z) : res (network Z Z) :=
  match add_edge 0 (t mod 5) [] n with (n', Ok _) => Ok n' | (_, Err e) => Err e end.
Lemma grow_nodup n S t n' : grow n S t = Ok n' -> NoDup (nodes n) -> NoDup (nodes n').
Proof.
  unfold grow. intros E Hn. pose proof (keeps_add_edge 0 (t mod 5) [] n Hn) as Hk.
  destruct (add_edge 0 (t mod 5) [] n) as [m [[]|]]; [|discriminate]. injection E as <-. exact Hk.
Qed.
Definition ring5u : network Z Z := Eval vm_compute in ok_net (cellular_automaton 5 1 false).
(** depends on the number of neighbours as well *)
Definition deg_h (x : ctx0) : res Z := Ok ((zsum (x_nacts x) + Z.of_nat (length (x_nbrs x))) mod 7).
Definition g_grow o := base (Some (stateless deg_h)) (Some (pure_topo grow)) None [] o true.

Example C16_C17_C18_nonvacuous : forall o, exists uf traj, pure_run deg_h (Some grow) W0 5 0 ring5u start5 (Some 4) None (g_grow o) uf traj.
Proof.
  intros o. destruct o; eexists; eexists; (splits; [reflexivity..|nodup| |vm_compute; reflexivity]);
    intros f m S t m' Ef; injection Ef as <-; apply grow_nodup.
Qed.

(** the three orders differ on this run *)
Example C16_C17_C18_differ :
  shown_a (evolve W0 5 0 ring5u start5 (Some 4) None (g_grow ACTIVITIES_FIRST)) <> shown_a (evolve W0 5 0 ring5u start5 (Some 4) None (g_grow TOPOLOGY_FIRST)) /\
  shown_a (evolve W0 5 0 ring5u start5 (Some 4) None (g_grow TOPOLOGY_FIRST)) <> shown_a (evolve W0 5 0 ring5u start5 (Some 4) None (g_grow SYNCHRONOUS)).
Proof. split; vm_compute; discriminate. Qed.

Definition ring5r : network Z Z := Eval vm_compute in mkNet (rev (net_nodes ring5u)) None.
Definition grower : ctx0 -> res (outcome Z Z Z) := fun x =>
  Ok (mkOut (x_cur x + zsum (x_nacts x)) (if x_label x =? 2 then [(7, [(0, [])], 5)] else []) (if x_label x =? 3 then [3] else [])).
Example C19_nonvacuous : NoDup (nodes ring5u) /\ Permutation (net_nodes ring5u) (net_nodes ring5r) /\ net_rot ring5u = net_rot ring5r /\
  exists s, do_activity_rule W0 (base (Some (nostate grower)) None None [] ACTIVITIES_FIRST true) unordered_key (nostate grower) 1 (InStr "__timestep__") 0
    [(0, 1); (1, 2); (2, 3); (3, 4); (4, 5)] [] ring5u None None = Ok s /\ s_curr s <> [].
Proof. split; [nodup|]. split; [apply Permutation_rev|]. split; [reflexivity|]. eexists. split; [vm_compute; reflexivity|discriminate]. Qed.

Lemma xor_plain fuel u0 n initial ts inp uf traj f o : NoDup (nodes n) ->
  (forall m S t m', f m S t = Ok m' -> NoDup (nodes m) -> NoDup (nodes m')) ->
  evolve W0 fuel u0 n initial ts inp (base (Some (stateless deg_h)) (Some (pure_topo f)) None [] o true) = Ok (uf, traj) ->
  plain_run W0 fuel u0 n initial ts inp (base (Some (stateless deg_h)) (Some (pure_topo f)) None [] o true) (stateless deg_h) uf traj.
Proof.
  intros Hn Hf E. splits; try assumption; try reflexivity.
  - intros f' u c u' n' Ef E' Hc. cbn in Ef. injection Ef as <-. unfold pure_topo in E'. inv_bind E' m Em. injection E' as _ <-. eapply Hf; eassumption.
  - right; left. intros r u x u' o' Er Eo. cbn in Er. injection Er as <-. unfold stateless in Eo. inv_bind Eo a Ea. injection Eo as _ <-. auto.
Qed.
Example C20_nonvacuous : forall o, exists uf traj, plain_run W0 5 0 ring5u start5 (Some 4) None (g_grow o) (stateless deg_h) uf traj.
Proof.
  intros o. destruct o; eexists; eexists; (apply xor_plain; [nodup|intros *; apply grow_nodup|vm_compute; reflexivity]).
Qed.

(** the cached neighbourhood map is not rebuilt: at t = 3 node 1 has two in-edges but the rule is given the one of t = 1 *)
Definition stale_rule : @rule Z Z Z Z Z := fun u x =>
  Ok (u, mkOut (Z.of_nat (length (x_nbrs x))) (if (x_time x =? 1) && (x_label x =? 0) then [(0, [(0, [])], 2)] else []) []).
Definition stale_topo : @topology_rule Z Z Z Z := fun u c =>
  Ok (u, Some (if t_time c =? 2 then fst (add_edge 2 1 [] (t_net c)) else t_net c)).
Definition pair_net : network Z Z := Eval vm_compute in fst (add_edge_bidir 0 1 [] (mkNet [] None)).
Theorem C20_stale_neighbourhood_refuted : exists (g : args0) n uf traj a b,
  g_order g = ACTIVITIES_FIRST /\ evolve W0 9 0 n (Some (CList [0; 0])) (Some 4) None g = Ok (uf, traj) /\
  nth_error traj 2 = Some a /\ nth_error traj 3 = Some b /\
  (exists m, state_network W0 a = Ok (Some m) /\ (inc <- in_edges m 1 ;; Ok (dkeys inc)) = Ok [0; 2]) /\
  (exists d, activities W0 b = Ok (Some d) /\ dget d 1 = Some 1).
Proof.
  exists (base (Some stale_rule) (Some stale_topo) None [] ACTIVITIES_FIRST true), pair_net. do 4 eexists.
  split; [reflexivity|]. split; [vm_compute; reflexivity|]. split; [reflexivity|]. split; [reflexivity|].
  split; eexists; vm_compute; split; reflexivity.
Qed.
Print Assumptions C20_stale_neighbourhood_refuted.

(** inputs: a value, a list indexed by the node label, a string *)
Definition in_rule : @rule Z Z Z Z Z := fun u x =>
  Ok (u, mkOut (match x_input x with Some (NVal z) => z | Some (NStr s) => Z.of_nat (String.length s) * 1000 | None => -1 end) [] []).
Definition g_in := base (Some in_rule) None None [] ACTIVITIES_FIRST true.
Lemma in_plain fuel u0 n initial ts inp uf traj past : NoDup (nodes n) ->
  evolve W0 fuel u0 n initial ts inp (base (Some in_rule) None None past ACTIVITIES_FIRST true) = Ok (uf, traj) ->
  plain_run W0 fuel u0 n initial ts inp (base (Some in_rule) None None past ACTIVITIES_FIRST true) in_rule uf traj.
Proof. intros Hn E. splits; try assumption; try reflexivity; [intros f u c u' n' Ef; discriminate|]. left. reflexivity. Qed.
Example C21_nonvacuous :
  (exists uf traj, plain_run W0 9 0 pair_net (Some (CList [0; 0])) None (Some (InputList [Some (InVal 5); Some (InSeq [8; 9]); Some (InStr "xyz")])) g_in in_rule uf traj) /\
  shown_a (evolve W0 9 0 pair_net (Some (CList [0; 0])) None (Some (InputList [Some (InVal 5); Some (InSeq [8; 9]); Some (InStr "xyz")])) g_in) =
    Ok [Some [(0, 0); (1, 0)]; Some [(0, 5); (1, 5)]; Some [(0, 8); (1, 9)]; Some [(0, 1000); (1, 1000)]] /\
  shown_a (evolve W0 9 0 pair_net (Some (CList [0; 0])) (Some 2) None g_in) = Ok [Some [(0, 0); (1, 0)]; Some [(0, -1); (1, -1)]].
Proof. split; [|split; vm_compute; reflexivity]. eexists; eexists; apply in_plain; [nodup|vm_compute; reflexivity]. Qed.

(** a second-order rule: own activity at time t - 2 *)
Definition past_h (x : ctx0) : res Z := a <- past_activity_of x (x_label x) (-1) ;; Ok (a + x_cur x).
Definition g_past2 pa := mkArgs (Some (stateless past_h)) None None [CList [10; 20]; CList [1; 2]] ACTIVITIES_FIRST true false pa true false None : args0.
Example C22_nonvacuous :
  (exists uf traj, plain_run W0 9 0 pair_net (Some (CList [3; 4])) (Some 4) None (g_past2 true) (stateless past_h) uf traj) /\
  g_comp (g_past2 true) = false /\ g_past (g_past2 true) <> [] /\
  shown_a (evolve W0 9 0 pair_net (Some (CList [3; 4])) (Some 4) None (g_past2 true)) =
    Ok [Some [(0, 3); (1, 4)]; Some [(0, 4); (1, 6)]; Some [(0, 7); (1, 10)]; Some [(0, 11); (1, 16)]].
Proof.
  split; [|splits; [reflexivity|discriminate|vm_compute; reflexivity]]. eexists; eexists. split; [reflexivity|]. split; [reflexivity|]. split; [nodup|].
  split; [intros f u c u' n' Ef; discriminate|]. split; [left; reflexivity|vm_compute; reflexivity].
Qed.

(** C23 *)
Definition double : pert_ctx Z Z Z -> res Z := fun c => Ok (2 * p_act c + p_label c).
Definition g_pert2 o := base (Some (stateless deg_h)) (Some (pure_topo grow)) (Some (pure_pert double)) [] o true.
Example C23_nonvacuous : forall o, exists r, evolve W0 9 0 ring5u start5 (Some 4) None (g_pert2 o) = Ok r /\
  shown_a (evolve W0 9 0 ring5u start5 (Some 4) None (g_pert2 o)) <> shown_a (evolve W0 9 0 ring5u start5 (Some 4) None (set_pert (g_pert2 o) None)).
Proof. intros o. destruct o; eexists; (split; [vm_compute; reflexivity|vm_compute; discriminate]). Qed.
Example C23_identity_nonvacuous : no_self_removal g_xor /\ exists r, evolve W0 9 0 ring5 start5 (Some 4) None (set_pert g_xor (Some id_pert)) = Ok r.
Proof.
  split; [|eexists; vm_compute; reflexivity]. intros r u x u' o Er Eo. cbn in Er. injection Er as <-. cbn in Eo. injection Eo as _ <-. intros [].
Qed.
(** node 1 removes itself at t = 2; with a perturbation evolve raises *)
Definition suicide : @rule Z Z Z Z Z := fun u x => Ok (u, mkOut 0 [] (if (x_time x =? 2) && (x_label x =? 1) then [1] else [])).
Theorem C23_self_removal_refuted : exists n (g : args0),
  (exists r, evolve W0 9 0 n (Some (CList [0; 0])) (Some 4) None (set_pert g None) = Ok r) /\
  evolve W0 9 0 n (Some (CList [0; 0])) (Some 4) None (set_pert g (Some id_pert)) = Err KeyError.
Proof.
  exists pair_net, (base (Some suicide) None None [] ACTIVITIES_FIRST true). split; [eexists|]; vm_compute; reflexivity.
Qed.
Print Assumptions C23_self_removal_refuted.

(** C24 *)
Definition gol_h (x : ctx0) : res Z :=
  let total := zsum (x_nacts x) in
  Ok (if x_cur x =? 1 then (if (total - 1 =? 2) || (total - 1 =? 3) then 1 else 0) else (if total =? 3 then 1 else 0)).
Definition moore33 : network Z Z := Eval vm_compute in ok_net (cellular_automaton2d 4 4 1 "Moore" false).
Example C24_nonvacuous :
  g_rule g_xor = Some (stateless xor_h) /\ g_key g_xor = None /\ net_rot ring5 <> None /\ (forall x y : ctx0, x_nacts x = x_nacts y -> xor_h x = xor_h y) /\
  net_rot ring5u = None /\ (forall x y : ctx0, Permutation (x_nacts x) (x_nacts y) -> xor_h x = xor_h y) /\
  exists r, evolve W0 9 0 ring5 start5 (Some 6) None (set_memo g_xor true) = Ok r.
Proof.
  splits; try discriminate; try reflexivity.
  - intros x y E. unfold xor_h. rewrite E. reflexivity.
  - intros x y E. unfold xor_h. rewrite (zsum_perm _ _ E). reflexivity.
  - eexists. vm_compute. reflexivity.
Qed.
(** Game of Life depends on the node's own activity, which the unordered key does not show *)
Theorem C24_game_of_life_refuted : exists n l, net_rot n = None /\ let g := base (Some (stateless gol_h)) None None [] ACTIVITIES_FIRST true in
  exists r r', evolve W0 9 0 n (Some (CList l)) (Some 2) None (set_memo g false) = Ok r /\
               evolve W0 9 0 n (Some (CList l)) (Some 2) None (set_memo g true) = Ok r' /\ snd r <> snd r'.
Proof.
  exists moore33, [1;1;0;0;0;0;0;1;0;0;0;0;1;0;1;0]. split; [reflexivity|]. eexists; eexists. split; [vm_compute; reflexivity|]. split; [vm_compute; reflexivity|].
  cbn. discriminate.
Qed.
Print Assumptions C24_game_of_life_refuted.
(** nor may the rule keep state: here it returns the number of its invocations so far *)
Theorem C24_stateful_refuted : exists n l (r0 : @rule Z Z Z Z Z), (forall u x y, r0 u x = r0 u y) /\
  let g := base (Some r0) None None [] ACTIVITIES_FIRST true in
  exists r r', evolve W0 9 0 n (Some (CList l)) (Some 2) None (set_memo g false) = Ok r /\
               evolve W0 9 0 n (Some (CList l)) (Some 2) None (set_memo g true) = Ok r' /\ snd r <> snd r'.
Proof.
  exists pair_net, [0; 0], (fun u x => Ok (u + 1, mkOut u [] [])). split; [reflexivity|]. eexists; eexists. split; [vm_compute; reflexivity|]. split; [vm_compute; reflexivity|].
  cbn. discriminate.
Qed.
Print Assumptions C24_stateful_refuted.

(** C25: nodes with an even label spawn a node linked to themselves, odd ones die *)
Definition spawn : @rule Z Z Z Z Z := fun u x =>
  if Z.even (x_label x) then Ok (u + 2, mkOut (x_cur x) [(x_cur x + 1, [(x_label x, [])], u)] []) else Ok (u, mkOut 0 [] [x_label x]).
Definition g_spawn := base (Some spawn) None None [] ACTIVITIES_FIRST true.
Lemma spawn_links k a b : links_ok W0 g_spawn k a b.
Proof.
  intros past inp u ks u' Hact. unfold activities_step in Hact. cbn [g_spawn base g_rule g_pert] in Hact. destruct Hact as (Hf & Hc & _).
  assert (Hin : forall c, In c ks -> In (x_label (k_ctx c)) (nodes (h_net a))).
  { destruct (calls_ctx _ _ _ _ _ _ _ _ Hf) as [<- _]. intros c Hc'. apply (in_map (fun c => x_label (k_ctx c))). assumption. }
  assert (Hlab : forall c, In c ks -> (forall w, In w (o_removed (k_out c)) -> Z.even w = false) /\
     (forall x, In x (o_added (k_out c)) -> Z.even (x_label (k_ctx c)) = true /\ snd (fst x) = [(x_label (k_ctx c), [])])).
  { clear - Hc. induction Hc as [|? ? ? ? x o ? ks Er _ _ IH]; intros c Hin; [contradiction|]. destruct Hin as [<-|Hin]; [|apply IH; assumption].
    cbn [k_ctx k_out]. unfold spawn in Er. destruct (Z.even (x_label x)) eqn:Ev; injection Er as _ <-; cbn [o_removed o_added].
    - split; [intros w []|]. intros y [<-|[]]. auto.
    - split; [intros w [<-|[]]; assumption|]. intros y []. }
  intros y w Hy Hw. unfold added_of in Hy. apply in_flat_map in Hy. destruct Hy as (c & Hc' & Hy). destruct (proj2 (Hlab c Hc') y Hy) as [Hev Hl].
  rewrite Hl in Hw. cbn in Hw. destruct Hw as [<-|[]]. left. split; [apply Hin; assumption|]. intros Hr. unfold removed_of in Hr. apply in_flat_map in Hr.
  destruct Hr as (c2 & Hc2 & Hr). rewrite (proj1 (Hlab c2 Hc2) _ Hr) in Hev. discriminate.
Qed.
Example C25_nonvacuous :
  (forall u x u' o w, spawn u x = Ok (u', o) -> In w (o_removed o) -> w = x_label x) /\ (forall k a b, links_ok W0 g_spawn k a b) /\
  shown (evolve W0 9 10 ring5u start5 (Some 3) None g_spawn) = Ok
    [(Some [(0, 0); (1, 0); (2, 1); (3, 0); (4, 0)], Some [0; 1; 4; 2; 3]);
     (Some [(0, 0); (4, 0); (2, 1); (10, 1); (12, 1); (14, 2)], Some [0; 4; 2; 10; 12; 14]);
     (Some [(0, 0); (4, 0); (2, 1); (10, 1); (12, 1); (14, 2); (16, 1); (18, 1); (20, 2); (22, 2); (24, 2); (26, 3)],
      Some [0; 4; 2; 10; 12; 14; 16; 18; 20; 22; 24; 26])].
Proof.
  split; [|split; [exact spawn_links|vm_compute; reflexivity]].
  intros u x u' o w E. unfold spawn in E. destruct (Z.even (x_label x)); injection E as _ <-; cbn; [tauto|]. intros [<-|[]]. reflexivity.
Qed.
(** node 0 removes node 1: the activity of node 1 is recorded although the node is gone *)
Theorem C25_removed_by_another_refuted : exists n (g : args0) uf traj s m d, evolve W0 9 0 n (Some (CList [0; 0])) (Some 2) None g = Ok (uf, traj) /\
  nth_error traj 1 = Some s /\ state_network W0 s = Ok (Some m) /\ activities W0 s = Ok (Some d) /\ In 1 (dkeys d) /\ ~ In 1 (nodes m).
Proof.
  exists pair_net, (base (Some (fun u x => Ok (u, mkOut 0 [] (if x_label x =? 0 then [1] else [])))) None None [] ACTIVITIES_FIRST true).
  do 5 eexists. split; [vm_compute; reflexivity|]. split; [reflexivity|]. split; [reflexivity|]. split; [reflexivity|]. split; [cbn; tauto|].
  vm_compute. intuition discriminate.
Qed.
Print Assumptions C25_removed_by_another_refuted.
(** a new node linked to a label that does not exist creates that node, without an activity *)
Theorem C25_dangling_link_refuted : exists n (g : args0) uf traj s m d, evolve W0 9 0 n (Some (CList [0; 0])) (Some 2) None g = Ok (uf, traj) /\
  nth_error traj 1 = Some s /\ state_network W0 s = Ok (Some m) /\ activities W0 s = Ok (Some d) /\ ~ In 9 (dkeys d) /\ In 9 (nodes m) /\
  evolve W0 9 0 n (Some (CList [0; 0])) (Some 3) None g = Err KeyError.
Proof.
  exists pair_net, (base (Some (fun u x => Ok (u, mkOut 0 (if x_label x =? 0 then [(4, [(9, [])], 8)] else []) []))) None None [] ACTIVITIES_FIRST true).
  do 5 eexists. split; [vm_compute; reflexivity|]. split; [reflexivity|]. split; [reflexivity|]. split; [reflexivity|]. split; [vm_compute; intuition discriminate|].
  split; [vm_compute; tauto|vm_compute; reflexivity].
Qed.
Print Assumptions C25_dangling_link_refuted.

(** C26 *)
Example C26_nonvacuous : g_comp g_xor = false /\ g_past g_xor = [] /\
  shown (evolve W0 9 0 ring5 start5 (Some 3) None (set_persist g_xor false true)) =
    Ok [(Some [(0, 0); (1, 0); (2, 1); (3, 0); (4, 0)], Some [0; 1; 4; 2; 3]); (None, Some [0; 1; 4; 2; 3]); (None, Some [0; 1; 4; 2; 3])] /\
  exists r, evolve W0 9 0 ring5 start5 (Some 3) None (set_persist g_xor true true) = Ok r.
Proof. splits; try (vm_compute; reflexivity). eexists. vm_compute. reflexivity. Qed.
(** with past_conditions the rule reads the persisted activities: the unpersisted run raises *)
Theorem C26_past_conditions_refuted : exists n,
  (exists r, evolve W0 9 0 n (Some (CList [3; 4])) (Some 4) None (g_past2 true) = Ok r) /\
  evolve W0 9 0 n (Some (CList [3; 4])) (Some 4) None (set_persist (g_past2 true) false true) = Err TypeError.
Proof. exists pair_net. split; [eexists|]; vm_compute; reflexivity. Qed.
Print Assumptions C26_past_conditions_refuted.

(** C28: an in-place rule *)
Definition mutate : @irule Z Z Z Z := fun u c => Ok (u, fst (add_edge 0 (t_time c) [] (t_net c)), Same).
Definition g_mut o cp := base (Some (stateless deg_h)) None None [] o cp.
Definition seen (r : res (Z * list (network Z Z) * list (@hstate Z Z unit))) : res (list (option (list Z)) * list (list Z)) :=
  ' (_, h, tr) <- r ;; Ok (map (fun s => option_map (fun r => match edges (hget h r) with es => map (fun e => snd (fst e)) es end) (snd s)) tr, map nodes h).
Example C28_nonvacuous : forall o, 
  (exists r, hevolve W0 9 0 pair_net (Some (CList [0; 0])) (Some 2) None (g_mut o true) (Some mutate) = Ok r) /\
  (exists r, hevolve W0 9 0 pair_net (Some (CList [0; 0])) (Some 2) None (g_mut o false) (Some mutate) = Ok r) /\
  (no_insert (g_mut o false)) /\ (forall u c u' n' ret, mutate u c = Ok (u', n', ret) -> ret = Same).
Proof.
  intros o. split; [destruct o; eexists; vm_compute; reflexivity|]. split; [destruct o; eexists; vm_compute; reflexivity|]. split.
  - intros r u x u' o' Er Eo. cbn in Er. injection Er as <-. cbn in Eo. injection Eo as _ <-. auto.
  - intros u c u' n' ret E. unfold mutate in E. congruence.
Qed.
(** with copy the caller's network keeps its two edges; without, it and the first state gain one, and SYNCHRONOUS differs *)
Example C28_aliasing_shown :
  (exists e1 e2 h, seen (hevolve W0 9 0 pair_net (Some (CList [0; 0])) (Some 2) None (g_mut SYNCHRONOUS true) (Some mutate)) = Ok ([Some e1; Some e2], h) /\ length e1 = 2%nat /\ length e2 = 3%nat) /\
  (exists e1 e2 h, seen (hevolve W0 9 0 pair_net (Some (CList [0; 0])) (Some 2) None (g_mut SYNCHRONOUS false) (Some mutate)) = Ok ([Some e1; Some e2], h) /\ length e1 = 3%nat /\ length e2 = 3%nat).
Proof. split; do 3 eexists; (split; [vm_compute; reflexivity|split; reflexivity]). Qed.

(** C27: activities are msgpack values *)
Definition vnet : network val val := Eval vm_compute in fst (add_edge_bidir (VInt 0) (VInt 1) [("weight", VInt 3)] (mkNet [] None)).
Definition v_h (mk : list val -> val) (x : node_ctx val val val unit) : res val := Ok (mk [x_cur x; VInt (x_time x)]).
Definition g_v (mk : list val -> val) : @args val val val unit unit := mkArgs (Some (stateless (v_h mk))) None None [] ACTIVITIES_FIRST true false true true false None.
Definition v_start := Some (CList (L:=val) [VInt 5; VStr "a"]).
Ltac wf_packs := cbn; repeat split; try lia; try (vm_compute; repeat split; discriminate);
  try (repeat constructor; cbn; intros Hx; repeat destruct Hx as [Hx|Hx]; (discriminate || contradiction));
  try (intros k Hx; repeat destruct Hx as [<-|Hx]; (exact I || contradiction)).
Example C27_nonvacuous : exists uf traj, evolve msg_env 5 tt vnet v_start (Some 2) None (set_comp (g_v VTuple) false) = Ok (uf, traj) /\
  (forall s, In s traj ->
     (forall a, activities msg_env s = Ok (Some a) -> packs (VMap a) /\ (g_past (g_v VTuple) = [] \/ everywhere no_tuple (VMap a))) /\
     (forall m, state_network msg_env s = Ok (Some m) -> packs (net_val m) /\ everywhere no_tuple (net_val m))).
Proof.
  eexists; eexists. split; [vm_compute; reflexivity|].
  intros s Hs. repeat destruct Hs as [<-|Hs]; try contradiction; (split; [intros a E; vm_compute in E; injection E as <-; (split; [|left; reflexivity])|intros m E; vm_compute in E; injection E as <-]).
  all: unfold packs; wf_packs.
Qed.
(** a tuple-valued activity comes back as a list, and the rotation system of the network is gone *)
Theorem C27_tuples_and_rotation_refuted : exists uf traj uf' traj' s s' d d' m m',
  let n := mkNet (net_nodes vnet) (Some [(VInt 0, [VInt 1]); (VInt 1, [VInt 0])]) in
  evolve msg_env 5 tt n v_start (Some 2) None (set_comp (g_v VTuple) false) = Ok (uf, traj) /\
  evolve msg_env 5 tt n v_start (Some 2) None (set_comp (g_v VTuple) true) = Ok (uf', traj') /\
  nth_error traj 1 = Some s /\ nth_error traj' 1 = Some s' /\
  activities msg_env s = Ok (Some d) /\ activities msg_env s' = Ok (Some d') /\
  dget d (VInt 0) = Some (VTuple [VInt 5; VInt 1]) /\ dget d' (VInt 0) = Some (VList [VInt 5; VInt 1]) /\
  state_network msg_env s = Ok (Some m) /\ state_network msg_env s' = Ok (Some m') /\ net_rot m <> None /\ net_rot m' = None.
Proof.
  do 10 eexists. cbn zeta. split; [vm_compute; reflexivity|]. split; [vm_compute; reflexivity|]. split; [reflexivity|]. split; [reflexivity|].
  split; [reflexivity|]. split; [vm_compute; reflexivity|]. split; [vm_compute; reflexivity|]. split; [vm_compute; reflexivity|].
  split; [reflexivity|]. split; [vm_compute; reflexivity|]. split; [discriminate|reflexivity].
Qed.
Print Assumptions C27_tuples_and_rotation_refuted.

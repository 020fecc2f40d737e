(** * Runs of evolve with a topology rule and the update order TOPOLOGY_FIRST: progress and the states they visit. *)
From Verif Require Import Py PyFacts ListFacts Network Evolve EvolveSpec EvolveProofs EvolveProofs2 EvolveProofs3 EvolveStatic.
Open Scope string_scope.
Open Scope list_scope.
Open Scope Z_scope.

Section Topo.
  Context {L V A U I BA BN : Type} `{EqD L} `{EqD A}.
  Context (W : env L V A BA BN).
  Notation network := (network L V).
  Notation acts := (dict L A).
  Notation ctx := (node_ctx L V A I).
  Notation args := (@args L V A U I).
  Notation state := (state L V A BA BN).
  Notation rule := (@rule L V A U I).
  Notation memokey := (@memokey L V A I).
  Notation tick := (InStr "__timestep__").

  (** without a neighbourhood map the neighbours are looked up in the network *)
  Lemma node_context_map t inp prev n past v : node_context (I:=I) W t inp prev n past None v = node_context W t inp prev n past (Some (get_neighbourhood_map n)) v.
  Proof.
    unfold node_context. destruct (in_edges n v) as [conn|e] eqn:E; [|reflexivity]. cbn [rbind get_neighbour_labels].
    unfold get_neighbourhood_map. destruct (net_rot n) as [r|]; [reflexivity|].
    assert (Ed : dget (in_neighbours_map n) v = Some (dkeys conn)).
    { unfold in_neighbours_map, in_edges in *. inv_bind E nd End. apply of_opt_inv in End. injection E as <-.
      clear - End. induction (net_nodes n) as [|[k x] d IH]; cbn in *; [discriminate|]. destruct (eqd v k); [injection End as ->; reflexivity|auto]. }
    rewrite Ed. reflexivity.
  Qed.

  Lemma do_rule_map (g : args) (mk : memokey) r t inp u prev tab n past :
    do_activity_rule W g mk r t inp u prev tab n past None = do_activity_rule W g mk r t inp u prev tab n past (Some (get_neighbourhood_map n)).
  Proof.
    unfold do_activity_rule. generalize (mkNst (mk:=mk) u ([] : acts) tab [] []). generalize (nodes n). induction l as [|v l IH]; intros s; [reflexivity|]. cbn [rfold].
    assert (E : node_step W g mk r t inp prev n past None s v = node_step W g mk r t inp prev n past (Some (get_neighbourhood_map n)) s v) by (unfold node_step; rewrite node_context_map; reflexivity).
    rewrite E. clear E. destruct (node_step W g mk r t inp prev n past (Some (get_neighbourhood_map n)) s v) as [s'|e]; cbn [rbind]; [apply IH|reflexivity].
  Qed.

  Definition topo_first (g : args) (h : ctx -> res A) (f : topology_rule) : Prop :=
    g_rule g = Some (stateless h) /\ g_topo g = Some f /\ g_pert g = None /\ g_past g = [] /\ g_order g = TOPOLOGY_FIRST /\ g_copy g = false /\ g_comp g = false /\ g_pact g = true /\ g_pnet g = true /\ g_memo g = false.

  Notation raw_of S := (match S with [] => None | _ => Some (Raw S) end).
  Notation raw_net n := (match net_nodes n with [] => None | _ => Some (Raw n) end).
  Definition shows (s : state) (Sn : acts * network) : Prop := st_act s = raw_of (fst Sn) /\ st_net s = raw_net (snd Sn).

  (** [Inv] holds of every state visited, [Step] of every two consecutive ones *)
  Theorem topo_first_run fuel (u0 : U) n c T (g : args) h f (Inv : acts -> network -> U -> Prop) (Step : acts * network -> acts * network -> Prop) :
    topo_first g h f -> 1 <= T -> (Z.to_nat T <= fuel)%nat -> length (to_dict W c) = net_len n ->
    Inv (to_dict W c) n u0 ->
    (forall t S m u, Inv S m u -> exists u' m', f u (mkTopo m S t) = Ok (u', Some m') /\ nodes m' <> [] /\ NoDup (nodes m') /\ closed m' /\ covers m' S /\
       (forall v x, In v (nodes m') -> ctx_for W m' S t None tick v x -> exists a, h x = Ok a) /\
       (forall S', covers m' S' -> updated W h None m' S t None tick S' -> Inv S' m' u' /\ Step (S, m) (S', m'))) ->
    exists uf traj hs, evolve W fuel u0 n (Some c) (Some T) None g = Ok (uf, traj) /\ Z.of_nat (length hs) = T /\ Forall2 shows traj hs /\
      nth_error hs 0 = Some (to_dict W c, n) /\
      (forall k S m, nth_error hs k = Some (S, m) -> exists u, Inv S m u) /\
      (forall k a b, nth_error hs k = Some a -> nth_error hs (Datatypes.S k) = Some b -> Step a b).
  Proof.
    intros (Hr & Ht & Hp & Hpast & Hord & Hcopy & Hc & Hpa & Hpn & Hm) HT Hfuel Hlen Hinv0 Hstep.
    assert (Hone : forall (mk : memokey) t u S m (tab : list (mk_K mk * A)) traj, Inv S m u -> exists u' S' m' st,
      step W g mk t tick (mkCfg u S m tab None traj) = Ok (mkCfg u' S' m' tab None (traj ++ [st])) /\ shows st (S', m') /\ Inv S' m' u' /\ Step (S, m) (S', m')).
    { intros mk t u S m tab traj Hi. destruct (Hstep t S m u Hi) as (u' & m' & Ef & Hne & Hnd & Hcl & Hcov & Htot & Hnext).
      destruct (sweep_total W g mk (stateless h) t S m' None tab u'
        (fun done u1 curr => u1 = u' /\ map fst curr = done /\ forall v, In v done -> exists x a, ctx_for W m' S t None tick v x /\ h x = Ok a /\ dget curr v = Some a)
        Hm Hp Hcl Hcov) as (s & Es & Ea & Er & Etab & Hu & Hkeys & Hvals).
      + split; [reflexivity|]. split; [reflexivity|intros v []].
      + intros done v rest u1 curr x En (-> & Hk & Hd) Hx. destruct (Htot v x) as [a Eh]; [rewrite En; apply in_or_app; right; left; reflexivity|exact Hx|].
        exists u', a. split; [unfold stateless; rewrite Eh; reflexivity|]. split; [reflexivity|].
        assert (Hnew : ~ In v done) by (rewrite En in Hnd; apply NoDup_remove_2 in Hnd; intros Hin; apply Hnd, in_or_app; left; assumption). split.
        * change (map fst (dset curr v a)) with (dkeys (dset curr v a)). rewrite dkeys_dset. assert (Em : dmem curr v = false) by (apply dmem_false; unfold dkeys; rewrite Hk; assumption). rewrite Em. unfold dkeys. rewrite Hk. reflexivity.
        * intros w Hw. rewrite dget_dset. destruct (eqd w v) as [->|Hwv]; [exists x, a; auto|]. apply in_app_or in Hw. destruct Hw as [Hw|[Hw|[]]]; [auto|congruence].
      + assert (Hupd : updated W h None m' S t None tick (s_curr s)).
        { split; [assumption|]. intros v Hv. destruct (Hvals v Hv) as (x & a & H1 & H2 & H3). exists x, a, a. auto. }
        assert (Hcov' : covers m' (s_curr s)) by (intros v Hv; destruct (Hvals v Hv) as (x & a & _ & _ & E); eauto).
        destruct (Hnext _ Hcov' Hupd) as [Hi' Hst].
        exists u', (s_curr s), m', (mkState (raw_of (s_curr s)) (raw_net m')). split; [|split; [split; reflexivity|auto]].
        unfold step. cbn [c_traj c_u c_act c_net c_tab c_map]. unfold get_past. rewrite Hpast. cbn [rbind]. rewrite Hord.
        unfold evolve_topology. cbn [rbind]. rewrite Ht, Hcopy, Ef. cbn [rbind].
        assert (En : exists p l, net_nodes m' = p :: l) by (unfold nodes, dkeys in Hne; destruct (net_nodes m') as [|p l]; [exfalso; apply Hne; reflexivity|eauto]).
        destruct En as (p & l & En). rewrite En. cbn [rbind].
        unfold record_network. rewrite Hpn, Hc. unfold set_network. rewrite En. cbn [rbind].
        unfold evolve_activities. rewrite Hr, do_rule_map, Es. cbn [rbind]. rewrite Ea. cbn [fold_left s_curr s_added s_removed s_u s_tab].
        unfold record_activities. rewrite Hpa, Hc. unfold set_activities. rewrite Hu, Etab. destruct (s_curr s); reflexivity. }
    assert (Hloop : forall (mk : memokey) k t u S m (tab : list (mk_K mk * A)) traj fuel, t + Z.of_nat k = T -> (k < fuel)%nat -> Inv S m u ->
      exists c' ts hs, loop W g mk (timestep_input T) fuel t (mkCfg u S m tab None traj) = Ok c' /\ length hs = k /\ c_traj c' = traj ++ ts /\ Forall2 shows ts hs /\
        Forall (fun Sm => exists u, Inv (fst Sm) (snd Sm) u) hs /\
        (forall k a b, nth_error ((S, m) :: hs) k = Some a -> nth_error ((S, m) :: hs) (Datatypes.S k) = Some b -> Step a b)).
    { intros mk. induction k as [|k IH]; intros t u S m tab traj fuel' Hk Hfu Hi.
      - destruct fuel' as [|f']; [lia|]. cbn [loop c_u c_act c_net]. unfold timestep_input at 1. destruct (Z.eqb_spec t T); [|lia]. cbn [rbind].
        unfold with_u. cbn [c_act c_net c_tab c_map c_traj]. eexists _, [], []. split; [reflexivity|]. split; [reflexivity|]. split; [cbn [c_traj]; rewrite app_nil_r; reflexivity|]. split; [constructor|]. split; [constructor|].
        intros [|[|k]] a b E1 E2; discriminate.
      - destruct fuel' as [|f']; [lia|]. cbn [loop c_u c_act c_net]. unfold timestep_input at 1. destruct (Z.eqb_spec t T); [lia|]. cbn [rbind].
        unfold with_u at 1. cbn [c_act c_net c_tab c_map c_traj].
        destruct (Hone mk t u S m tab traj Hi) as (u' & S' & m' & st & Estep & Hsh & Hi' & Hst). rewrite Estep. cbn [rbind].
        destruct (IH (t + 1) u' S' m' tab (traj ++ [st]) f') as (c' & ts & hs & El & Hl & Etr & Hf & Hinv & Hch); [lia|lia|assumption|].
        exists c', (st :: ts), ((S', m') :: hs). split; [assumption|]. split; [cbn [length]; lia|]. split; [rewrite Etr, <- app_assoc; reflexivity|]. split; [constructor; assumption|]. split; [constructor; [exists u'; assumption|assumption]|].
        intros [|k'] a b E1 E2; [cbn in E1, E2; congruence|]. apply (Hch k'); assumption. }
    unfold evolve. cbn [get_input_function rbind]. rewrite Hlen, Nat.eqb_refl. cbn [negb andb]. rewrite Hc, Ht.
    assert (Esa : set_activities W false (to_dict W c) = Ok (raw_of (to_dict W c))) by (unfold set_activities; destruct (to_dict W c); reflexivity).
    assert (Esn : set_network W false n = Ok (raw_net n)) by (unfold set_network; destruct (net_nodes n); reflexivity).
    rewrite Esa. cbn [rbind]. rewrite Esn. cbn [rbind].
    destruct (Hloop (match g_key g with Some k => k | None => default_key n end) (Z.to_nat (T - 1)) 1 u0 (to_dict W c) n [] [mkState (raw_of (to_dict W c)) (raw_net n)] fuel)
      as (c' & ts & hs & E & Hl & Etr & Hf & Hi & Hch); [lia|lia|assumption|].
    rewrite E. cbn [rbind]. eexists _, _, ((to_dict W c, n) :: hs). split; [reflexivity|]. split; [cbn [length]; lia|]. split; [rewrite Etr; constructor; [split; reflexivity|assumption]|]. split; [reflexivity|]. split; [|assumption].
    intros [|k] S m Ek; [injection Ek as <- <-; eauto|]. cbn in Ek. apply nth_error_In in Ek. rewrite Forall_forall in Hi. apply (Hi _ Ek).
  Qed.
End Topo.

(** * Runs of [evolve] (ACTIVITIES_FIRST) with any input function, a stateful activity rule that neither adds nor removes nodes, and possibly a topology rule *)
From Verif Require Import Py PyFacts ListFacts Network Evolve EvolveSpec EvolveProofs EvolveProofs2 EvolveProofs3 EvolveStatic EvolveTopo TopoRun.
Open Scope string_scope.
Open Scope list_scope.
Open Scope Z_scope.

Section Driven.
  Context {L V A U I BA BN : Type} `{EqD L} `{EqD A}.
  Context (W : env L V A BA BN).
  Notation network := (network L V).
  Notation acts := (dict L A).
  Notation ctx := (node_ctx L V A I).
  Notation args := (@args L V A U I).
  Notation state := (state L V A BA BN).
  Notation rule := (@rule L V A U I).
  Notation memokey := (@memokey L V A I).
  Notation raw_of S := (match S with [] => None | _ => Some (Raw S) end).
  Notation raw_net n := (match net_nodes n with [] => None | _ => Some (Raw n) end).

  (** the input gives every node something *)
  Definition input_ok (i : inval I) (n : network) : Prop := forall v, In v (nodes n) -> exists ni, node_input W i v = Ok ni.

  Lemma node_context_in t i prev n past v : closed n -> covers n prev -> input_ok i n -> In v (nodes n) ->
    exists x : ctx, node_context W t i prev n past (Some (get_neighbourhood_map n)) v = Ok x /\ ctx_for W n prev t past i v x.
  Proof.
    intros Hc Hcov Hin Hv. destruct (node_context_total (I:=I) W t prev n past v Hc Hcov Hv) as (x & Ex & _).
    assert (E : exists x' : ctx, node_context W t i prev n past (Some (get_neighbourhood_map n)) v = Ok x').
    { unfold node_context in *. destruct (in_edges n v) as [conn|]; [|discriminate]. cbn [rbind] in *. destruct (get_neighbour_labels v (Some (get_neighbourhood_map n)) n conn) as [nb|]; [|discriminate]. cbn [rbind] in *.
      destruct (of_opt KeyError (dget prev v)); [|discriminate]. cbn [rbind] in *. destruct (rmap (fun w => of_opt KeyError (dget prev w)) nb); [|discriminate]. cbn [rbind] in *.
      destruct (Hin v Hv) as [ni ->]. cbn [rbind]. eexists. reflexivity. }
    destruct E as [x' Ex']. exists x'. split; [exact Ex'|]. eapply node_context_ok; [|exact Ex']. reflexivity.
  Qed.

  (** a sweep over the nodes; [J done u curr] holds after the nodes [done] were updated *)
  Lemma sweep_in (g : args) (mk : memokey) (r : rule) t i prev n past (tab : list (mk_K mk * A)) (u : U) (J : list L -> U -> acts -> Prop) :
    g_memo g = false -> g_pert g = None -> closed n -> covers n prev -> input_ok i n ->
    J [] u [] ->
    (forall done v rest u curr x, nodes n = done ++ v :: rest -> J done u curr -> ctx_for W n prev t past i v x ->
       exists u' a, r u x = Ok (u', mkOut a [] []) /\ J (done ++ [v]) u' (dset curr v a)) ->
    exists s, do_activity_rule W g mk r t i u prev tab n past (Some (get_neighbourhood_map n)) = Ok s /\
      s_added s = [] /\ s_removed s = [] /\ s_tab s = tab /\ J (nodes n) (s_u s) (s_curr s).
  Proof.
    intros Hm Hp Hc Hcov Hin HJ Hstep. unfold do_activity_rule.
    assert (Hg : forall rest done s, nodes n = done ++ rest -> s_added s = [] -> s_removed s = [] -> s_tab s = tab -> J done (s_u s) (s_curr s) ->
      exists s', rfold (node_step W g mk r t i prev n past (Some (get_neighbourhood_map n))) rest s = Ok s' /\
        s_added s' = [] /\ s_removed s' = [] /\ s_tab s' = tab /\ J (nodes n) (s_u s') (s_curr s')).
    { induction rest as [|v rest IH]; intros done s En Ha Hr Ht Hj.
      - rewrite app_nil_r in En. exists s. rewrite En. auto.
      - cbn [rfold]. destruct (node_context_in t i prev n past v Hc Hcov Hin) as (x & Ex & Hx); [rewrite En; apply in_or_app; right; left; reflexivity|].
        destruct (Hstep done v rest (s_u s) (s_curr s) x En Hj Hx) as (u' & a & Er & Hj').
        unfold node_step at 1. rewrite Ex. cbn [rbind]. unfold apply_rule. rewrite Hm, Er. cbn [rbind o_added o_removed o_act existsb]. rewrite Hp. cbn [rbind].
        apply (IH (done ++ [v])); cbn [s_added s_removed s_tab s_u s_curr]; try (rewrite app_nil_r); try assumption.
        rewrite <- app_assoc. exact En. }
    apply (Hg (nodes n) []); auto.
  Qed.

  (** a sweep that raises at node [v]; the nodes before it were updated *)
  Lemma sweep_raises (g : args) (mk : memokey) (r : rule) t i prev n past (tab : list (mk_K mk * A)) (u : U) done v rest (J : list L -> U -> Prop) e :
    g_memo g = false -> g_pert g = None -> closed n -> covers n prev -> input_ok i n -> nodes n = done ++ v :: rest ->
    J [] u ->
    (forall pre w post u x, done = pre ++ w :: post -> J pre u -> ctx_for W n prev t past i w x -> exists u' a, r u x = Ok (u', mkOut a [] []) /\ J (pre ++ [w]) u') ->
    (forall u x, J done u -> ctx_for W n prev t past i v x -> r u x = Err e) ->
    do_activity_rule W g mk r t i u prev tab n past (Some (get_neighbourhood_map n)) = Err e.
  Proof.
    intros Hm Hp Hc Hcov Hin En HJ Hstep Herr. unfold do_activity_rule. rewrite En.
    assert (Hg : forall post pre s, done = pre ++ post -> J pre (s_u s) ->
      rfold (node_step W g mk r t i prev n past (Some (get_neighbourhood_map n))) (post ++ v :: rest) s = Err e).
    { induction post as [|w post IH]; intros pre s Ed Hj.
      - rewrite app_nil_r in Ed. subst pre. cbn [app rfold]. destruct (node_context_in t i prev n past v Hc Hcov Hin) as (x & Ex & Hx); [rewrite En; apply in_or_app; right; left; reflexivity|].
        unfold node_step at 1. rewrite Ex. cbn [rbind]. unfold apply_rule. rewrite Hm, (Herr _ x Hj Hx). reflexivity.
      - cbn [app rfold]. destruct (node_context_in t i prev n past w Hc Hcov Hin) as (x & Ex & Hx); [rewrite En, Ed; apply in_or_app; left; apply in_or_app; right; left; reflexivity|].
        destruct (Hstep pre w post (s_u s) x Ed Hj Hx) as (u' & a & Er & Hj').
        unfold node_step at 1. rewrite Ex. cbn [rbind]. unfold apply_rule. rewrite Hm, Er. cbn [rbind o_added o_removed o_act existsb]. rewrite Hp. cbn [rbind].
        apply (IH (pre ++ [w])); [rewrite <- app_assoc; exact Ed|exact Hj']. }
    apply (Hg done []); auto.
  Qed.

  Definition driven (g : args) (r : rule) : Prop :=
    g_rule g = Some r /\ g_pert g = None /\ g_past g = [] /\ g_order g = ACTIVITIES_FIRST /\ g_comp g = false /\ g_pact g = true /\ g_pnet g = true /\ g_memo g = false.

  Definition map_for (g : args) (n : network) : option (dict L (list L)) := match g_topo g with None => Some (get_neighbourhood_map n) | Some _ => None end.
  Lemma topo_none_same (g : args) t u S m u' m' : g_topo g = None -> evolve_topology W g t u S m [] [] = Ok (u', m') -> m' = m.
  Proof. intros E. unfold evolve_topology. rewrite E. cbn [rbind]. congruence. Qed.

  Theorem driven_run fuel (u0 : U) n c T ts inp infn (g : args) r (Inv Fin : list (acts * network) -> U -> Prop) :
    driven g r -> get_input_function ts inp = Ok infn -> 1 <= T -> (Z.to_nat T <= fuel)%nat -> length (to_dict W c) = net_len n ->
    Inv [(to_dict W c, n)] u0 ->
    (forall hist S m u, Inv (hist ++ [(S, m)]) u -> Z.of_nat (length hist) + 1 = T -> exists u', infn u T S m = Ok (u', None) /\ Fin (hist ++ [(S, m)]) u') ->
    (forall hist S m u, Inv (hist ++ [(S, m)]) u -> let t := Z.of_nat (length hist) + 1 in t < T ->
       exists u1 i, infn u t S m = Ok (u1, Some i) /\ forall (mk : memokey) (tab : list (mk_K mk * A)), exists s u2 m',
         do_activity_rule W g mk r t i u1 S tab m None (Some (get_neighbourhood_map m)) = Ok s /\ s_added s = [] /\ s_removed s = [] /\
         evolve_topology W g t (s_u s) (s_curr s) m [] [] = Ok (u2, m') /\ Inv ((hist ++ [(S, m)]) ++ [(s_curr s, m')]) u2) ->
    exists uf traj hs, evolve W fuel u0 n (Some c) ts inp g = Ok (uf, traj) /\ Z.of_nat (length hs) = T /\
      Forall2 (fun s Sm => activities W s = Ok (shown_acts (fst Sm)) /\ state_network W s = Ok (shown_net (snd Sm))) traj hs /\ Fin hs uf.
  Proof.
    intros (Hr & Hp & Hpast & Hord & Hc & Hpa & Hpn & Hm) Hin HT Hfuel Hlen Hinv0 Hend Hstep.
    assert (Hloop : forall (mk : memokey) k t u S m (tab : list (mk_K mk * A)) hist traj fuel, t + Z.of_nat k = T -> (k < fuel)%nat -> Z.of_nat (length hist) + 1 = t ->
      Inv (hist ++ [(S, m)]) u -> Forall2 (shows (BA:=BA) (BN:=BN)) traj (hist ++ [(S, m)]) ->
      exists c' hs, loop W g mk infn fuel t (mkCfg u S m tab (map_for g m) traj) = Ok c' /\ Z.of_nat (length hs) = T /\ Forall2 (shows (BA:=BA) (BN:=BN)) (c_traj c') hs /\ Fin hs (c_u c')).
    { intros mk. induction k as [|k IH]; intros t u S m tab hist traj fuel' Hk Hfu Hh Hi Hf.
      - destruct fuel' as [|f']; [lia|]. cbn [loop c_u c_act c_net]. destruct (Hend hist S m u Hi ltac:(lia)) as (u' & Ei & HF). replace t with T in * by lia. rewrite Ei. cbn [rbind].
        unfold with_u. cbn [c_act c_net c_tab c_map c_traj]. eexists. exists (hist ++ [(S, m)]). split; [reflexivity|]. split; [rewrite app_length; cbn [length]; lia|]. auto.
      - destruct fuel' as [|f']; [lia|]. cbn [loop c_u c_act c_net]. destruct (Hstep hist S m u Hi ltac:(lia)) as (u1 & i & Ei & Hsw). rewrite Hh in *. rewrite Ei. cbn [rbind].
        destruct (Hsw mk tab) as (s & u2 & m' & Es & Ea & Er & Et & Hi').
        assert (Estep : exists st, step W g mk t i (with_u (mkCfg u S m tab (map_for g m) traj) u1) = Ok (mkCfg u2 (s_curr s) m' (s_tab s) (map_for g m') (traj ++ [st])) /\ shows st (s_curr s, m')).
        { exists (mkState (raw_of (s_curr s)) (raw_net m')). split; [|split; reflexivity]. unfold with_u. cbn [c_act c_net c_tab c_map c_traj]. unfold step. cbn [c_traj c_u c_act c_net c_tab c_map]. unfold get_past. rewrite Hpast. cbn [rbind]. rewrite Hord.
          unfold evolve_activities. rewrite Hr. replace (do_activity_rule W g mk r t i u1 S tab m None (map_for g m)) with (do_activity_rule W g mk r t i u1 S tab m None (Some (get_neighbourhood_map m))).
          2: { unfold map_for. destruct (g_topo g); [symmetry; apply do_rule_map|reflexivity]. }
          rewrite Es. cbn [rbind]. rewrite Ea, Er. cbn [fold_left s_curr s_added s_removed s_u s_tab].
          unfold record_activities. rewrite Hpa, Hc. unfold set_activities. assert (Emap : map_for g m = map_for g m').
          { unfold map_for. destruct (g_topo g) eqn:Eg; [reflexivity|]. rewrite (topo_none_same _ _ _ _ _ _ _ Eg Et). reflexivity. }
          rewrite Emap. destruct (s_curr s) as [|p l]; cbn [rbind]; rewrite Et; cbn [rbind]; unfold record_network; rewrite Hpn, Hc; unfold set_network; destruct (net_nodes m'); cbn [rbind]; reflexivity. }
        destruct Estep as (st & Estep & Hsh). rewrite Estep. cbn [rbind].
        apply (IH (t + 1) u2 (s_curr s) m' (s_tab s) (hist ++ [(S, m)]) (traj ++ [st]) f'); try lia; try assumption.
        + rewrite app_length; cbn [length]; lia.
        + apply Forall2_app; [assumption|]. constructor; [exact Hsh|constructor]. }
    unfold evolve. rewrite Hin. cbn [rbind]. rewrite Hlen, Nat.eqb_refl. cbn [negb andb]. rewrite Hc.
    assert (Esa : set_activities W false (to_dict W c) = Ok (raw_of (to_dict W c))) by (unfold set_activities; destruct (to_dict W c); reflexivity).
    assert (Esn : set_network W false n = Ok (raw_net n)) by (unfold set_network; destruct (net_nodes n); reflexivity).
    rewrite Esa. cbn [rbind]. rewrite Esn. cbn [rbind].
    destruct (Hloop (match g_key g with Some k => k | None => default_key n end) (Z.to_nat (T - 1)) 1 u0 (to_dict W c) n [] [] [mkState (raw_of (to_dict W c)) (raw_net n)] fuel)
      as (c' & hs & E & Hl & Hf & HF); try lia; try assumption; [reflexivity|constructor; [split; reflexivity|constructor]|].
    fold (map_for g n). rewrite E. cbn [rbind]. exists (c_u c'), (c_traj c'), hs. split; [reflexivity|]. split; [exact Hl|]. split; [|exact HF].
    eapply Forall2_impl; [|exact Hf]. intros s [S m] [E1 E2]. cbn [fst snd] in *. unfold activities, state_network, shown_acts, shown_net, nodes. rewrite E1, E2. split; [destruct S|destruct (net_nodes m)]; reflexivity.
  Qed.

  (** the first timestep raises *)
  Theorem driven_raises fuel (u0 : U) n c ts inp infn (g : args) r u1 i e :
    driven g r -> get_input_function ts inp = Ok infn -> (1 <= fuel)%nat -> length (to_dict W c) = net_len n ->
    infn u0 1 (to_dict W c) n = Ok (u1, Some i) ->
    (forall (mk : memokey) (tab : list (mk_K mk * A)), do_activity_rule W g mk r 1 i u1 (to_dict W c) tab n None (Some (get_neighbourhood_map n)) = Err e) ->
    evolve W fuel u0 n (Some c) ts inp g = Err e.
  Proof.
    intros (Hr & Hp & Hpast & Hord & Hc & Hpa & Hpn & Hm) Hin Hfuel Hlen Ei Hsw.
    unfold evolve. rewrite Hin. cbn [rbind]. rewrite Hlen, Nat.eqb_refl. cbn [negb andb]. rewrite Hc.
    assert (Esa : set_activities W false (to_dict W c) = Ok (raw_of (to_dict W c))) by (unfold set_activities; destruct (to_dict W c); reflexivity).
    assert (Esn : set_network W false n = Ok (raw_net n)) by (unfold set_network; destruct (net_nodes n); reflexivity).
    rewrite Esa. cbn [rbind]. rewrite Esn. cbn [rbind]. destruct fuel as [|f]; [lia|]. cbn [loop c_u c_act c_net]. rewrite Ei. cbn [rbind].
    unfold with_u, step. cbn [c_traj c_u c_act c_net c_tab c_map]. unfold get_past. rewrite Hpast. cbn [rbind]. rewrite Hord. unfold evolve_activities. rewrite Hr.
    destruct (g_topo g); [rewrite do_rule_map|]; rewrite Hsw; reflexivity.
  Qed.
End Driven.

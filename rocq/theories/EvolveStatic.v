(** * Runs of evolve on a network that does not change: progress (no exception) and the states they visit. *)
From Verif Require Import Py PyFacts ListFacts Network Evolve EvolveSpec EvolveProofs EvolveProofs2 EvolveProofs3.
Open Scope string_scope.
Open Scope list_scope.
Open Scope Z_scope.

Lemma skipn_nth {X} (l : list X) m i : nth_error (skipn m l) i = nth_error l (m + i).
Proof. revert l. induction m as [|m IH]; intros l; [reflexivity|]. destruct l; [destruct i; reflexivity|]. apply IH. Qed.
Lemma firstn_snoc {X} (l : list X) i x : nth_error l i = Some x -> firstn (S i) l = firstn i l ++ [x].
Proof.
  revert l. induction i as [|i IH]; intros [|y l] E; try discriminate; cbn in *; [injection E as <-; reflexivity|]. f_equal. apply IH. assumption.
Qed.
Lemma Forall2_at {X Y} (P : X -> Y -> Prop) l l' k x y : Forall2 P l l' -> nth_error l k = Some x -> nth_error l' k = Some y -> P x y.
Proof. intros Hf. revert k. induction Hf; intros [|k] E1 E2; try discriminate; cbn in *; [congruence|eauto]. Qed.

Section Static.
  Context {L V A U I BA BN : Type} `{EqD L} `{EqD A}.
  Context (W : env L V A BA BN).
  Notation network := (network L V).
  Notation acts := (dict L A).
  Notation ctx := (node_ctx L V A I).
  Notation args := (@args L V A U I).
  Notation state := (state L V A BA BN).
  Notation rule := (@rule L V A U I).
  Notation memokey := (@memokey L V A I).

  (** every node has in-edges and a neighbourhood, and its neighbours are nodes *)
  Definition closed (n : network) : Prop := forall v, In v (nodes n) ->
    exists conn l, in_edges n v = Ok conn /\ nbrs_of n v l /\ incl l (nodes n).
  (** every node has an activity *)
  Definition covers (n : network) (S : acts) : Prop := forall v, In v (nodes n) -> exists a, dget S v = Some a.

  (** [past_activities] when the states so far are [hist] (the last one is the current state) and the past conditions [pc] *)
  Definition past_of (pc : list (cond L A)) (hist : list acts) : option (list (option acts)) :=
    match pc with
    | [] => None
    | _ => Some (skipn (length hist - 1) (map (fun c => Some (to_dict W c)) pc ++ map shown_acts (removelast hist)))
    end.

  Notation tick := (InStr "__timestep__").

  Lemma node_context_total t prev n past v : closed n -> covers n prev -> In v (nodes n) ->
    exists x : ctx, node_context W t tick prev n past (Some (get_neighbourhood_map n)) v = Ok x /\ ctx_for W n prev t past tick v x.
  Proof.
    intros Hc Hcov Hv. destruct (Hc v Hv) as (conn & l & Econn & Hl & Hincl).
    assert (E : exists x : ctx, node_context W t tick prev n past (Some (get_neighbourhood_map n)) v = Ok x).
    { unfold node_context. rewrite Econn. cbn [rbind get_neighbour_labels].
      assert (Ed : dget (get_neighbourhood_map n) v = Some l).
      { unfold get_neighbourhood_map, nbrs_of in *. destruct (net_rot n) as [r|]; [assumption|]. destruct Hl as (inc & Ei & ->).
        unfold in_neighbours_map, in_edges in *. inv_bind Ei nd End. apply of_opt_inv in End. injection Ei as <-.
        clear - End. induction (net_nodes n) as [|[k x] d IH]; cbn in *; [discriminate|]. destruct (eqd v k); [injection End as ->; reflexivity|auto]. }
      rewrite Ed. cbn [of_opt rbind]. destruct (Hcov v Hv) as [a Ea]. rewrite Ea. cbn [of_opt rbind].
      assert (Er : exists na, rmap (fun w => of_opt KeyError (dget prev w)) l = Ok na).
      { clear Ed Hl. induction l as [|w l IH]; [exists []; reflexivity|]. destruct IH as [na Ena]; [intros y Hy; apply Hincl; right; assumption|].
        destruct (Hcov w (Hincl w (or_introl eq_refl))) as [b Eb]. exists (b :: na). cbn. rewrite Eb. cbn. rewrite Ena. reflexivity. }
      destruct Er as [na ->]. cbn [rbind]. eexists. reflexivity. }
    destruct E as [x Ex]. exists x. split; [assumption|]. eapply node_context_ok; [|exact Ex]. reflexivity.
  Qed.

  (** a sweep over the nodes; [J done u curr] holds after the nodes [done] were updated *)
  Lemma sweep_total (g : args) (mk : memokey) (r : rule) t prev n past (tab : list (mk_K mk * A)) (u : U) (J : list L -> U -> acts -> Prop) :
    g_memo g = false -> g_pert g = None -> closed n -> covers n prev ->
    J [] u [] ->
    (forall done v rest u curr x, nodes n = done ++ v :: rest -> J done u curr -> ctx_for W n prev t past tick v x ->
       exists u' a, r u x = Ok (u', mkOut a [] []) /\ J (done ++ [v]) u' (dset curr v a)) ->
    exists s, do_activity_rule W g mk r t tick u prev tab n past (Some (get_neighbourhood_map n)) = Ok s /\
      s_added s = [] /\ s_removed s = [] /\ s_tab s = tab /\ J (nodes n) (s_u s) (s_curr s).
  Proof.
    intros Hm Hp Hc Hcov HJ Hstep. unfold do_activity_rule.
    assert (Hg : forall rest done s, nodes n = done ++ rest -> s_added s = [] -> s_removed s = [] -> s_tab s = tab -> J done (s_u s) (s_curr s) ->
      exists s', rfold (node_step W g mk r t tick prev n past (Some (get_neighbourhood_map n))) rest s = Ok s' /\
        s_added s' = [] /\ s_removed s' = [] /\ s_tab s' = tab /\ J (nodes n) (s_u s') (s_curr s')).
    { induction rest as [|v rest IH]; intros done s En Ha Hr Ht Hj.
      - rewrite app_nil_r in En. exists s. rewrite En. auto.
      - cbn [rfold]. destruct (node_context_total t prev n past v Hc Hcov) as (x & Ex & Hx); [rewrite En; apply in_or_app; right; left; reflexivity|].
        destruct (Hstep done v rest (s_u s) (s_curr s) x En Hj Hx) as (u' & a & Er & Hj').
        unfold node_step at 1. rewrite Ex. cbn [rbind]. unfold apply_rule. rewrite Hm, Er. cbn [rbind o_added o_removed o_act existsb]. rewrite Hp. cbn [rbind].
        apply (IH (done ++ [v])); cbn [s_added s_removed s_tab s_u s_curr]; try (rewrite app_nil_r); try assumption.
        rewrite <- app_assoc. exact En. }
    apply (Hg (nodes n) []); auto.
  Qed.

  Definition static (g : args) (r : rule) : Prop :=
    g_rule g = Some r /\ g_topo g = None /\ g_pert g = None /\ g_memo g = false /\ g_comp g = false /\ g_pact g = true.

  Definition raw (n : network) (pn : bool) (S : acts) : state :=
    mkState (match S with [] => None | _ => Some (Raw S) end) (if pn then match net_nodes n with [] => None | _ => Some (Raw n) end else None).

  Lemma past_total (g : args) traj hist t : hist <> [] -> Z.of_nat (length hist) = t ->
    Forall2 (fun s S => st_act s = match S with [] => None | _ => Some (Raw S) end) traj hist ->
    get_past W g traj t = Ok (past_of (g_past g) hist).
  Proof.
    intros Hne Ht Hf.
    set (full := map (fun c => Some (to_dict W c)) (g_past g) ++ map shown_acts (removelast hist)).
    assert (Hlf : length full = (length (g_past g) + (length hist - 1))%nat).
    { unfold full. rewrite app_length, !map_length. f_equal. destruct (exists_last Hne) as (h' & x & ->). rewrite removelast_last, app_length. cbn. lia. }
    assert (Hentry : forall k, (k < length full)%nat -> exists e, nth_error full k = Some e /\
               past_entry W g traj (Z.of_nat k - Z.of_nat (length (g_past g)) + 1) = Ok e).
    { intros k Hk. unfold past_entry. destruct (Z.ltb_spec (Z.of_nat k - Z.of_nat (length (g_past g)) + 1) 1).
      - destruct (nth_error (g_past g) k) as [c|] eqn:Ec; [|apply nth_error_None in Ec; lia]. exists (Some (to_dict W c)). split.
        + unfold full. rewrite nth_error_app1 by (rewrite map_length; lia). rewrite nth_error_map, Ec. reflexivity.
        + unfold py_nth, py_index. destruct (Z.leb_spec 0 (Z.of_nat k - Z.of_nat (length (g_past g)) + 1 - 1)); [lia|].
          destruct (Z.leb_spec (- Z.of_nat (length (g_past g))) (Z.of_nat k - Z.of_nat (length (g_past g)) + 1 - 1)); [|lia].
          cbn [andb]. match goal with |- context[?q <? 0] => destruct (Z.ltb_spec q 0); [|lia] end.
          replace (Z.to_nat (Z.of_nat k - Z.of_nat (length (g_past g)) + 1 - 1 + Z.of_nat (length (g_past g)))) with k by lia. rewrite Ec. reflexivity.
      - set (j := (k - length (g_past g))%nat). replace (Z.of_nat k - Z.of_nat (length (g_past g)) + 1 - 1) with (Z.of_nat j) by lia.
        pose proof (Forall2_len _ _ _ Hf) as Hlt.
        assert (Hj : (j < length hist - 1)%nat) by lia.
        destruct (nth_error hist j) as [S|] eqn:Ej; [|apply nth_error_None in Ej; lia].
        destruct (nth_error traj j) as [s|] eqn:Es; [|apply nth_error_None in Es; lia].
        exists (shown_acts S). split.
        + unfold full. rewrite nth_error_app2 by (rewrite map_length; lia). rewrite map_length, nth_error_map. fold j.
          destruct (exists_last Hne) as (h' & x & Eh). rewrite Eh in *. rewrite removelast_last. rewrite app_length in Hj. cbn in Hj.
          rewrite nth_error_app1 in Ej by lia. rewrite Ej. reflexivity.
        + unfold py_nth, py_index. destruct (Z.leb_spec 0 (Z.of_nat j)); [|lia]. destruct (Z.ltb_spec (Z.of_nat j) (Z.of_nat (length traj))); [|lia].
          cbn [andb]. rewrite Nat2Z.id, Es. cbn [of_opt rbind]. unfold activities.
          assert (Est : st_act s = match S with [] => None | _ => Some (Raw S) end) by exact (Forall2_at _ _ _ _ _ _ Hf Es Ej).
          rewrite Est. destruct S; reflexivity. }
    assert (Hloop : forall i acc, (i <= length (g_past g))%nat ->
      past_loop W g traj i (Z.of_nat (length hist - 1 + i) - Z.of_nat (length (g_past g))) acc =
      Ok (firstn i (skipn (length hist - 1) full) ++ acc)).
    { induction i as [|i IH]; intros acc Hi; [reflexivity|]. cbn [past_loop].
      destruct (Hentry (length hist - 1 + i)%nat ltac:(lia)) as (e & Ee & Ep).
      replace (Z.of_nat (length hist - 1 + Datatypes.S i) - Z.of_nat (length (g_past g))) with (Z.of_nat (length hist - 1 + i) - Z.of_nat (length (g_past g)) + 1) by lia.
      rewrite Ep. cbn [rbind].
      replace (Z.of_nat (length hist - 1 + i) - Z.of_nat (length (g_past g)) + 1 - 1) with (Z.of_nat (length hist - 1 + i) - Z.of_nat (length (g_past g))) by lia.
      rewrite IH by lia. f_equal. change (e :: acc) with ([e] ++ acc). rewrite app_assoc. f_equal.
      assert (Es : nth_error (skipn (length hist - 1) full) i = Some e) by (rewrite skipn_nth; exact Ee).
      symmetry. apply firstn_snoc. assumption. }
    specialize (Hloop (length (g_past g)) [] (le_n _)).
    replace (Z.of_nat (length hist - 1 + length (g_past g)) - Z.of_nat (length (g_past g))) with (t - 1) in Hloop by (destruct hist; [congruence|cbn [length] in *; lia]).
    rewrite firstn_all2, app_nil_r in Hloop by (rewrite skipn_length; lia).
    unfold get_past, past_of. destruct (g_past g) as [|c0 pc0]; [reflexivity|]. rewrite Hloop. reflexivity.
  Qed.

  Notation raw_of S := (match S with [] => None | _ => Some (Raw S) end).

  Lemma static_step (g : args) (mk : memokey) r t inp u S n (tab : list (mk_K mk * A)) hist traj (s : nst mk) :
    static g r -> Forall2 (fun s S => st_act s = raw_of S) traj (hist ++ [S]) -> Z.of_nat (length hist) + 1 = t ->
    do_activity_rule W g mk r t inp u S tab n (past_of (g_past g) (hist ++ [S])) (Some (get_neighbourhood_map n)) = Ok s ->
    s_added s = [] -> s_removed s = [] ->
    exists st, step W g mk t inp (mkCfg u S n tab (Some (get_neighbourhood_map n)) traj) =
      Ok (mkCfg (s_u s) (s_curr s) n (s_tab s) (Some (get_neighbourhood_map n)) (traj ++ [st])) /\ st_act st = raw_of (s_curr s).
  Proof.
    intros (Hr & Ht & Hp & Hm & Hc & Hpa) Hf Hl E Ea Er. unfold step. cbn [c_traj c_u c_act c_net c_tab c_map].
    rewrite (past_total g traj (hist ++ [S]) t) by (solve [assumption|destruct hist; discriminate|rewrite app_length; cbn [length]; lia]). cbn [rbind].
    assert (Esa : record_activities W g (s_curr s) = Ok (raw_of (s_curr s))).
    { unfold record_activities. rewrite Hpa, Hc. unfold set_activities. destruct (s_curr s); reflexivity. }
    assert (Esn : exists sn, record_network W g n = Ok sn).
    { unfold record_network. rewrite Hc. unfold set_network. destruct (g_pnet g), (net_nodes n); eexists; reflexivity. }
    destruct Esn as [sn Esn].
    assert (Et : forall u', evolve_topology W g t u' (s_curr s) n [] [] = Ok (u', n)) by (intros; unfold evolve_topology; cbn [rbind]; rewrite Ht; reflexivity).
    assert (Et' : forall u', evolve_topology W g t u' S n [] [] = Ok (u', n)) by (intros; unfold evolve_topology; cbn [rbind]; rewrite Ht; reflexivity).
    unfold evolve_activities. rewrite Hr.
    destruct (g_order g).
    - rewrite E. cbn [rbind]. rewrite Ea, Er. cbn [fold_left s_curr s_added s_removed s_u s_tab]. rewrite Esa. cbn [rbind]. rewrite Et. cbn [rbind]. rewrite Esn. cbn [rbind].
      eexists. split; reflexivity.
    - rewrite Et'. cbn [rbind]. rewrite Esn. cbn [rbind]. rewrite E. cbn [rbind]. rewrite Ea. cbn [fold_left s_curr s_added s_removed s_u s_tab]. rewrite Esa. cbn [rbind].
      eexists. split; reflexivity.
    - rewrite Et'. cbn [rbind]. rewrite Esn. cbn [rbind]. rewrite E. cbn [rbind]. rewrite Ea. cbn [fold_left s_curr s_added s_removed s_u s_tab]. rewrite Esa. cbn [rbind].
      eexists. split; reflexivity.
  Qed.

  Lemma static_step_err (g : args) (mk : memokey) r t inp u S n (tab : list (mk_K mk * A)) hist traj e :
    static g r -> Forall2 (fun s S => st_act s = raw_of S) traj (hist ++ [S]) -> Z.of_nat (length hist) + 1 = t ->
    do_activity_rule W g mk r t inp u S tab n (past_of (g_past g) (hist ++ [S])) (Some (get_neighbourhood_map n)) = Err e ->
    step W g mk t inp (mkCfg u S n tab (Some (get_neighbourhood_map n)) traj) = Err e.
  Proof.
    intros (Hr & Ht & Hp & Hm & Hc & Hpa) Hf Hl E. unfold step. cbn [c_traj c_u c_act c_net c_tab c_map].
    rewrite (past_total g traj (hist ++ [S]) t) by (solve [assumption|destruct hist; discriminate|rewrite app_length; cbn [length]; lia]). cbn [rbind].
    assert (Esn : exists sn, record_network W g n = Ok sn).
    { unfold record_network. rewrite Hc. unfold set_network. destruct (g_pnet g), (net_nodes n); eexists; reflexivity. }
    destruct Esn as [sn Esn].
    assert (Et' : forall u', evolve_topology W g t u' S n [] [] = Ok (u', n)) by (intros; unfold evolve_topology; cbn [rbind]; rewrite Ht; reflexivity).
    unfold evolve_activities. rewrite Hr.
    destruct (g_order g); [rewrite E; reflexivity| |]; rewrite Et'; cbn [rbind]; rewrite Esn; cbn [rbind]; rewrite E; reflexivity.
  Qed.

  (** The run succeeds if every sweep does. [Inv hist u] speaks about the states so far and the user state. *)
  Theorem static_run fuel (u0 : U) n c T (g : args) r (Inv : list acts -> U -> Prop) :
    static g r -> 1 <= T -> (Z.to_nat T <= fuel)%nat -> length (to_dict W c) = net_len n ->
    Inv [to_dict W c] u0 ->
    (forall (mk : memokey) (tab : list (mk_K mk * A)) hist S u, Inv (hist ++ [S]) u -> Z.of_nat (length hist) + 1 < T ->
       exists s, do_activity_rule W g mk r (Z.of_nat (length hist) + 1) tick u S tab n (past_of (g_past g) (hist ++ [S])) (Some (get_neighbourhood_map n)) = Ok s /\
         s_added s = [] /\ s_removed s = [] /\ Inv ((hist ++ [S]) ++ [s_curr s]) (s_u s)) ->
    exists uf traj hs, evolve W fuel u0 n (Some c) (Some T) None g = Ok (uf, traj) /\ Z.of_nat (length hs) = T /\
      Forall2 (fun s S => activities W s = Ok (shown_acts S)) traj hs /\ Inv hs uf.
  Proof.
    intros Hst HT Hfuel Hlen Hinv0 Hsweep. destruct Hst as (Hr & Ht & Hp & Hm & Hc & Hpa).
    assert (Hst : static g r) by (unfold static; auto 10).
    assert (Hloop : forall (mk : memokey) k t u S (tab : list (mk_K mk * A)) hist traj fuel, t + Z.of_nat k = T -> (k < fuel)%nat -> Z.of_nat (length hist) + 1 = t ->
      Inv (hist ++ [S]) u -> Forall2 (fun s S => st_act s = raw_of S) traj (hist ++ [S]) ->
      exists u' S' tab' traj' hs, loop W g mk (timestep_input T) fuel t (mkCfg u S n tab (Some (get_neighbourhood_map n)) traj) =
        Ok (mkCfg u' S' n tab' (Some (get_neighbourhood_map n)) traj') /\ Z.of_nat (length hs) = T /\
        Forall2 (fun s S => st_act s = raw_of S) traj' hs /\ Inv hs u').
    { intros mk. induction k as [|k IH]; intros t u S tab hist traj fuel' Hk Hfu Hh Hi Hf.
      - destruct fuel' as [|f]; [lia|]. cbn [loop c_u c_act c_net]. unfold timestep_input at 1. destruct (Z.eqb_spec t T); [|lia]. cbn [rbind].
        unfold with_u. cbn [c_act c_net c_tab c_map c_traj]. exists u, S, tab, traj, (hist ++ [S]). split; [reflexivity|]. split; [rewrite app_length; cbn [length]; lia|]. auto.
      - destruct fuel' as [|f]; [lia|]. cbn [loop c_u c_act c_net]. unfold timestep_input at 1. destruct (Z.eqb_spec t T); [lia|]. cbn [rbind].
        unfold with_u at 1. cbn [c_act c_net c_tab c_map c_traj].
        destruct (Hsweep mk tab hist S u Hi ltac:(lia)) as (s & Es & Ea & Er & Hi').
        rewrite Hh in Es. destruct (static_step g mk r t tick u S n tab hist traj s Hst Hf Hh Es Ea Er) as (st & Estep & Hsta).
        rewrite Estep. cbn [rbind]. apply (IH (t + 1) (s_u s) (s_curr s) (s_tab s) (hist ++ [S]) (traj ++ [st]) f); try lia; try assumption.
        + rewrite app_length; cbn [length]; lia.
        + apply Forall2_app; [assumption|]. constructor; [assumption|constructor]. }
    unfold evolve. cbn [get_input_function rbind]. rewrite Hlen, Nat.eqb_refl. cbn [negb andb]. rewrite Hc, Ht.
    assert (Esa : set_activities W false (to_dict W c) = Ok (raw_of (to_dict W c))) by (unfold set_activities; destruct (to_dict W c); reflexivity).
    rewrite Esa. cbn [rbind]. assert (Esn : exists sn, set_network W false n = Ok sn) by (unfold set_network; destruct (net_nodes n); eexists; reflexivity).
    destruct Esn as [sn ->]. cbn [rbind].
    destruct (Hloop (match g_key g with Some k => k | None => default_key n end) (Z.to_nat (T - 1)) 1 u0 (to_dict W c) [] [] [mkState (raw_of (to_dict W c)) sn] fuel)
      as (u' & S' & tab' & traj' & hs & E & Hl & Hf & Hi); try lia; try assumption.
    - reflexivity.
    - constructor; [reflexivity|constructor].
    - rewrite E. cbn [rbind c_u c_traj]. exists u', traj', hs. split; [reflexivity|]. split; [assumption|]. split; [|assumption].
      eapply Forall2_impl; [|exact Hf]. intros s S Es. unfold activities. rewrite Es. destruct S; reflexivity.
  Qed.

  (** The run raises if a sweep does, [K] states having been reached. *)
  Theorem static_fail fuel (u0 : U) n c T (g : args) r (Inv : list acts -> U -> Prop) K e :
    static g r -> 1 <= K < T -> (Z.to_nat T <= fuel)%nat -> length (to_dict W c) = net_len n ->
    Inv [to_dict W c] u0 ->
    (forall (mk : memokey) (tab : list (mk_K mk * A)) hist S u, Inv (hist ++ [S]) u -> Z.of_nat (length hist) + 1 < K ->
       exists s, do_activity_rule W g mk r (Z.of_nat (length hist) + 1) tick u S tab n (past_of (g_past g) (hist ++ [S])) (Some (get_neighbourhood_map n)) = Ok s /\
         s_added s = [] /\ s_removed s = [] /\ Inv ((hist ++ [S]) ++ [s_curr s]) (s_u s)) ->
    (forall (mk : memokey) (tab : list (mk_K mk * A)) hist S u, Inv (hist ++ [S]) u -> Z.of_nat (length hist) + 1 = K ->
       do_activity_rule W g mk r K tick u S tab n (past_of (g_past g) (hist ++ [S])) (Some (get_neighbourhood_map n)) = Err e) ->
    evolve W fuel u0 n (Some c) (Some T) None g = Err e.
  Proof.
    intros Hst HT Hfuel Hlen Hinv0 Hsweep Herr. destruct Hst as (Hr & Ht & Hp & Hm & Hc & Hpa).
    assert (Hst : static g r) by (unfold static; auto 10).
    assert (Hloop : forall (mk : memokey) k t u S (tab : list (mk_K mk * A)) hist traj fuel, t + Z.of_nat k = K -> (Datatypes.S k < fuel)%nat -> Z.of_nat (length hist) + 1 = t ->
      Inv (hist ++ [S]) u -> Forall2 (fun s S => st_act s = raw_of S) traj (hist ++ [S]) ->
      loop W g mk (timestep_input T) fuel t (mkCfg u S n tab (Some (get_neighbourhood_map n)) traj) = Err e).
    { intros mk. induction k as [|k IH]; intros t u S tab hist traj fuel' Hk Hfu Hh Hi Hf.
      - destruct fuel' as [|f]; [lia|]. cbn [loop c_u c_act c_net]. unfold timestep_input at 1. destruct (Z.eqb_spec t T); [lia|]. cbn [rbind].
        unfold with_u. cbn [c_act c_net c_tab c_map c_traj]. replace t with K in * by lia.
        rewrite (static_step_err g mk r K tick u S n tab hist traj e Hst Hf Hh (Herr mk tab hist S u Hi Hh)). reflexivity.
      - destruct fuel' as [|f]; [lia|]. cbn [loop c_u c_act c_net]. unfold timestep_input at 1. destruct (Z.eqb_spec t T); [lia|]. cbn [rbind].
        unfold with_u at 1. cbn [c_act c_net c_tab c_map c_traj].
        destruct (Hsweep mk tab hist S u Hi ltac:(lia)) as (s & Es & Ea & Er & Hi').
        rewrite Hh in Es. destruct (static_step g mk r t tick u S n tab hist traj s Hst Hf Hh Es Ea Er) as (st & Estep & Hsta).
        rewrite Estep. cbn [rbind]. apply (IH (t + 1) (s_u s) (s_curr s) (s_tab s) (hist ++ [S]) (traj ++ [st]) f); try lia; try assumption.
        + rewrite app_length; cbn [length]; lia.
        + apply Forall2_app; [assumption|]. constructor; [assumption|constructor]. }
    unfold evolve. cbn [get_input_function rbind]. rewrite Hlen, Nat.eqb_refl. cbn [negb andb]. rewrite Hc, Ht.
    assert (Esa : set_activities W false (to_dict W c) = Ok (raw_of (to_dict W c))) by (unfold set_activities; destruct (to_dict W c); reflexivity).
    rewrite Esa. cbn [rbind]. assert (Esn : exists sn, set_network W false n = Ok sn) by (unfold set_network; destruct (net_nodes n); eexists; reflexivity).
    destruct Esn as [sn ->]. cbn [rbind].
    rewrite (Hloop (match g_key g with Some k => k | None => default_key n end) (Z.to_nat (K - 1)) 1 u0 (to_dict W c) [] [] [mkState (raw_of (to_dict W c)) sn] fuel); try lia; try assumption; try reflexivity.
    constructor; [reflexivity|constructor].
  Qed.

  (** rules without state *)
  Definition synchronous (h : ctx -> res A) (pc : list (cond L A)) (n : network) (hs : list acts) : Prop :=
    forall k S S', nth_error hs k = Some S -> nth_error hs (Datatypes.S k) = Some S' ->
      updated W h None n S (Z.of_nat k + 1) (past_of pc (firstn (Datatypes.S k) hs)) tick S'.

  (** as [stateless_run], with totality required only before the end *)
  Theorem stateless_run_upto fuel (u0 : U) n c T (g : args) h (Inv : list acts -> Prop) :
    static g (stateless h) -> NoDup (nodes n) -> 1 <= T -> (Z.to_nat T <= fuel)%nat -> length (to_dict W c) = net_len n ->
    closed n -> covers n (to_dict W c) -> Inv [to_dict W c] ->
    (forall hist S v x, Z.of_nat (length hist) + 1 < T -> Inv (hist ++ [S]) -> In v (nodes n) -> ctx_for W n S (Z.of_nat (length hist) + 1) (past_of (g_past g) (hist ++ [S])) tick v x -> exists a, h x = Ok a) ->
    (forall hist S S', Z.of_nat (length hist) + 1 < T -> Inv (hist ++ [S]) -> covers n S' -> updated W h None n S (Z.of_nat (length hist) + 1) (past_of (g_past g) (hist ++ [S])) tick S' -> Inv ((hist ++ [S]) ++ [S'])) ->
    exists uf traj hs, evolve W fuel u0 n (Some c) (Some T) None g = Ok (uf, traj) /\ Z.of_nat (length hs) = T /\
      Forall2 (fun s S => activities W s = Ok (shown_acts S)) traj hs /\ Inv hs /\
      nth_error hs 0 = Some (to_dict W c) /\ synchronous h (g_past g) n hs.
  Proof.
    intros Hst Hnd HT Hfuel Hlen Hc Hcov Hinv0 Htot Hpres.
    destruct (static_run fuel u0 n c T g (stateless h)
      (fun hs _ => Inv hs /\ Forall (covers n) hs /\ nth_error hs 0 = Some (to_dict W c) /\ synchronous h (g_past g) n hs) Hst HT Hfuel Hlen) as (uf & traj & hs & E & Hl & Hf & Hi & _ & Hz & Hs).
    - split; [assumption|]. split; [constructor; [assumption|constructor]|]. split; [reflexivity|]. intros [|k] S S' E1 E2; [discriminate|destruct k; discriminate].
    - intros mk tab hist S u (Hi & Hcs & Hz & Hs) Hlt. destruct Hst as (Hr & Ht & Hp & Hm & Hcomp & Hpa).
      assert (HcS : covers n S) by (apply Forall_app in Hcs; destruct Hcs as [_ Hx]; inversion Hx; assumption).
      set (t := Z.of_nat (length hist) + 1) in *. set (past := past_of (g_past g) (hist ++ [S])) in *.
      destruct (sweep_total g mk (stateless h) t S n past tab u
        (fun done _ curr => map fst curr = done /\ forall v, In v done -> exists x a, ctx_for W n S t past tick v x /\ h x = Ok a /\ dget curr v = Some a)
        Hm Hp Hc HcS) as (s & Es & Ea & Er & _ & Hkeys & Hvals).
      + split; [reflexivity|intros v []].
      + intros done v rest u1 curr x En [Hk Hd] Hx. destruct (Htot hist S v x Hlt Hi) as [a Eh]; [rewrite En; apply in_or_app; right; left; reflexivity|exact Hx|].
        exists u1, a. split; [unfold stateless; rewrite Eh; reflexivity|].
        assert (Hnew : ~ In v done) by (rewrite En in Hnd; apply NoDup_remove_2 in Hnd; intros Hin; apply Hnd, in_or_app; left; assumption). split.
        * change (map fst (dset curr v a)) with (dkeys (dset curr v a)). rewrite dkeys_dset. assert (Em : dmem curr v = false) by (apply dmem_false; unfold dkeys; rewrite Hk; assumption). rewrite Em. unfold dkeys. rewrite Hk. reflexivity.
        * intros w Hw. rewrite dget_dset. destruct (eqd w v) as [->|Hne]; [exists x, a; auto|]. apply in_app_or in Hw. destruct Hw as [Hw|[Hw|[]]]; [auto|congruence].
      + exists s. split; [assumption|]. split; [assumption|]. split; [assumption|].
        assert (Hupd : updated W h None n S t past tick (s_curr s)).
        { split; [assumption|]. intros v Hv. destruct (Hvals v Hv) as (x & a & H1 & H2 & H3). exists x, a, a. auto. }
        assert (Hcov' : covers n (s_curr s)) by (intros v Hv; destruct (Hvals v Hv) as (x & a & _ & _ & E); eauto).
        split; [apply (Hpres hist S (s_curr s) Hlt); assumption|]. split; [apply Forall_app; split; [assumption|constructor; [assumption|constructor]]|].
        split; [rewrite nth_error_app1 by (rewrite app_length; cbn [length]; lia); assumption|].
        intros k S1 S2 E1 E2. assert (Hk : (Datatypes.S k < length ((hist ++ [S]) ++ [s_curr s]))%nat) by (apply nth_error_Some; congruence).
        rewrite !app_length in Hk. cbn [length] in Hk. rewrite nth_error_app1 in E1 by (rewrite app_length; cbn [length]; lia).
        replace (firstn (Datatypes.S k) ((hist ++ [S]) ++ [s_curr s])) with (firstn (Datatypes.S k) (hist ++ [S])) by
          (symmetry; rewrite firstn_app; rewrite app_length; cbn [length]; replace (Datatypes.S k - (length hist + 1))%nat with 0%nat by lia; cbn [firstn]; apply app_nil_r).
        destruct (Nat.eq_dec k (length hist)) as [->|Hne].
        * rewrite nth_error_app2 in E1 by lia. rewrite Nat.sub_diag in E1. injection E1 as <-.
          rewrite nth_error_app2 in E2 by (rewrite app_length; cbn [length]; lia). rewrite app_length in E2. cbn [length] in E2.
          replace (Datatypes.S (length hist) - (length hist + 1))%nat with 0%nat in E2 by lia. injection E2 as <-.
          rewrite firstn_all2 by (rewrite app_length; cbn [length]; lia). exact Hupd.
        * rewrite nth_error_app1 in E2 by (rewrite app_length; cbn [length]; lia). apply (Hs k S1 S2 E1 E2).
    - exists uf, traj, hs. auto 10.
  Qed.

  Theorem stateless_run fuel (u0 : U) n c T (g : args) h (Inv : list acts -> Prop) :
    static g (stateless h) -> NoDup (nodes n) -> 1 <= T -> (Z.to_nat T <= fuel)%nat -> length (to_dict W c) = net_len n ->
    closed n -> covers n (to_dict W c) -> Inv [to_dict W c] ->
    (forall hist S v x, Inv (hist ++ [S]) -> In v (nodes n) -> ctx_for W n S (Z.of_nat (length hist) + 1) (past_of (g_past g) (hist ++ [S])) tick v x -> exists a, h x = Ok a) ->
    (forall hist S S', Inv (hist ++ [S]) -> covers n S' -> updated W h None n S (Z.of_nat (length hist) + 1) (past_of (g_past g) (hist ++ [S])) tick S' -> Inv ((hist ++ [S]) ++ [S'])) ->
    exists uf traj hs, evolve W fuel u0 n (Some c) (Some T) None g = Ok (uf, traj) /\ Z.of_nat (length hs) = T /\
      Forall2 (fun s S => activities W s = Ok (shown_acts S)) traj hs /\ Inv hs /\
      nth_error hs 0 = Some (to_dict W c) /\ synchronous h (g_past g) n hs.
  Proof. intros Hst Hnd HT Hfuel Hlen Hc Hcov Hinv0 Htot Hpres. apply stateless_run_upto; try assumption; intros; [eapply Htot|eapply Hpres]; eassumption. Qed.
End Static.

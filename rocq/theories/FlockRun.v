(** Runs of [evolve] in which a pure topology rule and then a stateless activity rule are applied at every timestep (TOPOLOGY_FIRST). *)
From Verif Require Import Py PyFacts ListFacts Network Evolve EvolveSpec EvolveProofs EvolveProofs2 EvolveProofs3 EvolveStatic EvolveTopo TopoRun.
Open Scope string_scope.
Open Scope list_scope.
Open Scope Z_scope.

Section Flock.
  Context {L V A U I BA BN : Type} `{EqD L} `{EqD A}.
  Context (W : env L V A BA BN).
  Notation network := (network L V).
  Notation acts := (dict L A).
  Notation ctx := (node_ctx L V A I).
  Notation args := (@args L V A U I).
  Notation state := (state L V A BA BN).
  Notation memokey := (@memokey L V A I).
  Notation tick := (InStr "__timestep__").
  Notation raw_of S := (match S with [] => None | _ => Some (Raw S) end).
  Notation raw_net n := (match net_nodes n with [] => None | _ => Some (Raw n) end).

  (** the arguments of such a call *)
  Definition topo_then (g : args) (h : ctx -> res A) (F : network -> acts -> Z -> res network) : Prop :=
    g_rule g = Some (stateless h) /\ g_topo g = Some (pure_topo F) /\ g_pert g = None /\ g_past g = [] /\ g_order g = TOPOLOGY_FIRST /\ g_comp g = false /\ g_pact g = true /\ g_pnet g = true /\ g_memo g = false.

  (** [P k S m]: what is known of the activities and the network after [k] steps *)
  Theorem topo_then_run fuel (u0 : U) n c T (g : args) h F (P : nat -> acts -> network -> Prop) :
    topo_then g h F -> 1 <= T -> (Z.to_nat T <= fuel)%nat -> length (to_dict W c) = net_len n -> P 0%nat (to_dict W c) n ->
    (forall k S m, Z.of_nat k + 1 < T -> P k S m -> exists m', F (given g m) S (Z.of_nat k + 1) = Ok m' /\ net_nodes m' <> [] /\ NoDup (nodes m') /\ closed m' /\ covers m' S /\
       (forall v x, In v (nodes m') -> ctx_for W m' S (Z.of_nat k + 1) None tick v x -> exists a, h x = Ok a) /\
       (forall S', covers m' S' -> updated W h None m' S (Z.of_nat k + 1) None tick S' -> P (Datatypes.S k) S' m')) ->
    exists traj hs, evolve W fuel u0 n (Some c) (Some T) None g = Ok (u0, traj) /\ Z.of_nat (length hs) = T /\
      Forall2 (fun s Sm => activities W s = Ok (shown_acts (fst Sm)) /\ state_network W s = Ok (shown_net (snd Sm))) traj hs /\
      nth_error hs 0 = Some (to_dict W c, n) /\
      (forall k S m, nth_error hs k = Some (S, m) -> P k S m).
  Proof.
    intros (Hr & Ht & Hp & Hpast & Hord & Hc & Hpa & Hpn & Hm) HT Hfuel Hlen HP0 Hstep.
    assert (Hone : forall (mk : memokey) k S m (tab : list (mk_K mk * A)) traj, Z.of_nat k + 1 < T -> P k S m -> exists S' m' st,
      step W g mk (Z.of_nat k + 1) tick (mkCfg u0 S m tab None traj) = Ok (mkCfg u0 S' m' tab None (traj ++ [st])) /\ shows st (S', m') /\ P (Datatypes.S k) S' m').
    { intros mk k S m tab traj Hk HP. set (t := Z.of_nat k + 1) in *. destruct (Hstep k S m Hk HP) as (m' & EF & Hne & Hnd & Hcl & Hcov & Htot & Hnext). fold t in EF, Htot, Hnext.
      destruct (sweep_total W g mk (stateless h) t S m' None tab u0
        (fun done u1 curr => u1 = u0 /\ map fst curr = done /\ forall v, In v done -> exists x a, ctx_for W m' S t None tick v x /\ h x = Ok a /\ dget curr v = Some a)
        Hm Hp Hcl Hcov) as (s & Es & Ea & Er & Etab & Hu & Hkeys & Hvals).
      + split; [reflexivity|]. split; [reflexivity|intros v []].
      + intros done v rest u1 curr x En (-> & Hkk & Hd) Hx. destruct (Htot v x) as [a Eh]; [rewrite En; apply in_or_app; right; left; reflexivity|exact Hx|].
        exists u0, a. split; [unfold stateless; rewrite Eh; reflexivity|]. split; [reflexivity|].
        assert (Hnew : ~ In v done) by (rewrite En in Hnd; apply NoDup_remove_2 in Hnd; intros Hin; apply Hnd, in_or_app; left; assumption). split.
        * change (map fst (dset curr v a)) with (dkeys (dset curr v a)). rewrite dkeys_dset. assert (Em : dmem curr v = false) by (apply dmem_false; unfold dkeys; rewrite Hkk; assumption). rewrite Em. unfold dkeys. rewrite Hkk. reflexivity.
        * intros w Hw. rewrite dget_dset. destruct (eqd w v) as [->|Hwv]; [exists x, a; auto|]. apply in_app_or in Hw. destruct Hw as [Hw|[Hw|[]]]; [auto|congruence].
      + assert (Hupd : updated W h None m' S t None tick (s_curr s)).
        { split; [assumption|]. intros v Hv. destruct (Hvals v Hv) as (x & a & H1 & H2 & H3). exists x, a, a. auto. }
        assert (Hcov' : covers m' (s_curr s)) by (intros v Hv; destruct (Hvals v Hv) as (x & a & _ & _ & E); eauto).
        exists (s_curr s), m', (mkState (raw_of (s_curr s)) (raw_net m')). split; [|split; [split; reflexivity|apply (Hnext _ Hcov' Hupd)]].
        unfold step. cbn [c_traj c_u c_act c_net c_tab c_map]. unfold get_past. rewrite Hpast. cbn [rbind]. rewrite Hord.
        rewrite (topology_ok W g F t u0 _ m m' Ht EF Hne). cbn [rbind]. unfold record_network. rewrite Hpn, Hc. unfold set_network.
        destruct (net_nodes m') eqn:En; [congruence|]. cbn [rbind]. unfold evolve_activities. rewrite Hr, do_rule_map, Es. cbn [rbind]. rewrite Ea, Er. cbn [fold_left s_curr s_added s_removed s_u s_tab].
        unfold record_activities. rewrite Hpa, Hc. unfold set_activities. rewrite Hu, Etab. destruct (s_curr s) eqn:Ec; cbn [rbind]; reflexivity. }
    assert (Hloop : forall (mk : memokey) j k S m (tab : list (mk_K mk * A)) traj fuel, Z.of_nat k + 1 + Z.of_nat j = T -> (j < fuel)%nat -> P k S m ->
      exists c' ts hs, loop W g mk (timestep_input T) fuel (Z.of_nat k + 1) (mkCfg u0 S m tab None traj) = Ok c' /\ c_u c' = u0 /\ length hs = j /\ c_traj c' = traj ++ ts /\ Forall2 shows ts hs /\
        (forall i Sm, nth_error hs i = Some Sm -> P (k + Datatypes.S i)%nat (fst Sm) (snd Sm))).
    { intros mk. induction j as [|j IH]; intros k S m tab traj fuel' Hk Hfu HP.
      - destruct fuel' as [|f']; [lia|]. cbn [loop c_u c_act c_net]. unfold timestep_input at 1. destruct (Z.eqb_spec (Z.of_nat k + 1) T); [|lia]. cbn [rbind].
        unfold with_u. cbn [c_act c_net c_tab c_map c_traj]. eexists _, [], []. split; [reflexivity|]. split; [reflexivity|]. split; [reflexivity|]. split; [cbn [c_traj]; rewrite app_nil_r; reflexivity|]. split; [constructor|].
        intros [|i] Sm E; discriminate.
      - destruct fuel' as [|f']; [lia|]. cbn [loop c_u c_act c_net]. unfold timestep_input at 1. destruct (Z.eqb_spec (Z.of_nat k + 1) T); [lia|]. cbn [rbind].
        unfold with_u at 1. cbn [c_act c_net c_tab c_map c_traj].
        destruct (Hone mk k S m tab traj ltac:(lia) HP) as (S' & m' & st & Estep & Hsh & HP'). rewrite Estep. cbn [rbind].
        destruct (IH (Datatypes.S k) S' m' tab (traj ++ [st]) f') as (c' & ts & hs & El & Eu & Hl & Etr & Hf & Hinv); [lia|lia|assumption|].
        replace (Z.of_nat (Datatypes.S k) + 1) with (Z.of_nat k + 1 + 1) in El by lia.
        exists c', (st :: ts), ((S', m') :: hs). split; [assumption|]. split; [assumption|]. split; [cbn [length]; lia|]. split; [rewrite Etr, <- app_assoc; reflexivity|]. split; [constructor; assumption|].
        intros [|i] Sm E; cbn [nth_error] in E; [injection E as <-; replace (k + 1)%nat with (Datatypes.S k) by lia; assumption|]. specialize (Hinv i Sm E). replace (k + Datatypes.S (Datatypes.S i))%nat with (Datatypes.S k + Datatypes.S i)%nat by lia. assumption. }
    unfold evolve. cbn [get_input_function rbind]. rewrite Hlen, Nat.eqb_refl. cbn [negb andb]. rewrite Hc, Ht.
    assert (Esa : set_activities W false (to_dict W c) = Ok (raw_of (to_dict W c))) by (unfold set_activities; destruct (to_dict W c); reflexivity).
    assert (Esn : set_network W false n = Ok (raw_net n)) by (unfold set_network; destruct (net_nodes n); reflexivity).
    rewrite Esa. cbn [rbind]. rewrite Esn. cbn [rbind].
    destruct (Hloop (match g_key g with Some k => k | None => default_key n end) (Z.to_nat (T - 1)) 0%nat (to_dict W c) n [] [mkState (raw_of (to_dict W c)) (raw_net n)] fuel)
      as (c' & ts & hs & E & Eu & Hl & Etr & Hf & Hi); [lia|lia|assumption|]. change (Z.of_nat 0 + 1) with 1 in E.
    rewrite E. cbn [rbind]. rewrite Eu. exists (c_traj c'), ((to_dict W c, n) :: hs). split; [reflexivity|]. split; [cbn [length]; lia|].
    split; [|split; [reflexivity|]].
    - rewrite Etr. assert (Hsh : forall s Sm, shows s Sm -> activities W s = Ok (shown_acts (fst Sm)) /\ state_network W s = Ok (shown_net (snd Sm))).
      { intros s [S m] [E1 E2]. cbn [fst snd] in *. unfold activities, state_network, shown_acts, shown_net, nodes. rewrite E1, E2. split; [destruct S|destruct (net_nodes m)]; reflexivity. }
      constructor; [apply Hsh; split; reflexivity|]. eapply Forall2_impl; [|exact Hf]. exact Hsh.
    - intros [|k] S m Ek; cbn [nth_error] in Ek; [injection Ek as <- <-; assumption|]. exact (Hi k (S, m) Ek).
  Qed.
End Flock.

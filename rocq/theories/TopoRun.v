(** Runs of [evolve] in which a pure topology rule changes the network. *)
From Verif Require Import Py PyFacts ListFacts Network Evolve EvolveSpec EvolveProofs EvolveProofs2 EvolveProofs3 EvolveStatic.
Open Scope string_scope.
Open Scope list_scope.
Open Scope Z_scope.

Section Topo.
  Context {L V A U I BA BN : Type} `{EqD L} `{EqD A}.
  Context (W : env L V A BA BN).
  Notation network := (network L V).
  Notation acts := (dict L A).
  Notation ctx := (node_ctx L V A I).
  Notation args := (@args L V A U I).
  Notation state := (state L V A BA BN).
  Notation memokey := (@memokey L V A I).
  Notation tick := (InStr "__timestep__").
  Notation raw_net m := (match net_nodes m with [] => None | _ => Some (Raw m) end).
  Notation raw_of S := (match S with [] => None | _ => Some (Raw S) end).

  (** what a topology rule is given *)
  Definition given (g : args) (m : network) : network := if g_copy g then copy m else m.

  Lemma topology_ok (g : args) F t (u : U) S m m' : g_topo g = Some (pure_topo F) -> F (given g m) S t = Ok m' -> net_nodes m' <> [] ->
    evolve_topology W g t u S m [] [] = Ok (u, m').
  Proof.
    intros Ht E Hne. unfold evolve_topology. cbn [rbind]. rewrite Ht. unfold pure_topo. cbn [t_net t_acts t_time]. unfold given in E. rewrite E. cbn [rbind].
    destruct (net_nodes m'); [congruence|reflexivity].
  Qed.

  (** ** only a topology rule *)
  Section Only.
    Context (g : args) (F : network -> acts -> Z -> res network).
    Context (Hr : g_rule g = None) (Ht : g_topo g = Some (pure_topo F)) (Hc : g_comp g = false) (Hpn : g_pnet g = true) (Hpast : g_past g = []).

    Lemma only_step (mk : memokey) t u S m (tab : list (mk_K mk * A)) nm (traj : list state) :
      (forall S', exists m', F (given g m) S' t = Ok m' /\ net_nodes m' <> []) ->
      exists S' m' st, step W g mk t tick (mkCfg u S m tab nm traj) = Ok (mkCfg u [] m' tab nm (traj ++ [st])) /\
        st_net st = raw_net m' /\ F (given g m) S' t = Ok m'.
    Proof.
      intros HF. unfold step. cbn [c_traj c_u c_act c_net c_tab c_map]. unfold get_past. rewrite Hpast. cbn [rbind].
      assert (Esa : exists sa, record_activities W g [] = Ok sa) by (unfold record_activities; destruct (g_pact g); eexists; reflexivity). destruct Esa as [sa Esa].
      assert (Esn : forall m', record_network W g m' = Ok (raw_net m')) by (intros m'; unfold record_network, set_network; rewrite Hpn, Hc; destruct (net_nodes m'); reflexivity).
      assert (Ea : forall n0 u0, evolve_activities W g mk t tick u0 S tab n0 None nm = Ok (mkNst u0 [] tab [] [])) by (intros; unfold evolve_activities; rewrite Hr; reflexivity).
      destruct (g_order g).
      - destruct (HF []) as (m' & E & Hne). exists [], m'. rewrite Ea. cbn [rbind s_curr s_u s_added s_removed s_tab]. rewrite Esa. cbn [rbind].
        rewrite (topology_ok g F t u [] m m' Ht E Hne). cbn [rbind]. rewrite Esn. cbn [rbind]. eexists. split; [reflexivity|]. split; [reflexivity|assumption].
      - destruct (HF S) as (m' & E & Hne). exists S, m'. rewrite (topology_ok g F t u S m m' Ht E Hne). cbn [rbind]. rewrite Esn. cbn [rbind]. rewrite Ea.
        cbn [rbind s_curr s_u s_added s_removed s_tab]. rewrite Esa. cbn [rbind]. eexists. split; [reflexivity|]. split; [reflexivity|assumption].
      - destruct (HF S) as (m' & E & Hne). exists S, m'. rewrite (topology_ok g F t u S m m' Ht E Hne). cbn [rbind]. rewrite Esn. cbn [rbind]. rewrite Ea.
        cbn [rbind s_curr s_u s_added s_removed s_tab]. rewrite Esa. cbn [rbind]. eexists. split; [reflexivity|]. split; [reflexivity|assumption].
    Qed.

    Theorem topo_run fuel (u0 : U) n initial T (P : nat -> network -> Prop) : 1 <= T -> (Z.to_nat T <= fuel)%nat -> P 0%nat n ->
      (forall k m, Z.of_nat k + 1 < T -> P k m -> exists m', (forall S, F (given g m) S (Z.of_nat k + 1) = Ok m') /\ net_nodes m' <> [] /\ P (Datatypes.S k) m') ->
      exists traj ms, evolve W fuel u0 n initial (Some T) None g = Ok (u0, traj) /\ Z.of_nat (length ms) = T /\
        Forall2 (fun s m => state_network W s = Ok (shown_net m)) traj ms /\ nth_error ms 0 = Some n /\
        (forall k m, nth_error ms k = Some m -> P k m) /\
        (forall k m m', nth_error ms k = Some m -> nth_error ms (Datatypes.S k) = Some m' -> forall S, F (given g m) S (Z.of_nat k + 1) = Ok m').
    Proof.
      intros HT Hfuel HP Hstep.
      assert (Hloop : forall (mk : memokey) k t S m (tab : list (mk_K mk * A)) nm pre traj fuel, t + Z.of_nat k = T -> (k < fuel)%nat -> Z.of_nat (length pre) + 1 = t ->
        Forall2 (fun s m => st_net s = raw_net m) traj (pre ++ [m]) -> nth_error (pre ++ [m]) 0 = Some n ->
        (forall k m', nth_error (pre ++ [m]) k = Some m' -> P k m') ->
        (forall k m1 m2, nth_error (pre ++ [m]) k = Some m1 -> nth_error (pre ++ [m]) (Datatypes.S k) = Some m2 -> forall S, F (given g m1) S (Z.of_nat k + 1) = Ok m2) ->
        exists S' m' traj' ms, loop W g mk (timestep_input T) fuel t (mkCfg u0 S m tab nm traj) = Ok (mkCfg u0 S' m' tab nm traj') /\ Z.of_nat (length ms) = T /\
          Forall2 (fun s m => st_net s = raw_net m) traj' ms /\ nth_error ms 0 = Some n /\
          (forall k m, nth_error ms k = Some m -> P k m) /\
          (forall k m m', nth_error ms k = Some m -> nth_error ms (Datatypes.S k) = Some m' -> forall S, F (given g m) S (Z.of_nat k + 1) = Ok m')).
      { intros mk. induction k as [|k IH]; intros t S m tab nm pre traj fuel' Hk Hfu Hh Hf Hfst HPs Hs.
        - destruct fuel' as [|f]; [lia|]. cbn [loop c_u c_act c_net]. unfold timestep_input at 1. destruct (Z.eqb_spec t T); [|lia]. cbn [rbind].
          unfold with_u. cbn [c_act c_net c_tab c_map c_traj]. exists S, m, traj, (pre ++ [m]). split; [reflexivity|]. split; [rewrite app_length; cbn [length]; lia|]. auto.
        - destruct fuel' as [|f]; [lia|]. cbn [loop c_u c_act c_net]. unfold timestep_input at 1. destruct (Z.eqb_spec t T); [lia|]. cbn [rbind].
          unfold with_u at 1. cbn [c_act c_net c_tab c_map c_traj].
          assert (Em : nth_error (pre ++ [m]) (length pre) = Some m) by (rewrite nth_error_app2, Nat.sub_diag by lia; reflexivity).
          destruct (Hstep (length pre) m ltac:(lia) (HPs _ _ Em)) as (m' & HF & Hne & HP'). rewrite Hh in HF.
          destruct (only_step mk t u0 S m tab nm traj) as (S1 & m1 & st & Est & Hst & E1); [intros S'; exists m'; auto|].
          rewrite HF in E1. injection E1 as <-. rewrite Est. cbn [rbind].
          assert (Hnth : forall j, nth_error ((pre ++ [m]) ++ [m']) j = if Nat.eqb j (Datatypes.S (length pre)) then Some m' else nth_error (pre ++ [m]) j).
          { intros j. destruct (Nat.eqb_spec j (Datatypes.S (length pre))) as [->|Hj].
            - rewrite nth_error_app2 by (rewrite app_length; cbn [length]; lia). rewrite app_length. cbn [length]. replace (Datatypes.S (length pre) - (length pre + 1))%nat with 0%nat by lia. reflexivity.
            - destruct (Nat.lt_ge_cases j (length (pre ++ [m]))) as [Hl|Hl]; [rewrite nth_error_app1 by assumption; reflexivity|].
              rewrite app_length in Hl. cbn [length] in Hl. transitivity (@None network); [|symmetry]; apply nth_error_None; rewrite ?app_length; cbn [length]; lia. }
          apply (IH (t + 1) [] m' tab nm (pre ++ [m]) (traj ++ [st]) f); try lia.
          + rewrite app_length. cbn [length]. lia.
          + apply Forall2_app; [assumption|]. constructor; [assumption|constructor].
          + rewrite Hnth. exact Hfst.
          + intros j m2 Ej. rewrite Hnth in Ej. destruct (Nat.eqb_spec j (Datatypes.S (length pre))) as [->|Hj]; [injection Ej as <-; assumption|eauto].
          + intros j m1 m2 E1 E2. rewrite Hnth in E1, E2. destruct (Nat.eqb_spec j (Datatypes.S (length pre))) as [->|Hj].
            * destruct (Nat.eqb_spec (Datatypes.S (Datatypes.S (length pre))) (Datatypes.S (length pre))); [lia|].
              assert (nth_error (pre ++ [m]) (Datatypes.S (Datatypes.S (length pre))) = None) by (apply nth_error_None; rewrite app_length; cbn [length]; lia). congruence.
            * destruct (Nat.eqb_spec (Datatypes.S j) (Datatypes.S (length pre))) as [Hjj|Hjj]; [|eauto].
              injection Hjj as ->. injection E2 as <-. rewrite Em in E1. injection E1 as <-. rewrite Hh. exact HF. }
      unfold evolve. cbn [get_input_function rbind]. rewrite Hr, andb_false_r, Hc, Ht.
      set (init := match initial with None => [] | Some c => to_dict W c end).
      assert (Esa : exists sa, set_activities W false init = Ok sa) by (unfold set_activities; destruct init; eexists; reflexivity). destruct Esa as [sa ->]. cbn [rbind].
      assert (Esn : set_network W false n = Ok (raw_net n)) by (unfold set_network; destruct (net_nodes n); reflexivity). rewrite Esn. cbn [rbind].
      destruct (Hloop (match g_key g with Some k => k | None => default_key n end) (Z.to_nat (T - 1)) 1 init n [] None [] [mkState sa (raw_net n)] fuel)
        as (S' & m' & traj' & ms & E & Hl & Hf & Hfst & HPs & Hs); try lia.
      - reflexivity.
      - constructor; [reflexivity|constructor].
      - reflexivity.
      - intros [|k] m' E; [injection E as <-; assumption|destruct k; discriminate].
      - intros [|k] m1 m2 E1 E2; [discriminate|destruct k; discriminate].
      - rewrite E. cbn [rbind c_u c_traj]. exists traj', ms. split; [reflexivity|]. split; [assumption|]. split; [|auto].
        eapply Forall2_impl; [|exact Hf]. intros s m Es. unfold state_network, shown_net, nodes. rewrite Es. destruct (net_nodes m); reflexivity.
    Qed.
  End Only.
End Topo.

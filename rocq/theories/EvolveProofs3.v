(** * Update equations, simultaneity, perturbation, insertion and deletion *)
From Verif Require Import Py PyFacts ListFacts Network Evolve EvolveSpec EvolveProofs EvolveProofs2.
Open Scope string_scope.
Open Scope list_scope.
Open Scope Z_scope.

Section Proofs3.
  Context {L V A U I BA BN : Type} `{EqD L} `{EqD A}.
  Context (W : env L V A BA BN).

  Notation network := (network L V).
  Notation attrs := (dict string V).
  Notation acts := (dict L A).
  Notation ctx := (node_ctx L V A I).
  Notation args := (@args L V A U I).
  Notation state := (state L V A BA BN).
  Notation input_fn := (@input_fn L V A U I).
  Notation memokey := (@memokey L V A I).
  Notation config mk := (@cfg L V A U I BA BN mk).
  Notation call := (@call L V A I).

  (** ** C16-C18 *)
  Section Pure.
    Context (h : ctx -> res A) (p : option (pert_ctx L A I -> res A)) (F : option (network -> acts -> Z -> res network)).

    Lemma calls_pure u ks u' : calls_from (stateless h) (option_map pure_pert p) u ks u' ->
      (u' : U) = u /\ Forall (fun k : call => exists a, h (k_ctx k) = Ok a /\ k_out k = mkOut a [] [] /\
        match p with None => k_fin k = a | Some f => f (mkPert (x_label (k_ctx k)) a (x_time (k_ctx k)) (x_input (k_ctx k))) = Ok (k_fin k) end) ks.
    Proof.
      induction 1 as [u|u u1 u2 u' x o a ks Er Hp Hc IH]; [split; [reflexivity|constructor]|].
      unfold stateless in Er. inv_bind Er a0 Ea. injection Er as <- <-. destruct IH as [-> IH].
      destruct p as [f|]; cbn [option_map] in Hp.
      - destruct Hp as [_ Hp]. unfold pure_pert in Hp. inv_bind Hp a1 Ea1. injection Hp as <- <-. split; [reflexivity|].
        constructor; [|exact IH]. exists a0. cbn. auto.
      - destruct Hp as [-> ->]. split; [reflexivity|]. constructor; [|exact IH]. exists a0. cbn. auto.
    Qed.

    Lemma pure_none (ks : list call) : Forall (fun k => exists a, k_out k = mkOut a [] []) ks ->
      added_of ks = [] /\ removed_of ks = [] /\ kept ks = map (fun k => (x_label (k_ctx k), k_fin k)) ks.
    Proof.
      induction 1 as [|k ks (a & Ek) Hks IH]; [auto|]. destruct IH as (E1 & E2 & E3).
      unfold added_of, removed_of, kept in *. cbn [flat_map filter map]. unfold own_removed at 1. rewrite Ek. cbn [o_added o_removed existsb negb map app].
      rewrite E1, E2, E3. auto.
    Qed.

    Lemma Forall2_map_fst (P : L -> ctx -> Prop) vs (ks : list call) : (forall v x, P v x -> x_label x = v) -> Forall2 P vs (map k_ctx ks) ->
      map (fun k => x_label (k_ctx k)) ks = vs.
    Proof.
      intros HP. revert vs. induction ks as [|k ks IH]; cbn; intros vs Hf; inversion Hf; subst; [reflexivity|]. f_equal; auto.
    Qed.

    Lemma Forall2_in_l {X Y} (P : X -> Y -> Prop) l l' x : Forall2 P l l' -> In x l -> exists y, In y l' /\ P x y.
    Proof. induction 1; cbn; [contradiction|]. intros [<-|Hin]; [eauto|]. destruct (IHForall2 Hin) as (z & Hz & Pz). eauto. Qed.

    Lemma pure_activities (g : args) n S t past inp u ks u' S' :
      g_rule g = Some (stateless h) -> g_pert g = option_map pure_pert p -> NoDup (nodes n) ->
      activities_step W g n S t past inp u ks u' S' ->
      u' = u /\ added_of ks = [] /\ removed_of ks = [] /\ updated W h p n S t past inp S'.
    Proof.
      intros Hr Hp Hnd Ha. unfold activities_step in Ha. rewrite Hr in Ha. destruct Ha as (Hf & Hc & ->). rewrite Hp in Hc.
      apply calls_pure in Hc. destruct Hc as [-> Hk].
      destruct (pure_none ks) as (E1 & E2 & E3); [eapply Forall_impl; [|exact Hk]; intros k (a & _ & E & _); eauto|].
      split; [reflexivity|]. split; [assumption|]. split; [assumption|].
      assert (El : map (fun k => x_label (k_ctx k)) ks = nodes n) by (eapply Forall2_map_fst; [|exact Hf]; intros v x Hx; apply (cf_label _ _ _ _ _ _ _ _ Hx)).
      unfold updated, new_activities. rewrite E1, E3. cbn [fold_left].
      split; [rewrite map_map; exact El|]. intros v Hv.
      destruct (Forall2_in_l _ _ _ _ Hf Hv) as (x & Hx & Hcx). apply in_map_iff in Hx. destruct Hx as (k & <- & Hin).
      rewrite Forall_forall in Hk. destruct (Hk k Hin) as (a & E & _ & Hfin). exists (k_ctx k), a, (k_fin k).
      split; [assumption|]. split; [assumption|]. pose proof (cf_label _ _ _ _ _ _ _ _ Hcx) as Elab. split.
      - destruct p; [|assumption]. rewrite Elab, (cf_time _ _ _ _ _ _ _ _ Hcx) in Hfin. assumption.
      - apply dget_in; [unfold dkeys; rewrite map_map; cbn [fst]; rewrite El; assumption|].
        apply in_map_iff. exists k. rewrite Elab. auto.
    Qed.

    Lemma pure_topology (g : args) n S t u u' n' : g_topo g = option_map pure_topo F -> topology_step g n S t u u' n' ->
      u' = u /\ rewired F (g_copy g) n S t n'.
    Proof.
      intros Ht Hs. unfold topology_step in Hs. rewrite Ht in Hs. destruct F as [f|]; cbn [option_map] in Hs; [|destruct Hs; subst; split; reflexivity].
      destruct Hs as [Hs Hne]. unfold pure_topo in Hs. inv_bind Hs n0 En. injection Hs as <- <-. cbn in *. auto.
    Qed.

    Lemma set_acts_shown S s : set_activities W false S = Ok (st_act s) -> activities W s = Ok (shown_acts S).
    Proof. unfold set_activities, activities. destruct S; intros E; injection E as <-; reflexivity. Qed.
    Lemma set_net_shown n s : set_network W false n = Ok (st_net s) -> state_network W s = Ok (shown_net n).
    Proof. unfold set_network, state_network, shown_net, nodes. destruct (net_nodes n); intros E; injection E as <-; reflexivity. Qed.

    Lemma Forall2_nth_intro {X Y} (P : X -> Y -> Prop) : forall (l : list X) l', length l = length l' ->
      (forall k x y, nth_error l k = Some x -> nth_error l' k = Some y -> P x y) -> Forall2 P l l'.
    Proof.
      induction l as [|x l IH]; intros [|y l'] Hl Hk; cbn in Hl; try lia; constructor.
      - apply (Hk 0%nat); reflexivity.
      - apply IH; [lia|]. intros k a b E1 E2. apply (Hk (Datatypes.S k)); assumption.
    Qed.

    Lemma run_shows infn (g : args) u0 init n hs uf traj : g_comp g = false -> g_pact g = true -> g_pnet g = true ->
      run_spec W infn g u0 init n hs uf traj ->
      Forall2 (fun s h => activities W s = Ok (shown_acts (h_act h)) /\ state_network W s = Ok (shown_net (h_net h))) traj hs.
    Proof.
      intros Hc Ha Hn Hr. apply Forall2_nth_intro; [symmetry; apply (rs_length _ _ _ _ _ _ _ _ _ Hr)|].
      intros [|k] s b Es Eb.
      - rewrite (rs_first _ _ _ _ _ _ _ _ _ Hr) in Eb. injection Eb as <-. destruct (rs_first_state _ _ _ _ _ _ _ _ _ Hr) as (s' & Es' & E1 & E2).
        assert (s' = s) by congruence. subst s'. rewrite Hc in *. split; [apply set_acts_shown|apply set_net_shown]; assumption.
      - destruct (nth_error hs k) as [a|] eqn:Ea.
        2: { apply nth_error_None in Ea. assert (nth_error hs (S k) = None) by (apply nth_error_None; lia). congruence. }
        destruct (rs_step _ _ _ _ _ _ _ _ _ Hr k a b Ea Eb) as (u & i & past & s' & _ & _ & _ & Es' & Hsa & Hsn).
        assert (s' = s) by congruence. subst s'. unfold shows_a, shows_n in *. rewrite Ha, Hn, Hc in *.
        split; [apply set_acts_shown|apply set_net_shown]; assumption.
    Qed.

    Definition equation (g : args) (t : Z) past inp (S : acts) (n : network) (S' : acts) (n' : network) : Prop :=
      match g_order g with
      | ACTIVITIES_FIRST => updated W h p n S t past inp S' /\ rewired F (g_copy g) n S' t n'
      | TOPOLOGY_FIRST => rewired F (g_copy g) n S t n' /\ updated W h p n' S t past inp S'
      | SYNCHRONOUS => rewired F (g_copy g) n S t n' /\ updated W h p n S t past inp S'
      end.

    Lemma pure_equations fuel (u0 : U) n initial ts inp (g : args) uf traj :
      g_rule g = Some (stateless h) -> g_pert g = option_map pure_pert p -> g_topo g = option_map pure_topo F ->
      g_memo g = false -> g_comp g = false -> g_pact g = true -> g_pnet g = true ->
      NoDup (nodes n) -> (forall f m S t m', F = Some f -> f m S t = Ok m' -> NoDup (nodes m) -> NoDup (nodes m')) ->
      evolve W fuel u0 n initial ts inp g = Ok (uf, traj) ->
      exists infn (hs : list (acts * network)),
        get_input_function ts inp = Ok infn /\
        nth_error hs 0 = Some (match initial with None => [] | Some c => to_dict W c end, n) /\
        Forall2 (fun s h => activities W s = Ok (shown_acts (fst h)) /\ state_network W s = Ok (shown_net (snd h))) traj hs /\
        forall k S m S' m', nth_error hs k = Some (S, m) -> nth_error hs (Datatypes.S k) = Some (S', m') ->
          exists u u' i past, infn u (Z.of_nat k + 1) S m = Ok (u', Some i) /\
            past_at W g (firstn (Datatypes.S k) traj) (Z.of_nat k + 1) past /\
            equation g (Z.of_nat k + 1) past i S m S' m'.
    Proof.
      intros Hr Hp Ht Hmemo Hc Ha Hn Hnd HF E.
      assert (Hok : topo_ok g).
      { intros f u c u' n' Ef En. rewrite Ht in Ef. destruct F as [f0|] eqn:EF; [|discriminate]. cbn in Ef. injection Ef as <-.
        unfold pure_topo in En. inv_bind En n0 E0. injection En as _ <-. eapply HF; [reflexivity|eassumption]. }
      assert (Hni : no_insert g).
      { intros r u x u' o Er Eo. rewrite Hr in Er. injection Er as <-. unfold stateless in Eo. inv_bind Eo a Ea. injection Eo as _ <-. auto. }
      destruct (evolve_meets_spec W fuel u0 n initial ts inp g uf traj Hmemo Hnd Hok (or_intror (or_introl Hni)) E) as (infn & hs & Hin & Hrun).
      assert (Hnds : forall k a, nth_error hs k = Some a -> NoDup (nodes (h_net a))).
      { induction k as [|k IH]; intros a Eka.
        - rewrite (rs_first _ _ _ _ _ _ _ _ _ Hrun) in Eka. injection Eka as <-. assumption.
        - destruct (nth_error hs k) as [a0|] eqn:Ea0.
          2: { apply nth_error_None in Ea0. assert (nth_error hs (S k) = None) by (apply nth_error_None; lia). congruence. }
          specialize (IH _ eq_refl). destruct (rs_step _ _ _ _ _ _ _ _ _ Hrun k a0 a Ea0 Eka) as (u & i & past & s & _ & _ & Hts & _).
          unfold timestep in Hts. destruct (g_order g).
          + destruct Hts as (ks & u1 & n1 & Hact & Hadj & Htop). eapply topology_step_nodup; [exact Hok|exact Htop|].
            eapply adjusted_nodup; [exact Hadj|assumption].
          + destruct Hts as (ks & u1 & Htop & _). eapply topology_step_nodup; eassumption.
          + destruct Hts as (ks & u1 & Htop & _). eapply topology_step_nodup; eassumption. }
      exists infn, (map (fun s => (h_act s, h_net s)) hs). split; [assumption|].
      split; [rewrite nth_error_map, (rs_first _ _ _ _ _ _ _ _ _ Hrun); reflexivity|].
      split.
      { pose proof (run_shows _ _ _ _ _ _ _ _ Hc Ha Hn Hrun) as Hs. clear - Hs. induction Hs; constructor; assumption. }
      intros k S m S' m' E1 E2. rewrite nth_error_map in E1, E2.
      destruct (nth_error hs k) as [a|] eqn:Eka; [|discriminate]. destruct (nth_error hs (Datatypes.S k)) as [b|] eqn:Ekb; [|discriminate].
      cbn [option_map] in E1, E2. injection E1 as <- <-. injection E2 as <- <-.
      destruct (rs_step _ _ _ _ _ _ _ _ _ Hrun k a b Eka Ekb) as (u & i & past & s & Ei & Hpast & Hts & _).
      exists (h_u a), u, i, past. split; [assumption|]. split; [assumption|].
      unfold equation. unfold timestep in Hts. pose proof (Hnds k a Eka) as Hnda. pose proof (Hnds _ b Ekb) as Hndb. destruct (g_order g).
      - destruct Hts as (ks & u1 & n1 & Hact & Hadj & Htop). destruct (pure_activities g _ _ _ _ _ _ _ _ _ Hr Hp Hnda Hact) as (_ & Ea1 & Er1 & Hu).
        split; [assumption|]. rewrite Ea1, Er1 in Hadj. cbn in Hadj. subst n1. apply (pure_topology g _ _ _ _ _ _ Ht Htop).
      - destruct Hts as (ks & u1 & Htop & Hact). split; [apply (pure_topology g _ _ _ _ _ _ Ht Htop)|].
        apply (pure_activities g _ _ _ _ _ _ _ _ _ Hr Hp Hndb Hact).
      - destruct Hts as (ks & u1 & Htop & Hact). split; [apply (pure_topology g _ _ _ _ _ _ Ht Htop)|].
        apply (pure_activities g _ _ _ _ _ _ _ _ _ Hr Hp Hnda Hact).
    Qed.
  End Pure.

  (** ** C19 *)
  Section Order.
    (** a rule without state; it may add and remove nodes *)
    Definition nostate (q : ctx -> res (outcome L V A)) : rule := fun (u : U) x => o <- q x ;; Ok (u, o).

    Context (g : args) (mk : memokey) (q : ctx -> res (outcome L V A)) (p : option (pert_ctx L A I -> res A)).
    Context (Hmemo : g_memo g = false) (Hpert : g_pert g = option_map pure_pert p).
    Context (t : Z) (inp : inval I) (prev : acts) (past : option (list (option acts))).

    (** what happens at one node *)
    Definition nodeval (n : network) nmap (v : L) : res (L * option A * outcome L V A) :=
      x <- node_context W t inp prev n past nmap v ;;
      o <- q x ;;
      if existsb (eqb v) (o_removed o) then match p with None => Ok (v, None, o) | Some _ => Err KeyError end
      else match p with
           | None => Ok (v, Some (o_act o), o)
           | Some f => a <- f (mkPert v (o_act o) t (x_input x)) ;; Ok (v, Some a, o)
           end.

    Definition entries (rs : list (L * option A * outcome L V A)) : acts :=
      flat_map (fun r => match snd (fst r) with Some a => [(fst (fst r), a)] | None => [] end) rs.

    Lemma dset_snoc (d : acts) v a b : ~ In v (dkeys d) -> dset (d ++ [(v, a)]) v b = d ++ [(v, b)].
    Proof.
      induction d as [|[k c] d IH]; cbn; intros Hn; [destruct (eqd v v); [reflexivity|congruence]|].
      destruct (eqd v k); [exfalso; apply Hn; left; congruence|]. f_equal. apply IH. tauto.
    Qed.

    Lemma rfold_nodeval n nmap : forall vs (s : nst (U:=U) mk), NoDup vs -> (forall v, In v vs -> ~ In v (dkeys (s_curr s))) ->
      rfold (node_step W g mk (nostate q) t inp prev n past nmap) vs s =
      (rs <- rmap (nodeval n nmap) vs ;;
       Ok (mkNst (s_u s) (s_curr s ++ entries rs) (s_tab s) (s_added s ++ flat_map (fun r => o_added (snd r)) rs)
                 (s_removed s ++ flat_map (fun r => o_removed (snd r)) rs))).
    Proof.
      induction vs as [|v vs IH]; intros s Hnd Hfr; cbn [rfold rmap].
      - cbn. rewrite !app_nil_r. destruct s; reflexivity.
      - inversion Hnd as [|? ? Hv Hnd']; subst. assert (Hfv : ~ In v (dkeys (s_curr s))) by (apply Hfr; left; reflexivity).
        unfold node_step at 1, nodeval at 1. destruct (node_context W t inp prev n past nmap v) as [x|e]; [|reflexivity]. cbn [rbind].
        unfold apply_rule. rewrite Hmemo. unfold nostate at 1. destruct (q x) as [o|e]; [|reflexivity]. cbn [rbind]. rewrite Hpert.
        destruct (existsb (eqb v) (o_removed o)).
        + destruct p as [f|]; cbn [option_map].
          * rewrite (proj2 (dget_none _ _) Hfv). reflexivity.
          * cbn [rbind]. rewrite IH; [|assumption|cbn; intros w Hw; apply Hfr; right; assumption]. cbn [s_u s_curr s_tab s_added s_removed].
            destruct (rmap (nodeval n nmap) vs) as [rs|]; [|reflexivity]. cbn [rbind entries flat_map fst snd app]. rewrite !app_assoc. reflexivity.
        + rewrite dset_new by assumption.
          assert (Hfr' : forall a w, In w vs -> ~ In w (dkeys (s_curr s ++ [(v, a)]))).
          { intros a w Hw. rewrite dkeys_app. intros Hin. apply in_app_or in Hin. destruct Hin as [Hin|[<-|[]]]; [apply (Hfr w (or_intror Hw) Hin)|contradiction]. }
          destruct p as [f|]; cbn [option_map].
          * rewrite dget_app, (proj2 (dget_none _ _) Hfv). cbn [dget]. destruct (eqd v v) as [_|]; [|congruence]. cbn [of_opt rbind].
            unfold pure_pert at 1. destruct (f _) as [a|e]; [|reflexivity]. cbn [rbind]. rewrite dset_snoc by assumption.
            rewrite IH; [|assumption|cbn [s_curr]; apply Hfr']. cbn [s_u s_curr s_tab s_added s_removed].
            destruct (rmap (nodeval n nmap) vs) as [rs|]; [|reflexivity]. cbn [rbind entries flat_map fst snd]. rewrite <- !app_assoc. reflexivity.
          * cbn [rbind]. rewrite IH; [|assumption|cbn [s_curr]; apply Hfr']. cbn [s_u s_curr s_tab s_added s_removed].
            destruct (rmap (nodeval n nmap) vs) as [rs|]; [|reflexivity]. cbn [rbind entries flat_map fst snd]. rewrite <- !app_assoc. reflexivity.
    Qed.

    Lemma rmap_perm {X Y} (f : X -> res Y) l l' : Permutation l l' -> forall r, rmap f l = Ok r -> exists r', rmap f l' = Ok r' /\ Permutation r r'.
    Proof.
      induction 1 as [|x l l' Hp IH|x y l|l l' l'' H1 IH1 H2 IH2]; intros r E.
      - exists r. split; [assumption|apply Permutation_refl].
      - cbn in E. inv_bind E b Eb. inv_bind E bs Ebs. injection E as <-. destruct (IH _ Ebs) as (r' & E' & Hp'). exists (b :: r'). cbn. rewrite Eb, E'. cbn. auto.
      - cbn in E. inv_bind E b Eb. inv_bind E bs Ebs. inv_bind Ebs c Ec. inv_bind Ebs cs Ecs. injection Ebs as <-. injection E as <-.
        exists (c :: b :: cs). cbn. rewrite Ec, Eb, Ecs. cbn. split; [reflexivity|apply perm_swap].
      - destruct (IH1 _ E) as (r1 & E1 & P1). destruct (IH2 _ E1) as (r2 & E2 & P2). exists r2. split; [assumption|eapply Permutation_trans; eassumption].
    Qed.

    Lemma dget_perm {X} (d d' : dict L X) : NoDup (dkeys d) -> Permutation d d' -> forall v, dget d v = dget d' v.
    Proof.
      intros Hnd Hp v. destruct (dget d v) as [x|] eqn:Ex.
      - apply dget_some_in in Ex. symmetry. apply dget_in; [|eapply Permutation_in; eassumption].
        eapply Permutation_NoDup; [|exact Hnd]. apply Permutation_map. assumption.
      - symmetry. apply dget_none. intros Hin. apply dget_none in Ex. apply Ex.
        eapply Permutation_in; [|exact Hin]. apply Permutation_map, Permutation_sym. assumption.
    Qed.

    Lemma node_context_perm n n' nmap nmap' v : NoDup (nodes n) -> Permutation (net_nodes n) (net_nodes n') -> net_rot n = net_rot n' ->
      option_map (fun m => dget m v) nmap = option_map (fun m => dget m v) nmap' ->
      node_context W t inp prev n past nmap v = node_context W t inp prev n' past nmap' v.
    Proof.
      intros Hnd Hp Hrot Hm. unfold node_context, in_edges, get_neighbour_labels. rewrite (dget_perm _ _ Hnd Hp v), Hrot.
      destruct (dget (net_nodes n') v) as [nd|]; [|reflexivity]. cbn [of_opt rbind].
      destruct nmap as [m|], nmap' as [m'|]; cbn in Hm; try discriminate; [|reflexivity]. injection Hm as ->. reflexivity.
    Qed.

    Lemma nodeval_label n nmap v r : nodeval n nmap v = Ok r -> fst (fst r) = v.
    Proof.
      unfold nodeval. intros E. inv_bind E x Ex. inv_bind E o Eo.
      destruct (existsb (eqb v) (o_removed o)), p; try discriminate; try inv_bind E a Ea; injection E as <-; reflexivity.
    Qed.
    Lemma rmap_labels n nmap vs : forall rs, rmap (nodeval n nmap) vs = Ok rs -> map (fun r => fst (fst r)) rs = vs.
    Proof.
      induction vs as [|v vs IH]; intros rs E; cbn in E; [injection E as <-; reflexivity|].
      inv_bind E r Er. inv_bind E rs' Ers. injection E as <-. cbn. f_equal; [eapply nodeval_label; eassumption|auto].
    Qed.
    Lemma in_entries v rs : In v (dkeys (entries rs)) -> In v (map (fun r => fst (fst r)) rs).
    Proof.
      induction rs as [|r rs IH]; cbn [entries flat_map map]; [auto|]. rewrite dkeys_app. intros Hv. apply in_app_or in Hv.
      destruct Hv as [Hv|Hv]; [left|right; auto]. destruct (snd (fst r)); cbn in Hv; [destruct Hv as [Hv|[]]; assumption|contradiction].
    Qed.
    Lemma NoDup_entries rs : NoDup (map (fun r => fst (fst r)) rs) -> NoDup (dkeys (entries rs)).
    Proof.
      induction rs as [|r rs IH]; cbn [entries flat_map map]; intros Hnd; [constructor|]. inversion Hnd as [|? ? Hr Hnd']; subst.
      rewrite dkeys_app. destruct (snd (fst r)); cbn [dkeys map fst app]; [|apply IH; assumption].
      constructor; [|apply IH; assumption]. intros Hin. apply Hr, in_entries. assumption.
    Qed.

    Lemma rule_order_irrelevant n n' nmap nmap' u tab (s : nst (U:=U) mk) :
      NoDup (nodes n) -> Permutation (net_nodes n) (net_nodes n') -> net_rot n = net_rot n' ->
      (forall v, option_map (fun m => dget m v) nmap = option_map (fun m => dget m v) nmap') ->
      do_activity_rule W g mk (nostate q) t inp u prev tab n past nmap = Ok s ->
      exists s', do_activity_rule W g mk (nostate q) t inp u prev tab n' past nmap' = Ok s' /\
        (forall v, dget (s_curr s') v = dget (s_curr s) v) /\
        Permutation (s_curr s) (s_curr s') /\ Permutation (s_added s) (s_added s') /\ Permutation (s_removed s) (s_removed s') /\ s_u s' = s_u s.
    Proof.
      intros Hnd Hp Hrot Hm E. unfold do_activity_rule in *.
      assert (Hpn : Permutation (nodes n) (nodes n')) by (apply Permutation_map; assumption).
      rewrite rfold_nodeval in E; [|assumption|intros v _ []]. inv_bind E rs Ers. injection E as <-.
      assert (Hext : rmap (nodeval n' nmap') (nodes n) = Ok rs).
      { rewrite <- Ers. apply rmap_ext. intros v _. unfold nodeval. rewrite <- (node_context_perm n n' nmap nmap' v) by auto. reflexivity. }
      destruct (rmap_perm _ _ _ Hpn _ Hext) as (rs' & E' & Hpr).
      rewrite rfold_nodeval; [|eapply Permutation_NoDup; eassumption|intros v _ []]. rewrite E'. cbn [rbind]. eexists. split; [reflexivity|].
      cbn [s_u s_curr s_added s_removed app].
      assert (Hpe : Permutation (entries rs) (entries rs')) by (unfold entries; apply Permutation_flat_map; assumption).
      split; [intros v; symmetry; apply dget_perm; [apply NoDup_entries; rewrite (rmap_labels _ _ _ _ Ers); assumption|assumption]|].
      split; [assumption|]. split; [apply Permutation_flat_map; assumption|]. split; [apply Permutation_flat_map; assumption|]. reflexivity.
    Qed.
  End Order.

  (** ** C23 *)
  Definition set_pert (g : args) (p : option perturbation) : args :=
    mkArgs (g_rule g) (g_topo g) p (g_past g) (g_order g) (g_copy g) (g_comp g) (g_pact g) (g_pnet g) (g_memo g) (g_key g).
  Definition id_pert : perturbation := fun (u : U) (c : pert_ctx L A I) => Ok (u, p_act c).

  Definition no_self_removal (g : args) : Prop :=
    forall r u x u' o, g_rule g = Some r -> r u x = Ok (u', o) -> ~ In (x_label x) (o_removed o).

  Lemma node_step_id (g : args) mk r t inp prev n past nmap s v : g_rule g = Some r -> no_self_removal g ->
    node_step W (set_pert g (Some id_pert)) mk r t inp prev n past nmap s v = node_step W (set_pert g None) mk r t inp prev n past nmap s v.
  Proof.
    intros Hr Hns. unfold node_step. destruct (node_context W t inp prev n past nmap v) as [x|e] eqn:Ex; [|reflexivity]. cbn [rbind].
    change (apply_rule (set_pert g (Some id_pert))) with (apply_rule g). change (apply_rule (set_pert g None)) with (apply_rule g).
    destruct (apply_rule g mk r (s_u s) (s_tab s) x) as [[[u1 tab1] o]|e] eqn:Ea; [|reflexivity]. cbn [rbind].
    assert (Hno : existsb (eqb v) (o_removed o) = false).
    { assert (Hlab : x_label x = v) by (unfold node_context in Ex; inv_bind Ex conn Ec; inv_bind Ex nbrs En; inv_bind Ex cur Ecu; inv_bind Ex na Ena; inv_bind Ex ni Eni; injection Ex as <-; reflexivity).
      destruct (existsb (eqb v) (o_removed o)) eqn:Ee; [|reflexivity]. exfalso. apply existsb_eqb_in in Ee. unfold apply_rule in Ea.
      destruct (g_memo g).
      - destruct (mem_find mk (s_tab s) (mk_to mk x)); [injection Ea as <- <- <-; contradiction|].
        inv_bind Ea uo Er. destruct uo as [u2 o2]. injection Ea as <- <- <-. apply (Hns _ _ _ _ _ Hr Er). congruence.
      - inv_bind Ea uo Er. destruct uo as [u2 o2]. injection Ea as <- <- <-. apply (Hns _ _ _ _ _ Hr Er). congruence. }
    rewrite Hno. cbn [set_pert g_pert]. rewrite dget_dset_eq. cbn [of_opt rbind]. unfold id_pert at 1. cbn [rbind p_act].
    rewrite (dset_same (dset (s_curr s) v (o_act o))) by apply dget_dset_eq. reflexivity.
  Qed.

  Lemma rfold_ext {X Y} (f f' : X -> Y -> res X) l : (forall s x, f s x = f' s x) -> forall s, rfold f l s = rfold f' l s.
  Proof. intros Hf. induction l as [|y l IH]; intros s; cbn; [reflexivity|]. rewrite Hf. destruct (f' s y); cbn; [apply IH|reflexivity]. Qed.

  Lemma activities_id (g : args) mk t inp u prev tab n past nmap : no_self_removal g ->
    evolve_activities W (set_pert g (Some id_pert)) mk t inp u prev tab n past nmap = evolve_activities W (set_pert g None) mk t inp u prev tab n past nmap.
  Proof.
    intros Hns. unfold evolve_activities. cbn [set_pert g_rule]. destruct (g_rule g) as [r|] eqn:Er; [|reflexivity].
    unfold do_activity_rule. rewrite (rfold_ext _ (node_step W (set_pert g None) mk r t inp prev n past nmap)); [reflexivity|].
    intros s x. apply node_step_id; assumption.
  Qed.

  Lemma step_id (g : args) mk t inp c : no_self_removal g -> step W (set_pert g (Some id_pert)) mk t inp c = step W (set_pert g None) mk t inp c.
  Proof.
    intros Hns. unfold step. change (get_past W (set_pert g (Some id_pert))) with (get_past W g). change (get_past W (set_pert g None)) with (get_past W g).
    destruct (get_past W g (c_traj c) t) as [past|]; [|reflexivity]. cbn [rbind]. cbn [set_pert g_order].
    destruct (g_order g).
    - rewrite activities_id by assumption. reflexivity.
    - change (@evolve_topology _ _ _ _ _ _ _ _ W (set_pert g (Some id_pert))) with (evolve_topology W g). change (@evolve_topology _ _ _ _ _ _ _ _ W (set_pert g None)) with (evolve_topology W g).
      destruct (evolve_topology W g t (c_u c) (c_act c) (c_net c) [] []) as [[u1 n2]|]; [|reflexivity]. cbn [rbind]. rewrite activities_id by assumption. reflexivity.
    - change (@evolve_topology _ _ _ _ _ _ _ _ W (set_pert g (Some id_pert))) with (evolve_topology W g). change (@evolve_topology _ _ _ _ _ _ _ _ W (set_pert g None)) with (evolve_topology W g).
      destruct (evolve_topology W g t (c_u c) (c_act c) (c_net c) [] []) as [[u1 n2]|]; [|reflexivity]. cbn [rbind]. rewrite activities_id by assumption. reflexivity.
  Qed.

  Lemma identity_perturbation fuel (u0 : U) n initial ts inp (g : args) : no_self_removal g ->
    evolve W fuel u0 n initial ts inp (set_pert g (Some id_pert)) = evolve W fuel u0 n initial ts inp (set_pert g None).
  Proof.
    intros Hns. unfold evolve. cbn [set_pert g_key g_rule g_topo g_comp].
    destruct (get_input_function ts inp) as [infn|]; [|reflexivity]. cbn [rbind].
    match goal with |- context[if ?b then _ else _] => destruct b end; [reflexivity|].
    destruct (set_activities _ _ _) as [sa|]; [|reflexivity]. cbn [rbind]. destruct (set_network _ _ _) as [sn|]; [|reflexivity]. cbn [rbind].
    match goal with |- rbind (loop _ _ ?k _ _ _ ?c) _ = _ => generalize c; generalize 1 as t; generalize k as mk end.
    intros mk t c.
    assert (Hl : loop W (set_pert g (Some id_pert)) mk infn fuel t c = loop W (set_pert g None) mk infn fuel t c).
    { revert t c. induction fuel as [|f IH]; intros t c; cbn [loop]; [reflexivity|].
      destruct (infn (c_u c) t (c_act c) (c_net c)) as [[u [i|]]|]; cbn [rbind]; try reflexivity.
      rewrite step_id by assumption. destruct (step W (set_pert g None) mk t i (with_u c u)); cbn [rbind]; [apply IH|reflexivity]. }
    rewrite Hl. reflexivity.
  Qed.

  (** the first invocation that removes its own node under a perturbation raises KeyError *)
  Lemma self_removal_raises (g : args) mk r p t inp prev n past nmap pre v post (s0 s : nst (U:=U) mk) x u1 tab1 o :
    g_pert g = Some p -> rfold (node_step W g mk r t inp prev n past nmap) pre s0 = Ok s -> ~ In v (dkeys (s_curr s)) ->
    node_context W t inp prev n past nmap v = Ok x -> apply_rule g mk r (s_u s) (s_tab s) x = Ok (u1, tab1, o) -> In v (o_removed o) ->
    rfold (node_step W g mk r t inp prev n past nmap) (pre ++ v :: post) s0 = Err KeyError.
  Proof.
    intros Hp Epre Hv Ex Ea Hin. rewrite rfold_app, Epre. cbn [rbind rfold].
    unfold node_step at 1. rewrite Ex. cbn [rbind]. rewrite Ea. cbn [rbind]. rewrite Hp, (proj2 (existsb_eqb_in _ _) Hin), (proj2 (dget_none _ _) Hv). reflexivity.
  Qed.

  (** ** C25 *)
  Lemma nodes_on (v : L) f (n n' : network) (r : res unit) : on_node v f n = (n', r) -> nodes n' = nodes n.
  Proof.
    unfold on_node. destruct (dget (net_nodes n) v) as [nd|] eqn:E; intros Eq; injection Eq as <- _; [|reflexivity].
    unfold nodes, set_nodes. cbn [net_nodes]. rewrite dkeys_dset. unfold dmem. rewrite E. reflexivity.
  Qed.
  Lemma in_nodes_init (v : L) (n n' : network) (r : res unit) x : init_node v n = (n', r) -> In x (nodes n') <-> In x (nodes n) \/ x = v.
  Proof.
    unfold init_node. destruct (dmem (net_nodes n) v) eqn:E; intros Eq; injection Eq as <- _.
    - apply dmem_true in E. split; [auto|]. intros [Hx| ->]; assumption.
    - unfold nodes, set_nodes. cbn [net_nodes]. rewrite in_dkeys_dset. tauto.
  Qed.
  Lemma mthen_inv (m k : mut (L:=L) (V:=V) unit) n n' : mthen m k n = (n', Ok tt) -> exists n1, m n = (n1, Ok tt) /\ k n1 = (n', Ok tt).
  Proof. unfold mthen, mbind. destruct (m n) as [n1 [[]|e]]; [eauto|discriminate]. Qed.
  Lemma mfor_on_nodes {X} (l : list X) f n n' : (forall x m m', f x m = (m', Ok tt) -> nodes (m' : network) = nodes m) -> mfor l f n = (n', Ok tt) -> nodes n' = nodes n.
  Proof.
    intros Hf. revert n. induction l as [|x l IH]; intros n E; cbn in E; [injection E as <-; reflexivity|].
    apply mthen_inv in E. destruct E as (n1 & E1 & E2). rewrite (IH _ E2). eapply Hf; eassumption.
  Qed.

  Lemma in_nodes_add_edge (i j : L) a (n n' : network) x : add_edge i j a n = (n', Ok tt) -> In x (nodes n') <-> In x (nodes n) \/ x = i \/ x = j.
  Proof.
    unfold add_edge. destruct (kwargs_clash _ a); [discriminate|]. intros E.
    apply mthen_inv in E. destruct E as (n1 & E1 & E). apply mthen_inv in E. destruct E as (n2 & E2 & E).
    apply mthen_inv in E. destruct E as (n3 & E3 & E). apply mthen_inv in E. destruct E as (n4 & E4 & E).
    apply mthen_inv in E. destruct E as (n5 & E5 & E).
    apply nodes_on in E, E5, E4, E3. rewrite E, E5, E4, E3.
    rewrite (in_nodes_init _ _ _ _ x E2), (in_nodes_init _ _ _ _ x E1). tauto.
  Qed.
  Lemma in_nodes_add_node (v : L) a (n n' : network) x : add_node v a n = (n', Ok tt) -> In x (nodes n') <-> In x (nodes n) \/ x = v.
  Proof.
    unfold add_node. destruct (kwargs_clash _ a); [discriminate|]. destruct (kwargs_clash _ a); [discriminate|]. intros E.
    apply mthen_inv in E. destruct E as (n1 & E1 & E). apply nodes_on in E. rewrite E. apply (in_nodes_init _ _ _ _ x E1).
  Qed.
  Lemma in_nodes_remove (v : L) (n n' : network) x : remove_node v n = (n', Ok tt) -> In x (nodes n') <-> In x (nodes n) /\ x <> v.
  Proof.
    unfold remove_node, mbind, lookup. intros E. destruct (dget (net_nodes n) v) as [nd|]; cbn [of_opt] in E; [|discriminate].
    apply mthen_inv in E. destruct E as (n1 & E1 & E).
    destruct (dget (net_nodes n1) v) as [nd1|]; cbn [of_opt] in E; [|discriminate].
    apply mthen_inv in E. destruct E as (n2 & E2 & E).
    assert (H1 : nodes n1 = nodes n).
    { eapply mfor_on_nodes; [|exact E1]. intros y m m' Em. apply mthen_inv in Em. destruct Em as (m1 & Em1 & Em2). apply nodes_on in Em1, Em2. congruence. }
    assert (H2 : nodes n2 = nodes n1).
    { eapply mfor_on_nodes; [|exact E2]. intros y m m' Em. apply mthen_inv in Em. destruct Em as (m1 & Em1 & Em2). apply nodes_on in Em1, Em2. congruence. }
    injection E as <-. unfold nodes at 1. cbn [net_nodes set_nodes]. rewrite in_dkeys_ddel. fold (nodes n2). rewrite H2, H1. reflexivity.
  Qed.

  Lemma in_nodes_removes (l : list L) : forall (n n' : network) x, mfor l remove_node n = (n', Ok tt) -> In x (nodes n') <-> In x (nodes n) /\ ~ In x l.
  Proof.
    induction l as [|v l IH]; intros n n' x E; cbn in E; [injection E as <-; cbn; tauto|].
    apply mthen_inv in E. destruct E as (n1 & E1 & E2). rewrite (IH _ _ x E2), (in_nodes_remove _ _ _ x E1). cbn. intuition congruence.
  Qed.
  Lemma in_nodes_links v (l : dict L attrs) : forall (n n' : network) x, mfor l (fun tc => add_edge v (fst tc) (snd tc)) n = (n', Ok tt) ->
    In v (nodes n) -> In x (nodes n') <-> In x (nodes n) \/ In x (dkeys l).
  Proof.
    induction l as [|[w c] l IH]; intros n n' x E Hv; cbn [mfor] in E; [injection E as <-; cbn; tauto|].
    apply mthen_inv in E. destruct E as (n1 & E1 & E2). cbn [fst snd] in E1. rewrite (IH _ _ x E2); [|rewrite (in_nodes_add_edge _ _ _ _ _ v E1); tauto].
    rewrite (in_nodes_add_edge _ _ _ _ _ x E1). cbn. intuition (subst; auto).
  Qed.
  Lemma in_nodes_adds (added : list (A * dict L attrs * L)) : forall n n' x, mfor added (add_one W) n = (n', Ok tt) ->
    In x (nodes n') <-> In x (nodes n) \/ exists a, In a added /\ (x = snd a \/ In x (dkeys (snd (fst a)))).
  Proof.
    induction added as [|[[a l] v] added IH]; intros n n' x E; cbn [mfor] in E.
    - injection E as <-. split; [auto|]. intros [Hx|(a & [] & _)]; assumption.
    - apply mthen_inv in E. destruct E as (n1 & E1 & E2). rewrite (IH _ _ x E2). unfold add_one in E1.
      apply mthen_inv in E1. destruct E1 as (n0 & Ea & El). rewrite (in_nodes_links _ _ _ _ x El); [|rewrite (in_nodes_add_node _ _ _ _ v Ea); auto].
      rewrite (in_nodes_add_node _ _ _ _ x Ea). split.
      + intros [[[Hx|Hx]|Hx]|(b & Hb & Hx)]; [auto| | |].
        * right. exists (a, l, v). cbn. auto.
        * right. exists (a, l, v). cbn. auto.
        * right. exists b. cbn. auto.
      + intros [Hx|(b & [<-|Hb] & Hx)]; [auto| |].
        * cbn [fst snd] in Hx. tauto.
        * right. eauto.
  Qed.

  Lemma in_nodes_adjusted n added removed n1 x : adjusted W n added removed n1 ->
    In x (nodes n1) <-> (In x (nodes n) /\ ~ In x removed) \/ exists a, In a added /\ (x = snd a \/ In x (dkeys (snd (fst a)))).
  Proof.
    intros Hadj.
    assert (Hgen : adjust_nodes W added removed (copy n) = (n1, Ok tt) -> In x (nodes n1) <-> (In x (nodes n) /\ ~ In x removed) \/ exists a, In a added /\ (x = snd a \/ In x (dkeys (snd (fst a))))).
    { intros E. unfold adjust_nodes in E. apply mthen_inv in E. destruct E as (n0 & E1 & E2).
      rewrite (in_nodes_adds _ _ _ x E2), (in_nodes_removes _ _ _ x E1). reflexivity. }
    unfold adjusted in Hadj. destruct added, removed; try (apply Hgen; assumption). subst n1. cbn [In]. split; [tauto|]. intros [Hx|(a & [] & _)]. tauto.
  Qed.

  (** every new node is linked only to nodes that exist after the step *)
  Definition links_exist (n : network) (ks : list call) : Prop :=
    forall a w, In a (added_of ks) -> In w (dkeys (snd (fst a))) ->
      (In w (nodes n) /\ ~ In w (removed_of ks)) \/ In w (map snd (added_of ks)).

  Lemma in_new_activities (ks : list call) v : In v (dkeys (new_activities ks)) <-> In v (dkeys (kept ks)) \/ In v (map snd (added_of ks)).
  Proof.
    unfold new_activities. generalize (kept ks) as d. induction (added_of ks) as [|a l IH]; intros d; cbn [fold_left map In]; [tauto|].
    rewrite IH, in_dkeys_dset. intuition congruence.
  Qed.

  Lemma keys_step (g : args) r n S t past inp u ks u' S' n1 :
    g_rule g = Some r -> (forall u x u' o w, r u x = Ok (u', o) -> In w (o_removed o) -> w = x_label x) ->
    NoDup (nodes n) -> activities_step W g n S t past inp u ks u' S' -> adjusted W n (added_of ks) (removed_of ks) n1 -> links_exist n ks ->
    forall v, In v (dkeys S') <-> In v (nodes n1).
  Proof.
    intros Hr Hown Hnd Ha Hadj Hl v. unfold activities_step in Ha. rewrite Hr in Ha. destruct Ha as (Hf & Hc & ->).
    assert (El : map (fun k => x_label (k_ctx k)) ks = nodes n) by (eapply Forall2_map_fst; [|exact Hf]; intros w x Hx; apply (cf_label _ _ _ _ _ _ _ _ Hx)).
    assert (Hown' : forall k w, In k ks -> In w (o_removed (k_out k)) -> w = x_label (k_ctx k)).
    { clear - Hc Hown. induction Hc as [|? ? ? ? x o ? ks Er _ _ IH]; intros k w Hk Hw; [contradiction|]. destruct Hk as [<-|Hk]; [|eapply IH; eassumption].
      cbn [k_ctx k_out] in *. eapply Hown; eassumption. }
    rewrite in_new_activities, (in_nodes_adjusted _ _ _ _ v Hadj).
    assert (Hkept : In v (dkeys (kept ks)) <-> In v (nodes n) /\ ~ In v (removed_of ks)).
    { rewrite <- El. unfold kept, dkeys. rewrite map_map. cbn [fst]. rewrite !in_map_iff. unfold removed_of. rewrite in_flat_map. split.
      - intros (k & E & Hk). apply filter_In in Hk. destruct Hk as [Hk Ho]. split; [eauto|].
        intros (k' & Hk' & Hr'). pose proof (Hown' _ _ Hk' Hr') as E'.
        assert (k = k').
        { rewrite <- El in Hnd. clear - Hnd Hk Hk' E E'. subst v. symmetry in E'. revert Hnd Hk Hk' E'. induction ks as [|a l IH]; cbn; intros Hnd Hk Hk' E; [contradiction|].
          inversion Hnd as [|? ? Ha Hnd']; subst. destruct Hk as [<-|Hk], Hk' as [<-|Hk']; try reflexivity.
          - exfalso. apply Ha. apply in_map_iff. eauto.
          - exfalso. apply Ha. apply in_map_iff. eauto.
          - apply IH; assumption. }
        subst k'. apply negb_true_iff in Ho. unfold own_removed in Ho. rewrite E, (proj2 (existsb_eqb_in _ _) Hr') in Ho. discriminate.
      - intros [(k & E & Hk) Hn]. exists k. split; [assumption|]. apply filter_In. split; [assumption|]. apply negb_true_iff.
        unfold own_removed. destruct (existsb _ _) eqn:Ee; [|reflexivity]. exfalso. apply Hn. apply existsb_eqb_in in Ee. rewrite E in Ee. eauto. }
    rewrite Hkept. split.
    - intros [Hv|Hv]; [auto|]. apply in_map_iff in Hv. destruct Hv as (a & <- & Hv). right. exists a. auto.
    - intros [Hv|(a & Ha & [->|Hw])]; [auto|right; apply in_map; assumption|].
      destruct (Hl a v Ha Hw) as [Hx|Hx]; auto.
  Qed.

  (** the calls made between snapshots [a] and [b] link new nodes only to nodes that exist after the step *)
  Definition links_ok (g : args) (k : nat) (a b : snap (L:=L) (V:=V) (A:=A) (U:=U)) : Prop :=
    forall past inp u ks u', activities_step W g (h_net a) (h_act a) (Z.of_nat k + 1) past inp u ks u' (h_act b) -> links_exist (h_net a) ks.

  Lemma keys_follow_nodes fuel (u0 : U) n initial ts inp (g : args) r uf traj :
    g_memo g = false -> g_topo g = None -> g_order g = ACTIVITIES_FIRST -> g_rule g = Some r ->
    g_comp g = false -> g_pact g = true -> g_pnet g = true -> NoDup (nodes n) ->
    (forall u x u' o w, r u x = Ok (u', o) -> In w (o_removed o) -> w = x_label x) ->
    (forall v, In v (dkeys (match initial with None => [] | Some c => to_dict W c end)) <-> In v (nodes n)) ->
    evolve W fuel u0 n initial ts inp g = Ok (uf, traj) ->
    exists infn hs, run_spec W infn g u0 (match initial with None => [] | Some c => to_dict W c end) n hs uf traj /\
      Forall2 (fun s h => activities W s = Ok (shown_acts (h_act h)) /\ state_network W s = Ok (shown_net (h_net h))) traj hs /\
      forall k h, nth_error hs k = Some h ->
        (forall j a b, (j < k)%nat -> nth_error hs j = Some a -> nth_error hs (S j) = Some b -> links_ok g j a b) ->
        forall v, In v (dkeys (h_act h)) <-> In v (nodes (h_net h)).
  Proof.
    intros Hmemo Ht Ho Hr Hc Hpa Hpn Hnd Hown Hinit E.
    assert (Hok : topo_ok g) by (intros f u c u' n' Ef; congruence).
    destruct (evolve_meets_spec W fuel u0 n initial ts inp g uf traj Hmemo Hnd Hok (or_introl Ht) E) as (infn & hs & Hin & Hrun).
    exists infn, hs. split; [assumption|]. split; [apply (run_shows _ _ _ _ _ _ _ _ Hc Hpa Hpn Hrun)|].
    assert (Hk : forall k a, nth_error hs k = Some a -> NoDup (nodes (h_net a)) /\ 
      ((forall j a b, (j < k)%nat -> nth_error hs j = Some a -> nth_error hs (S j) = Some b -> links_ok g j a b) ->
       forall v, In v (dkeys (h_act a)) <-> In v (nodes (h_net a)))).
    { induction k as [|k IH]; intros a Eka.
      - rewrite (rs_first _ _ _ _ _ _ _ _ _ Hrun) in Eka. injection Eka as <-. split; [assumption|]. intros _. assumption.
      - destruct (nth_error hs k) as [a0|] eqn:Ea0.
        2: { apply nth_error_None in Ea0. assert (nth_error hs (S k) = None) by (apply nth_error_None; lia). congruence. }
        destruct (IH _ eq_refl) as [Hnd0 _]. destruct (rs_step _ _ _ _ _ _ _ _ _ Hrun k a0 a Ea0 Eka) as (u & i & past & s & _ & _ & Hts & _).
        unfold timestep in Hts. rewrite Ho in Hts. destruct Hts as (ks & u1 & n1 & Hact & Hadj & Htop).
        unfold topology_step in Htop. rewrite Ht in Htop. destruct Htop as [_ Hn1]. rewrite Hn1. split; [eapply adjusted_nodup; eassumption|].
        intros Hlinks. eapply keys_step; try eassumption. eapply (Hlinks k a0 a); [lia|eassumption|eassumption|eassumption]. }
    intros k h Ek. apply (Hk k h Ek).
  Qed.
End Proofs3.

(** * copy_network: isolation and sharing *)
From Verif Require Import Py PyFacts ListFacts Network Evolve EvolveSpec EvolveProofs EvolveProofs2 EvolveProofs3 Heap.
Open Scope string_scope.
Open Scope list_scope.
Open Scope Z_scope.

Section HeapProofs.
  Context {L V A U I BA BN : Type} `{EqD L} `{EqD A}.
  Context (W : env L V A BA BN).

  Notation network := (network L V).
  Notation acts := (dict L A).
  Notation args := (@args L V A U I).
  Notation heap := (list network).
  Notation memokey := (@memokey L V A I).
  Notation irule := (@irule L V A U).
  Notation hcfg mk := (@hcfg L V A U I BA mk).
  Notation config mk := (@cfg L V A U I BA BN mk).

  Lemma hget_app (h e : heap) r : (r < length h)%nat -> hget (h ++ e) r = hget h r.
  Proof. intros Hr. unfold hget. apply app_nth1. assumption. Qed.
  Lemma hget_last (h : heap) n : hget (h ++ [n]) (length h) = n.
  Proof. unfold hget. rewrite app_nth2, Nat.sub_diag by lia. reflexivity. Qed.

  Lemma upd_nth_last (h : heap) n n' : upd_nth (h ++ [n]) (length h) (fun _ => n') = h ++ [n'].
  Proof. induction h; cbn; [reflexivity|]. f_equal. assumption. Qed.

  (** ** copy_network=True *)
  Section Isolated.
    Context (g : args) (f : option irule) (mk : memokey).
    Context (Hcopy : g_copy g = true) (Hcomp : g_comp g = false).
    Let gv := set_topo g (option_map value_rule f).

    (** the heap only grows *)
    Lemma htopology_val t u a (h : heap) r added removed : (r < length h)%nat ->
      res_rel (fun x y => fst (fst x) = fst y /\ (exists e, snd (fst x) = h ++ e) /\ (snd x < length (snd (fst x)))%nat /\ hget (snd (fst x)) (snd x) = snd y)
        (htopology W g f t u a h r added removed) (evolve_topology W gv t u a (hget h r) added removed).
    Proof.
      intros Hr. unfold htopology, evolve_topology.
      assert (H1 : res_rel (fun (x : heap * nat) (y : network) => (exists e, fst x = h ++ e) /\ (snd x < length (fst x))%nat /\ hget (fst x) (snd x) = y)
         match added, removed with [], [] => Ok (h, r) | _, _ => match adjust_nodes W added removed (copy (hget h r)) with (n, Ok _) => Ok (h ++ [n], length h) | (_, Err e) => Err e end end
         match added, removed with [], [] => Ok (hget h r) | _, _ => match adjust_nodes W added removed (copy (hget h r)) with (n, Ok _) => Ok n | (_, Err e) => Err e end end).
      { assert (Hadj : res_rel (fun (x : heap * nat) (y : network) => (exists e, fst x = h ++ e) /\ (snd x < length (fst x))%nat /\ hget (fst x) (snd x) = y)
           match adjust_nodes W added removed (copy (hget h r)) with (n, Ok _) => Ok (h ++ [n], length h) | (_, Err e) => Err e end
           match adjust_nodes W added removed (copy (hget h r)) with (n, Ok _) => Ok n | (_, Err e) => Err e end).
        { destruct (adjust_nodes W added removed (copy (hget h r))) as [n [[]|e]]; cbn; [|reflexivity].
          split; [eexists; reflexivity|]. split; [rewrite ?app_length; cbn [length]; lia|apply hget_last]. }
        destruct added, removed; try exact Hadj. cbn. split; [exists []; rewrite app_nil_r; reflexivity|]. auto. }
      eapply res_rel_bind; [exact H1|]. intros [h1 r1] n1 (( e & E1) & Hr1 & E2). cbn [fst snd] in *. subst n1.
      unfold gv. cbn [set_topo g_topo g_copy]. rewrite Hcopy. destruct f as [ff|]; cbn [option_map].
      - rewrite hget_last. unfold value_rule. destruct (ff u (mkTopo (copy (hget h1 r1)) a t)) as [[[u' n'] ret]|ex]; [|reflexivity]. cbn [rbind].
        rewrite upd_nth_last. destruct ret as [|m|]; [| |reflexivity].
        + destruct (net_nodes n'); [reflexivity|]. cbn. split; [reflexivity|]. split; [exists (e ++ [n']); rewrite E1, <- app_assoc; reflexivity|].
          split; [rewrite ?app_length; cbn [length]; lia|apply hget_last].
        + destruct (net_nodes m); [reflexivity|]. cbn. split; [reflexivity|]. split; [exists (e ++ [n'] ++ [m]); rewrite E1, <- !app_assoc; reflexivity|].
          split; [rewrite ?app_length; cbn [length]; lia|apply hget_last].
      - cbn. split; [reflexivity|]. split; [eauto|]. split; [assumption|reflexivity].
    Qed.

    Definition refs_ok (h : heap) (s : @hstate L A BA) : Prop := forall r, snd s = Some r -> (r < length h)%nat.

    Lemma read_app (h e : heap) (s : @hstate L A BA) : refs_ok h s -> read (BN:=BN) (h ++ e) s = read h s.
    Proof. destruct s as [sa [r|]]; intros Hs; unfold read; cbn; [|reflexivity]. rewrite hget_app by (apply Hs; reflexivity). reflexivity. Qed.

    Definition heap_rel (n0 : network) (k : hcfg mk) (c : config mk) : Prop :=
      k_u k = c_u c /\ k_act k = c_act c /\ k_tab k = c_tab c /\ k_map k = c_map c /\
      (k_net k < length (k_heap k))%nat /\ hget (k_heap k) (k_net k) = c_net c /\
      Forall (refs_ok (k_heap k)) (k_traj k) /\ map (read (k_heap k)) (k_traj k) = c_traj c /\
      (0 < length (k_heap k))%nat /\ hget (k_heap k) 0 = n0.

    Lemma hrecord_val h r : (r < length h)%nat ->
      exists sn, record_network W gv (hget h r) = Ok sn /\ forall sa, read h (sa, hrecord g h r) = mkState sa sn /\ refs_ok h (sa, hrecord g h r).
    Proof.
      intros Hr. unfold record_network, hrecord, hset_network, set_network, gv. cbn [set_topo g_pnet g_comp]. rewrite Hcomp. destruct (g_pnet g).
      - destruct (net_nodes (hget h r)).
        + exists None. repeat split. intros r' E. discriminate.
        + eexists. split; [reflexivity|]. intros sa. split; [reflexivity|]. intros r' E. cbn in E. injection E as <-. assumption.
      - exists None. repeat split. intros r' E. discriminate.
    Qed.

    Lemma heap_rel_grow n0 u a r tab m (tr : list (@hstate L A BA)) (h e : heap) sa rn c_n c_tr :
      (r < length (h ++ e))%nat -> hget (h ++ e) r = c_n -> Forall (refs_ok h) tr -> map (read h) tr = c_tr ->
      (0 < length h)%nat -> hget h 0 = n0 -> refs_ok (h ++ e) (sa, rn) ->
      heap_rel n0 (mkH u a r tab m (tr ++ [(sa, rn)]) (h ++ e)) (mkCfg u a c_n tab m (c_tr ++ [read (h ++ e) (sa, rn)])).
    Proof.
      intros Hr Hg Htr Etr Hl H0' Hrn. unfold heap_rel. cbn [k_u c_u k_act c_act k_tab c_tab k_map c_map k_heap k_net c_net k_traj c_traj].
      split; [reflexivity|]. split; [reflexivity|]. split; [reflexivity|]. split; [reflexivity|]. split; [assumption|]. split; [assumption|]. split.
      - apply Forall_app. split; [|constructor; [assumption|constructor]]. eapply Forall_impl; [|exact Htr].
        intros s Hs r' E. rewrite app_length. specialize (Hs r' E). lia.
      - split.
        + rewrite map_app. f_equal. rewrite <- Etr. apply map_ext_in. intros s Hs. rewrite Forall_forall in Htr. apply read_app, Htr. assumption.
        + split; [rewrite app_length; lia|]. rewrite hget_app by assumption. assumption.
    Qed.

    Lemma hstep_val n0 t inp k c : heap_rel n0 k c -> res_rel (heap_rel n0) (hstep W g f mk t inp k) (step W gv mk t inp c).
    Proof.
      intros (E1 & E2 & E3 & E4 & Hr & E5 & Htr & E6 & Hl & E7). unfold hstep, step. rewrite <- E1, <- E2, <- E3, <- E4, <- E5.
      rewrite <- E6 at 1. change (get_past W gv) with (get_past W g). change (g_order gv) with (g_order g).
      change (@record_activities _ _ _ _ _ _ _ W gv) with (record_activities W g).
      change (@evolve_activities _ _ _ _ _ _ _ _ W gv) with (evolve_activities W g).
      apply res_rel_same. intros past _. destruct (g_order g).
      - apply res_rel_same. intros s _. apply res_rel_same. intros sa _.
        eapply res_rel_bind; [apply htopology_val; exact Hr|]. intros [[u2 h2] r2] [u2' n2] (F1 & (e & F2) & F3 & F4). cbn [fst snd] in *. subst u2' h2 n2.
        destruct (hrecord_val (k_heap k ++ e) r2 F3) as (sn & -> & Er). destruct (Er sa) as [Er' Hrn]. cbn [rbind]. cbn [res_rel]. rewrite <- Er'. apply heap_rel_grow; auto.
      - eapply res_rel_bind; [apply htopology_val; exact Hr|]. intros [[u2 h2] r2] [u2' n2] (F1 & (e & F2) & F3 & F4). cbn [fst snd] in *. subst u2' h2 n2.
        destruct (hrecord_val (k_heap k ++ e) r2 F3) as (sn & -> & Er). cbn [rbind].
        apply res_rel_same. intros s _. apply res_rel_same. intros sa _. destruct (Er sa) as [Er' Hrn].
        cbn [res_rel]. rewrite <- Er'. apply heap_rel_grow; auto.
      - eapply res_rel_bind; [apply htopology_val; exact Hr|]. intros [[u2 h2] r2] [u2' n2] (F1 & (e & F2) & F3 & F4). cbn [fst snd] in *. subst u2' h2 n2.
        destruct (hrecord_val (k_heap k ++ e) r2 F3) as (sn & -> & Er). cbn [rbind]. rewrite hget_app by assumption.
        apply res_rel_same. intros s _. apply res_rel_same. intros sa _. destruct (Er sa) as [Er' Hrn].
        cbn [res_rel]. rewrite <- Er'. apply heap_rel_grow; auto.
    Qed.

    Lemma hloop_val n0 infn fuel : forall t k c, heap_rel n0 k c -> res_rel (heap_rel n0) (hloop W g f mk infn fuel t k) (loop W gv mk infn fuel t c).
    Proof.
      induction fuel as [|fu IH]; intros t k c Hr; cbn [hloop loop]; [reflexivity|].
      pose proof Hr as (E1 & E2 & E3 & E4 & Hrr & E5 & Htr & E6 & Hl & E7). rewrite <- E1, <- E2, <- E5. apply res_rel_same. intros [u [i|]] _.
      - eapply res_rel_bind; [apply (hstep_val n0)|intros x y Hxy; apply IH; exact Hxy].
        unfold heap_rel, hwith_u, with_u. cbn. auto 12.
      - cbn. unfold heap_rel, hwith_u, with_u. cbn. auto 12.
    Qed.
  End Isolated.

  Lemma hevolve_val fuel (u0 : U) n initial ts inp (g : args) f : g_copy g = true -> g_comp g = false ->
    res_rel (fun x y => fst (fst x) = fst y /\ map (read (snd (fst x))) (snd x) = snd y /\ nth_error (snd (fst x)) 0 = Some n)
      (hevolve W fuel u0 n initial ts inp g f) (evolve W fuel u0 n initial ts inp (set_topo g (option_map value_rule f))).
  Proof.
    intros Hcopy Hcomp. unfold hevolve, evolve. cbn [set_topo g_key g_rule g_topo g_comp]. rewrite Hcomp.
    apply res_rel_same. intros infn _. match goal with |- context[if ?b then _ else _] => destruct b end; [reflexivity|].
    apply res_rel_same. intros sa _.
    assert (Hsn : exists sn, set_network W false n = Ok sn /\ read [n] (sa, hset_network [n] 0) = mkState sa sn /\ refs_ok [n] (sa, hset_network [n] 0)).
    { unfold set_network, hset_network, hget. cbn [nth]. destruct (net_nodes n) eqn:En.
      - eexists. split; [reflexivity|]. split; [reflexivity|]. intros r E. discriminate.
      - eexists. split; [reflexivity|]. split; [reflexivity|]. intros r E. cbn in E. injection E as <-. cbn. lia. }
    destruct Hsn as (sn & -> & Er & Hok). cbn [rbind]. cbn zeta.
    set (mk := match g_key g with Some k => k | None => default_key n end).
    eapply res_rel_bind.
    - apply (hloop_val g f mk Hcopy Hcomp n). unfold heap_rel. cbn [k_u c_u k_act c_act k_tab c_tab k_map c_map k_heap k_net c_net k_traj c_traj length map].
      rewrite Er. split; [reflexivity|]. split; [reflexivity|]. split; [reflexivity|]. split; [destruct f; reflexivity|].
      split; [lia|]. split; [reflexivity|]. split; [constructor; [exact Hok|constructor]|]. split; [reflexivity|]. split; [lia|reflexivity].
    - intros k c (E1 & _ & _ & _ & _ & _ & _ & E6 & Hl & E7). cbn. split; [assumption|]. split; [assumption|].
      destruct (k_heap k) as [|m h]; cbn in *; [lia|]. unfold hget in E7. cbn in E7. congruence.
  Qed.

  (** ** copy_network=False with an in-place rule *)
  Section Shared.
    Context (g : args) (f : irule) (mk : memokey).
    Context (Hcopy : g_copy g = false).
    Context (Hsame : forall u c u' n' ret, f u c = Ok (u', n', ret) -> ret = Same).
    Context (Hins : no_insert g \/ g_order g <> ACTIVITIES_FIRST).

    Definition single (k : hcfg mk) : Prop :=
      k_net k = 0%nat /\ length (k_heap k) = 1%nat /\ Forall (fun s => snd s = None \/ snd s = Some 0%nat) (k_traj k).

    Lemma htopology_shared t u a (h : heap) r u' h' r' : length h = 1%nat -> r = 0%nat -> htopology W g (Some f) t u a h r [] [] = Ok (u', h', r') ->
      length h' = 1%nat /\ r' = 0%nat.
    Proof.
      intros Hl Hr E. unfold htopology in E. cbn [rbind] in E. rewrite Hcopy in E. inv_bind E x Ef. destruct x as [[u1 n'] ret].
      pose proof (Hsame _ _ _ _ _ Ef). subst ret. destruct (net_nodes n'); [discriminate|]. injection E as <- <- <-. rewrite length_upd_nth. auto.
    Qed.

    Lemma hrecord_shared h : hrecord g (h : heap) 0 = None \/ hrecord g h 0 = Some 0%nat.
    Proof. unfold hrecord, hset_network. destruct (g_pnet g); [|auto]. destruct (net_nodes _); auto. Qed.

    Lemma no_insert_activities t inp u prev tab n past nmap (s : nst mk) : no_insert g ->
      evolve_activities W g mk t inp u prev tab n past nmap = Ok s -> s_added s = [] /\ s_removed s = [].
    Proof.
      intros Hni E. unfold evolve_activities in E. destruct (g_rule g) as [r|] eqn:Er; [|injection E as <-; auto].
      inv_bind E s1 E1. injection E as <-. cbn [s_added s_removed]. unfold do_activity_rule in E1.
      assert (Hgen : forall vs (s s' : nst mk), rfold (node_step W g mk r t inp prev n past nmap) vs s = Ok s' -> s_added s = [] -> s_removed s = [] -> s_added s' = [] /\ s_removed s' = []).
      { clear E1. induction vs as [|v vs IH]; intros s s' E Ha Hr; cbn [rfold] in E; [injection E as <-; auto|].
        inv_bind E s2 E2. apply (IH _ _ E); unfold node_step in E2; inv_bind E2 x Ex; inv_bind E2 y Ey; destruct y as [[u1 tab1] o].
        all: assert (Ho : o_added o = [] /\ o_removed o = []) by
          (unfold apply_rule in Ey; destruct (g_memo g); [destruct (mem_find mk (s_tab s) (mk_to mk x)); [injection Ey as <- <- <-; auto|]|];
           inv_bind Ey uo Euo; destruct uo as [u2 o2]; injection Ey as <- <- <-; eapply Hni; eassumption).
        all: destruct Ho as [Ho1 Ho2]; rewrite Ho1, Ho2, Ha, Hr in E2; destruct (g_pert g); [inv_bind E2 b Eb; inv_bind E2 ua Eua; destruct ua|]; injection E2 as <-; reflexivity. }
      apply (Hgen _ _ _ E1); reflexivity.
    Qed.

    Lemma hstep_shared t inp k k' : single k -> hstep W g (Some f) mk t inp k = Ok k' -> single k'.
    Proof.
      intros (E1 & E2 & E3) E. unfold hstep in E. inv_bind E past Ep. unfold single. destruct (g_order g) eqn:Eo.
      - inv_bind E s Es. inv_bind E sa Esa. inv_bind E x Ex. destruct x as [[u2 h2] r2].
        destruct Hins as [Hni|]; [|congruence]. destruct (no_insert_activities _ _ _ _ _ _ _ _ _ Hni Es) as [Ea Er]. rewrite Ea, Er in *.
        injection E as <-. cbn [k_net k_heap k_traj]. destruct (htopology_shared _ _ _ _ _ _ _ _ E2 E1 Ex) as [-> ->].
        split; [reflexivity|]. split; [reflexivity|]. apply Forall_app. split; [assumption|]. constructor; [apply hrecord_shared|constructor].
      - inv_bind E x Ex. destruct x as [[u2 h2] r2]. inv_bind E s Es. inv_bind E sa Esa. injection E as <-. cbn [k_net k_heap k_traj].
        destruct (htopology_shared _ _ _ _ _ _ _ _ E2 E1 Ex) as [-> ->].
        split; [reflexivity|]. split; [reflexivity|]. apply Forall_app. split; [assumption|]. constructor; [apply hrecord_shared|constructor].
      - inv_bind E x Ex. destruct x as [[u2 h2] r2]. inv_bind E s Es. inv_bind E sa Esa. injection E as <-. cbn [k_net k_heap k_traj].
        destruct (htopology_shared _ _ _ _ _ _ _ _ E2 E1 Ex) as [-> ->].
        split; [reflexivity|]. split; [reflexivity|]. apply Forall_app. split; [assumption|]. constructor; [apply hrecord_shared|constructor].
    Qed.

    Lemma hloop_shared infn fuel : forall t k k', single k -> hloop W g (Some f) mk infn fuel t k = Ok k' -> single k'.
    Proof.
      induction fuel as [|fu IH]; intros t k k' Hs E; cbn [hloop] in E; [discriminate|].
      inv_bind E ui Ei. destruct ui as [u [i|]].
      - inv_bind E k1 Ek. eapply IH; [|exact E]. eapply hstep_shared; [|exact Ek]. exact Hs.
      - injection E as <-. exact Hs.
    Qed.
  End Shared.

  Lemma hevolve_shared fuel (u0 : U) n initial ts inp (g : args) f uf hf traj : g_copy g = false ->
    (forall u c u' n' ret, f u c = Ok (u', n', ret) -> ret = Same) -> (no_insert g \/ g_order g <> ACTIVITIES_FIRST) ->
    hevolve W fuel u0 n initial ts inp g (Some f) = Ok (uf, hf, traj) ->
    exists nf, hf = [nf] /\ forall s m, In s traj -> st_net (read (BN:=BN) hf s) = Some m -> m = Raw nf.
  Proof.
    intros Hcopy Hsame Hins E. unfold hevolve in E. inv_bind E infn Ein. match type of E with (if ?b then _ else _) = _ => destruct b end; [discriminate|].
    inv_bind E sa Esa. inv_bind E k Ek. injection E as <- <- <-.
    match type of Ek with hloop _ _ _ ?m _ _ _ _ = _ => pose proof (fun Hs => hloop_shared g f m Hcopy Hsame Hins _ _ _ _ _ Hs Ek) as Hl end.
    destruct Hl as (E1 & E2 & E3).
    { split; [reflexivity|]. split; [reflexivity|]. constructor; [|constructor]. cbn [snd]. unfold hset_network. destruct (net_nodes _); auto. }
    destruct (k_heap k) as [|nf [|]]; cbn in E2; try lia. exists nf. split; [reflexivity|].
    intros s m Hin Em. rewrite Forall_forall in E3. specialize (E3 s Hin). unfold read in Em. cbn in Em. destruct E3 as [E3|E3]; rewrite E3 in Em; cbn in Em; congruence.
  Qed.

  (** ** SYNCHRONOUS without copying is TOPOLOGY_FIRST *)
  Definition set_order (g : args) (o : update_order) : args :=
    mkArgs (g_rule g) (g_topo g) (g_pert g) (g_past g) o (g_copy g) (g_comp g) (g_pact g) (g_pnet g) (g_memo g) (g_key g).

  Lemma hstep_sync (g : args) f mk t inp (k : hcfg mk) : g_copy g = false -> (forall u c u' n' ret, f u c = Ok (u', n', ret) -> ret = Same) ->
    hstep W (set_order g SYNCHRONOUS) (Some f) mk t inp k = hstep W (set_order g TOPOLOGY_FIRST) (Some f) mk t inp k.
  Proof.
    intros Hcopy Hsame. unfold hstep. cbn [set_order g_order].
    change (get_past W (set_order g SYNCHRONOUS)) with (get_past W g). change (get_past W (set_order g TOPOLOGY_FIRST)) with (get_past W g).
    destruct (get_past W g _ t) as [past|]; [|reflexivity]. cbn [rbind].
    change (@htopology _ _ _ _ _ _ _ _ W (set_order g SYNCHRONOUS) (Some f)) with (htopology W g (Some f)).
    change (@htopology _ _ _ _ _ _ _ _ W (set_order g TOPOLOGY_FIRST) (Some f)) with (htopology W g (Some f)).
    destruct (htopology W g (Some f) t (k_u k) (k_act k) (k_heap k) (k_net k) [] []) as [[[u2 h2] r2]|] eqn:Eh; [|reflexivity]. cbn [rbind].
    assert (r2 = k_net k).
    { unfold htopology in Eh. cbn [rbind] in Eh. rewrite Hcopy in Eh. inv_bind Eh x Ef. destruct x as [[u1 n'] ret].
      pose proof (Hsame _ _ _ _ _ Ef). subst ret. destruct (net_nodes n'); [discriminate|]. injection Eh as <- <- <-. reflexivity. }
    subst r2. reflexivity.
  Qed.

  Lemma hevolve_sync fuel (u0 : U) n initial ts inp (g : args) f : g_copy g = false -> (forall u c u' n' ret, f u c = Ok (u', n', ret) -> ret = Same) ->
    hevolve W fuel u0 n initial ts inp (set_order g SYNCHRONOUS) (Some f) = hevolve W fuel u0 n initial ts inp (set_order g TOPOLOGY_FIRST) (Some f).
  Proof.
    intros Hcopy Hsame. unfold hevolve. cbn [set_order g_key g_rule].
    destruct (get_input_function ts inp) as [infn|]; [|reflexivity]. cbn [rbind].
    match goal with |- context[if ?b then _ else _] => destruct b end; [reflexivity|].
    destruct (set_activities _ _ _) as [sa|]; [|reflexivity]. cbn [rbind].
    match goal with |- rbind (hloop _ _ _ ?k _ _ _ ?c) _ = _ => generalize c; generalize 1 as t; generalize k as mk end. intros mk t c.
    assert (Hl : hloop W (set_order g SYNCHRONOUS) (Some f) mk infn fuel t c = hloop W (set_order g TOPOLOGY_FIRST) (Some f) mk infn fuel t c).
    { revert t c. induction fuel as [|fu IH]; intros t c; cbn [hloop]; [reflexivity|].
      destruct (infn _ t _ _) as [[u [i|]]|]; cbn [rbind]; try reflexivity.
      rewrite hstep_sync by assumption. destruct (hstep W (set_order g TOPOLOGY_FIRST) (Some f) mk t i _); cbn [rbind]; [apply IH|reflexivity]. }
    rewrite Hl. reflexivity.
  Qed.
End HeapProofs.

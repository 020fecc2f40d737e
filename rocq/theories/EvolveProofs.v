(** * The model of evolve meets its reference semantics *)
From Verif Require Import Py PyFacts ListFacts Network Evolve EvolveSpec.
Open Scope string_scope.
Open Scope list_scope.
Open Scope Z_scope.

Lemma rbind_inv {A B} (m : res A) (f : A -> res B) b : rbind m f = Ok b -> exists a, m = Ok a /\ f a = Ok b.
Proof. destruct m as [a|]; cbn; [eauto|discriminate]. Qed.

Ltac inv_bind H x E := apply rbind_inv in H; destruct H as [x [E H]].

Lemma of_opt_inv {A} e (o : option A) x : of_opt e o = Ok x -> o = Some x.
Proof. destruct o; cbn; congruence. Qed.

Lemma rmap_Forall2 {A B} (f : A -> res B) l bs : rmap f l = Ok bs -> Forall2 (fun x b => f x = Ok b) l bs.
Proof.
  revert bs. induction l as [|x xs IH]; cbn; intros bs E; [injection E as <-; constructor|].
  inv_bind E y Ey. inv_bind E ys Eys. injection E as <-. constructor; auto.
Qed.

Lemma Forall2_impl {A B} (P Q : A -> B -> Prop) l l' : (forall a b, P a b -> Q a b) -> Forall2 P l l' -> Forall2 Q l l'.
Proof. intros Hi. induction 1; constructor; auto. Qed.

Section Proofs.
  Context {L V A U I BA BN : Type} `{EqD L} `{EqD A}.
  Context (W : env L V A BA BN).

  Notation network := (network L V).
  Notation attrs := (dict string V).
  Notation acts := (dict L A).
  Notation ctx := (node_ctx L V A I).
  Notation args := (@args L V A U I).
  Notation state := (state L V A BA BN).
  Notation input_fn := (@input_fn L V A U I).
  Notation memokey := (@memokey L V A I).
  Notation config mk := (@cfg L V A U I BA BN mk).

  (** ** node labels stay distinct *)
  Definition keeps (m : mut (L:=L) (V:=V) unit) : Prop := forall n, NoDup (nodes n) -> NoDup (nodes (fst (m n))).

  Lemma keeps_ret x : keeps (mret x).
  Proof. intros n Hn. exact Hn. Qed.
  Lemma keeps_raise e : keeps (mraise e).
  Proof. intros n Hn. exact Hn. Qed.
  Lemma keeps_then m k : keeps m -> keeps k -> keeps (mthen m k).
  Proof.
    intros Hm Hk n Hn. unfold mthen, mbind. specialize (Hm n Hn). destruct (m n) as [n' [x|e]]; [apply Hk|]; assumption.
  Qed.
  Lemma keeps_lookup v (f : node L V -> mut unit) : (forall nd, keeps (f nd)) -> keeps (mbind (lookup v) f).
  Proof. intros Hf n Hn. unfold mbind, lookup. destruct (dget (net_nodes n) v) as [nd|]; cbn; [apply Hf; assumption|assumption]. Qed.
  Lemma keeps_for {X} (l : list X) f : (forall x, In x l -> keeps (f x)) -> keeps (mfor l f).
  Proof.
    induction l as [|x xs IH]; intros Hf; cbn; [apply keeps_ret|]. apply keeps_then; [apply Hf; left; reflexivity|].
    apply IH. intros; apply Hf; right; assumption.
  Qed.
  Lemma keeps_on v f : keeps (on_node v f).
  Proof. intros n Hn. unfold on_node. destruct (dget (net_nodes n) v); cbn; [|assumption]. apply NoDup_dset. assumption. Qed.
  Lemma keeps_init v : keeps (init_node v).
  Proof. intros n Hn. unfold init_node. destruct (dmem (net_nodes n) v); cbn; [assumption|]. apply NoDup_dset. assumption. Qed.
  Lemma keeps_add_edge i j a : keeps (add_edge i j a).
  Proof. unfold add_edge. destruct (kwargs_clash _ a); [apply keeps_raise|]. repeat apply keeps_then; try apply keeps_init; apply keeps_on. Qed.
  Lemma keeps_add_node v a : keeps (add_node v a).
  Proof.
    unfold add_node. destruct (kwargs_clash _ a); [apply keeps_raise|]. destruct (kwargs_clash _ a); [apply keeps_raise|].
    apply keeps_then; [apply keeps_init|apply keeps_on].
  Qed.
  Lemma keeps_remove_node v : keeps (remove_node v).
  Proof.
    unfold remove_node. apply keeps_lookup. intros nd. apply keeps_then.
    - apply keeps_for. intros x _. apply keeps_then; apply keeps_on.
    - apply keeps_lookup. intros nd'. apply keeps_then.
      + apply keeps_for. intros x _. apply keeps_then; apply keeps_on.
      + intros n Hn. cbn. apply NoDup_ddel. assumption.
  Qed.
  Lemma keeps_adjust added removed : keeps (adjust_nodes W added removed).
  Proof.
    unfold adjust_nodes. apply keeps_then.
    - apply keeps_for. intros; apply keeps_remove_node.
    - apply keeps_for. intros [[a l] v] _. unfold add_one. apply keeps_then; [apply keeps_add_node|].
      apply keeps_for. intros; apply keeps_add_edge.
  Qed.

  (** ** contexts *)

  (** the neighbourhood map, when there is one, is that of the network in force *)
  Definition map_ok (nmap : option (dict L (list L))) (n : network) : Prop :=
    match nmap with None => True | Some m => m = get_neighbourhood_map n end.

  Lemma nbrs_ok v nmap n conn l : map_ok nmap n -> in_edges n v = Ok conn -> get_neighbour_labels v nmap n conn = Ok l -> nbrs_of n v l.
  Proof.
    intros Hm Hc E. unfold nbrs_of. destruct nmap as [m|]; cbn in *.
    - apply of_opt_inv in E. subst m. unfold get_neighbourhood_map in E. destruct (net_rot n) as [r|]; [assumption|].
      unfold in_neighbours_map in E. unfold in_edges in *. inv_bind Hc nd End. apply of_opt_inv in End. injection Hc as <-.
      rewrite End. cbn. exists (n_inc nd). split; [reflexivity|].
      assert (Hd : dget (map (fun kv : L * node L V => (fst kv, dkeys (n_inc (snd kv)))) (net_nodes n)) v = Some (dkeys (n_inc nd))).
      { clear - End. induction (net_nodes n) as [|[k x] d IH]; cbn in *; [discriminate|]. destruct (eqd v k); [congruence|auto]. }
      rewrite Hd in E. injection E as <-. reflexivity.
    - destruct (net_rot n) as [r|]; [apply of_opt_inv in E; assumption|]. injection E as <-. eauto.
  Qed.

  Lemma node_input_ok (inp : inval I) v x : node_input W inp v = Ok x -> input_of W inp v x.
  Proof.
    unfold node_input, input_of. destruct inp as [s|l|y].
    - destruct (String.eqb s "__timestep__"); [congruence|]. intros E. inv_bind E i Ei. inv_bind E c Ec.
      apply of_opt_inv in Ei, Ec. injection E as <-. eauto.
    - intros E. inv_bind E i Ei. inv_bind E c Ec. apply of_opt_inv in Ei, Ec. injection E as <-. eauto.
    - congruence.
  Qed.

  Lemma node_context_ok t inp prev n past nmap v (x : ctx) : map_ok nmap n ->
    node_context W t inp prev n past nmap v = Ok x -> ctx_for W n prev t past inp v x.
  Proof.
    intros Hm E. unfold node_context in E. inv_bind E conn Ec. inv_bind E nbrs En. inv_bind E cur Ecu. inv_bind E na Ena. inv_bind E ni Eni.
    injection E as <-. apply of_opt_inv in Ecu. apply rmap_Forall2 in Ena.
    constructor; cbn; try reflexivity; try assumption.
    - eapply nbrs_ok; eassumption.
    - eapply Forall2_impl; [|exact Ena]. intros a b E. apply of_opt_inv in E. assumption.
    - apply node_input_ok. assumption.
  Qed.

  (** ** the invocations of one timestep *)
  Lemma apply_rule_nomemo (g : args) (mk : memokey) r u (tab : list (mk_K mk * A)) x u' tab' o : g_memo g = false ->
    apply_rule g mk r u tab x = Ok (u', tab', o) -> r u x = Ok (u', o) /\ tab' = tab.
  Proof.
    intros Hg E. unfold apply_rule in E. rewrite Hg in E. inv_bind E uo Er. destruct uo as [u1 o1]. inversion E; subst. auto.
  Qed.

  Lemma existsb_eqb_in (l : list L) v : existsb (eqb v) l = true <-> In v l.
  Proof.
    rewrite existsb_exists. split; [intros (x & Hx & E); apply eqb_eq in E; subst; assumption|]. intros Hv. exists v. split; [assumption|apply eqb_refl].
  Qed.

  Lemma dkeys_kept (ks : list (call (L:=L) (V:=V) (A:=A) (I:=I))) : forall v, In v (dkeys (kept ks)) -> In v (map (fun k => x_label (k_ctx k)) ks).
  Proof.
    intros v Hv. unfold kept, dkeys in Hv. rewrite map_map in Hv. cbn in Hv. apply in_map_iff in Hv. destruct Hv as (k & <- & Hk).
    apply filter_In in Hk. apply in_map_iff. exists k. tauto.
  Qed.

  Lemma fold_calls (g : args) (mk : memokey) r t inp prev n past nmap : g_memo g = false -> map_ok nmap n ->
    forall vs (s s' : nst mk), NoDup vs -> (forall v, In v vs -> ~ In v (dkeys (s_curr s))) ->
    rfold (node_step W g mk r t inp prev n past nmap) vs s = Ok s' ->
    exists ks, Forall2 (ctx_for W n prev t past inp) vs (map k_ctx ks) /\ calls_from r (g_pert g) (s_u s) ks (s_u s') /\
      s_curr s' = s_curr s ++ kept ks /\ s_added s' = s_added s ++ added_of ks /\ s_removed s' = s_removed s ++ removed_of ks /\ s_tab s' = s_tab s.
  Proof.
    intros Hg Hm. induction vs as [|v vs IH]; intros s s' Hnd Hfr E; cbn [rfold] in E.
    - injection E as <-. exists []. cbn. rewrite !app_nil_r. repeat split; constructor.
    - inv_bind E s1 E1. unfold node_step in E1. inv_bind E1 x Ex. inv_bind E1 uto Er. destruct uto as [[u1 tab1] o].
      apply apply_rule_nomemo in Er; [|assumption]. destruct Er as [Er ->].
      pose proof (node_context_ok _ _ _ _ _ _ _ _ Hm Ex) as Hx.
      inversion Hnd as [|? ? Hv Hnd']; subst.
      assert (Hfv : ~ In v (dkeys (s_curr s))) by (apply Hfr; left; reflexivity).
      destruct (existsb (eqb v) (o_removed o)) eqn:Erm.
      + destruct (g_pert g) as [p|] eqn:Ep.
        * apply dget_none in Hfv. rewrite Hfv in E1. discriminate.
        * injection E1 as <-. pose proof (fun Hf => IH _ _ Hnd' Hf E) as IH'. destruct (IH' ltac:(cbn; intros w Hw; apply Hfr; right; assumption)) as (ks & H1 & H2 & H3 & H4 & H5 & H6).
          exists (mkCall x o (o_act o) :: ks). cbn [s_u s_curr s_added s_removed s_tab map k_ctx] in *.
          split; [constructor; assumption|]. split; [econstructor; [exact Er|split; reflexivity|exact H2]|].
          unfold kept, added_of, removed_of in *. cbn [filter map flat_map own_removed k_ctx k_out]. unfold own_removed. cbn [k_ctx k_out].
          rewrite (cf_label _ _ _ _ _ _ _ _ Hx), Erm. cbn [negb]. rewrite H3, H4, H5, <- !app_assoc. auto.
      + assert (Hgen : forall u2 a, match g_pert g with None => u2 = u1 /\ a = o_act o
                    | Some f => ~ In (x_label x) (o_removed o) /\ f u1 (mkPert (x_label x) (o_act o) (x_time x) (x_input x)) = Ok (u2, a) end ->
             s1 = mkNst u2 (s_curr s ++ [(v, a)]) (s_tab s) (s_added s ++ o_added o) (s_removed s ++ o_removed o) ->
             exists ks, Forall2 (ctx_for W n prev t past inp) (v :: vs) (map k_ctx ks) /\ calls_from r (g_pert g) (s_u s) ks (s_u s') /\
              s_curr s' = s_curr s ++ kept ks /\ s_added s' = s_added s ++ added_of ks /\ s_removed s' = s_removed s ++ removed_of ks /\ s_tab s' = s_tab s).
        { intros u2 a Hp ->. pose proof (fun Hf => IH _ _ Hnd' Hf E) as IH'.
          destruct (IH' ltac:(cbn [s_curr]; intros w Hw; rewrite dkeys_app; intros Hin; apply in_app_or in Hin;
            destruct Hin as [Hin|[<-|[]]]; [apply (Hfr w (or_intror Hw) Hin)|contradiction])) as (ks & H1 & H2 & H3 & H4 & H5 & H6).
          exists (mkCall x o a :: ks). cbn [s_u s_curr s_added s_removed s_tab map k_ctx] in *.
          split; [constructor; assumption|]. split; [econstructor; [exact Er|exact Hp|exact H2]|].
          unfold kept, added_of, removed_of in *. cbn [filter map flat_map own_removed k_ctx k_out]. unfold own_removed. cbn [k_ctx k_out].
          rewrite (cf_label _ _ _ _ _ _ _ _ Hx), Erm. cbn [negb map k_ctx k_fin]. rewrite (cf_label _ _ _ _ _ _ _ _ Hx).
          rewrite H3, H4, H5, <- !app_assoc. auto. }
        rewrite dset_new in E1 by assumption.
        assert (Hnr : ~ In v (o_removed o)) by (intros Hin; apply existsb_eqb_in in Hin; congruence).
        destruct (g_pert g) as [p|] eqn:Ep.
        * inv_bind E1 a0 Ea. apply of_opt_inv in Ea. rewrite dget_app in Ea. rewrite (proj2 (dget_none _ _) Hfv) in Ea. cbn in Ea.
          destruct (eqd v v) as [_|]; [|congruence]. injection Ea as <-.
          inv_bind E1 ua Ep'. destruct ua as [u2 a']. injection E1 as <-.
          apply (Hgen u2 a').
          -- rewrite (cf_label _ _ _ _ _ _ _ _ Hx), (cf_time _ _ _ _ _ _ _ _ Hx). auto.
          -- f_equal. clear - Hfv. induction (s_curr s) as [|[k b] d IH]; cbn in *.
             ++ destruct (eqd v v); [reflexivity|congruence].
             ++ destruct (eqd v k); [exfalso; apply Hfv; left; congruence|]. f_equal. apply IH. tauto.
        * injection E1 as <-. apply (Hgen u1 (o_act o)); auto.
  Qed.

  Lemma evolve_activities_ok (g : args) (mk : memokey) t inp u prev (tab : list (mk_K mk * A)) n past nmap s :
    g_memo g = false -> map_ok nmap n -> NoDup (nodes n) ->
    evolve_activities W g mk t inp u prev tab n past nmap = Ok s ->
    exists ks, activities_step W g n prev t past inp u ks (s_u s) (s_curr s) /\ s_added s = added_of ks /\ s_removed s = removed_of ks /\ s_tab s = tab.
  Proof.
    intros Hg Hm Hnd E. unfold evolve_activities in E. unfold activities_step. destruct (g_rule g) as [r|].
    - inv_bind E s1 E1. unfold do_activity_rule in E1.
      pose proof (fun Hf => fold_calls g mk r t inp prev n past nmap Hg Hm _ _ _ Hnd Hf E1) as Hfc. destruct (Hfc (fun _ _ Hin => Hin)) as (ks & H1 & H2 & H3 & H4 & H5 & H6).
      injection E as <-. exists ks. cbn [s_u s_curr s_added s_removed s_tab app] in *. unfold new_activities. rewrite H3, H4, H5, H6. auto 10.
    - injection E as <-. exists []. cbn. auto.
  Qed.

  Lemma evolve_topology_ok (g : args) t u a prev added removed u' n' :
    evolve_topology W g t u a prev added removed = Ok (u', n') ->
    exists n1, adjusted W prev added removed n1 /\ topology_step g n1 a t u u' n'.
  Proof.
    intros E. unfold evolve_topology in E. inv_bind E n1 E1. exists n1. split.
    - unfold adjusted. destruct added, removed; cbv iota in E1; try (congruence);
        match type of E1 with context[adjust_nodes W ?x ?y (copy prev)] => destruct (adjust_nodes W x y (copy prev)) as [n2 [[]|e]] end; congruence.
    - unfold topology_step. destruct (g_topo g) as [f|].
      + inv_bind E ur Ef. destruct ur as [u1 [n2|]]; [|discriminate]. destruct (net_nodes n2) as [|p d] eqn:En; [discriminate|]. injection E as <- <-.
        split; [assumption|]. unfold nodes. rewrite En. discriminate.
      + injection E as <- <-. auto.
  Qed.

  Lemma adjusted_nodup n added removed n1 : adjusted W n added removed n1 -> NoDup (nodes n) -> NoDup (nodes n1).
  Proof.
    unfold adjusted. intros Ha Hn.
    assert (Hk : adjust_nodes W added removed (copy n) = (n1, Ok tt) -> NoDup (nodes n1)).
    { intros E. pose proof (keeps_adjust added removed (copy n) Hn) as Hk. rewrite E in Hk. exact Hk. }
    destruct added, removed; auto. subst. assumption.
  Qed.

  Lemma topology_step_nodup (g : args) n1 a t u u' n' : topo_ok g -> topology_step g n1 a t u u' n' -> NoDup (nodes n1) -> NoDup (nodes n').
  Proof.
    intros Hok Ht Hn. unfold topology_step in Ht. destruct (g_topo g) as [f|] eqn:Ef.
    - destruct Ht as [Ht _]. eapply Hok; [eassumption|eassumption|]. cbn [t_net]. destruct (g_copy g); assumption.
    - destruct Ht as [_ ->]. assumption.
  Qed.

  (** ** past activities *)
  Lemma past_loop_ok (g : args) traj i : forall last_t acc l, past_loop W g traj i last_t acc = Ok l ->
    exists pre, l = pre ++ acc /\ length pre = i /\
      forall j, (j < i)%nat -> exists e, nth_error pre (i - 1 - j) = Some e /\ past_entry W g traj (last_t - Z.of_nat j) = Ok e.
  Proof.
    induction i as [|i IH]; intros last_t acc l E; cbn [past_loop] in E.
    - injection E as <-. exists []. repeat split. intros; lia.
    - inv_bind E e Ee. destruct (IH _ _ _ E) as (pre & -> & Hl & Hj). exists (pre ++ [e]). rewrite <- app_assoc. split; [reflexivity|].
      split; [rewrite app_length; cbn; lia|]. intros j Hj'. destruct j as [|j].
      + exists e. split; [|rewrite Z.sub_0_r; assumption]. rewrite nth_error_app2 by lia. replace (S i - 1 - 0 - length pre)%nat with 0%nat by lia. reflexivity.
      + destruct (Hj j ltac:(lia)) as (e' & E1 & E2). exists e'. split.
        * rewrite nth_error_app1 by lia. replace (S i - 1 - S j)%nat with (i - 1 - j)%nat by lia. assumption.
        * replace (last_t - Z.of_nat (S j)) with (last_t - 1 - Z.of_nat j) by lia. assumption.
  Qed.

  Lemma py_nth_nonneg {X} (l : list X) i x : 0 <= i -> py_nth l i = Some x -> nth_error l (Z.to_nat i) = Some x.
  Proof.
    intros Hi. unfold py_nth, py_index. destruct (Z.leb_spec 0 i); [|lia]. cbn.
    destruct (Z.ltb_spec i (Z.of_nat (length l))); cbn; [auto|].
    destruct (Z.ltb_spec i 0); [lia|]. rewrite andb_false_r. discriminate.
  Qed.
  Lemma py_nth_neg {X} (l : list X) i x : i < 0 -> py_nth l i = Some x -> nth_error l (Z.to_nat (Z.of_nat (length l) + i)) = Some x.
  Proof.
    intros Hi. unfold py_nth, py_index. destruct (Z.leb_spec 0 i); [lia|]. cbn.
    destruct (- Z.of_nat (length l) <=? i); cbn; [|discriminate]. destruct (Z.ltb_spec i 0); [|lia]. rewrite Z.add_comm. auto.
  Qed.

  Lemma get_past_ok (g : args) traj t past : get_past W g traj t = Ok past -> past_at W g traj t past.
  Proof.
    unfold get_past, past_at. destruct (g_past g) as [|c cs] eqn:Eg; [intros E; injection E as <-; constructor|]. rewrite <- Eg. intros E. inv_bind E l El.
    injection E as <-. destruct (past_loop_ok g traj _ _ _ _ El) as (pre & -> & Hl & Hj). rewrite app_nil_r. split; [assumption|].
    intros k Hk. destruct (Hj (k - 1)%nat ltac:(lia)) as (e & E1 & E2). exists e.
    split; [replace (length (g_past g) - k)%nat with (length (g_past g) - 1 - (k - 1))%nat by lia; assumption|].
    cbn zeta. unfold past_entry in E2. replace (t - 1 - Z.of_nat (k - 1)) with (t - 1 - Z.of_nat k + 1) in E2 by lia.
    set (time := t - 1 - Z.of_nat k) in *.
    destruct (Z.ltb_spec (time + 1) 1) as [Hlt|Hge]; destruct (Z.leb_spec 0 time) as [Hle|Hle]; try lia;
      replace (time + 1 - 1) with time in E2 by lia.
    - inv_bind E2 c0 Ec. apply of_opt_inv in Ec. injection E2 as <-. exists c0. split; [|reflexivity]. apply py_nth_neg; [lia|assumption].
    - inv_bind E2 s Es. apply of_opt_inv in Es. exists s. split; [apply py_nth_nonneg; [lia|assumption]|assumption].
  Qed.

  (** ** one step *)
  Definition inv (g : args) (mk : memokey) (c : config mk) : Prop :=
    NoDup (nodes (c_net c)) /\
    match g_topo g with None => c_map c = Some (get_neighbourhood_map (c_net c)) | Some _ => c_map c = None end.

  Lemma inv_map_ok g mk (c : config mk) : inv g mk c -> map_ok (c_map c) (c_net c).
  Proof. intros [_ Hi]. unfold map_ok. destruct (g_topo g); rewrite Hi; auto. Qed.

  Definition snap_of {mk : memokey} (c : config mk) : snap := mkSnap (c_u c) (c_act c) (c_net c).

  Lemma record_a_ok (g : args) a sa sn b : record_activities W g a = Ok sa -> h_act b = a -> shows_a W g (mkState sa sn) (b : snap (U:=U) (V:=V)).
  Proof. unfold record_activities, shows_a. intros E <-. destruct (g_pact g); cbn; congruence. Qed.
  Lemma record_n_ok (g : args) n sa sn b : record_network W g n = Ok sn -> h_net b = n -> shows_n W g (mkState sa sn) (b : snap (U:=U) (A:=A)).
  Proof. unfold record_network, shows_n. intros E <-. destruct (g_pnet g); cbn; congruence. Qed.

  Lemma calls_no_insert (g : args) r u ks u' : g_rule g = Some r -> no_insert g -> calls_from r (g_pert g) u ks u' ->
    added_of ks = [] /\ removed_of ks = [].
  Proof.
    intros Hr Hni Hc. induction Hc as [|? ? ? ? ? ? ? ? Ek Hp Hc IH]; [split; reflexivity|].
    destruct (Hni _ _ _ _ _ Hr Ek) as [E1 E2]. destruct IH as [I1 I2].
    unfold added_of, removed_of in *. cbn [flat_map k_out]. rewrite E1, E2, I1, I2. auto.
  Qed.

  Lemma step_ok (g : args) (mk : memokey) t inp (c c' : config mk) :
    g_memo g = false -> topo_ok g -> (g_topo g = None \/ no_insert g \/ g_order g <> ACTIVITIES_FIRST) ->
    inv g mk c -> step W g mk t inp c = Ok c' ->
    inv g mk c' /\
    exists past s, past_at W g (c_traj c) t past /\
      timestep W g t past inp (snap_of c) (c_u c) (snap_of c') /\
      c_traj c' = c_traj c ++ [s] /\ shows_a W g s (snap_of c') /\ shows_n W g s (snap_of c').
  Proof.
    intros Hg Hok Hcase Hinv E. pose proof (inv_map_ok _ _ _ Hinv) as Hm. destruct Hinv as [Hnd Hmap].
    unfold step in E. inv_bind E past Epast. apply get_past_ok in Epast. unfold timestep. destruct (g_order g) eqn:Eo.
    - inv_bind E s Es. inv_bind E sa Esa. inv_bind E un Et. destruct un as [u2 n2]. inv_bind E sn Esn. injection E as <-.
      destruct (evolve_activities_ok _ _ _ _ _ _ _ _ _ _ _ Hg Hm Hnd Es) as (ks & Hact & Ha & Hr & _).
      destruct (evolve_topology_ok _ _ _ _ _ _ _ _ _ Et) as (n1 & Hadj & Htop).
      assert (Hn2 : NoDup (nodes n2)) by (eapply topology_step_nodup; [eassumption|eassumption|]; eapply adjusted_nodup; eassumption).
      split.
      + split; [exact Hn2|]. cbn [c_map c_net].
        destruct (g_topo g) as [f|] eqn:Ef.
        * destruct Hcase as [Hc|[Hc|Hc]]; [discriminate| |congruence].
          unfold activities_step in Hact. destruct (g_rule g) as [r|] eqn:Er.
          -- destruct (calls_no_insert g r _ _ _ Er Hc (proj1 (proj2 Hact))) as [Ea Ere]. rewrite Ha, Hr, Ea, Ere. assumption.
          -- destruct Hact as (-> & _). rewrite Ha, Hr. exact Hmap.
        * unfold topology_step in Htop. rewrite Ef in Htop. destruct Htop as [_ ->].
          destruct (s_added s) as [|x l]; [destruct (s_removed s) as [|y l]|]; try reflexivity.
          cbn in Hadj. subst n1. exact Hmap.
      + exists past, (mkState sa sn). split; [assumption|]. split.
        * exists ks, (s_u s), n1. cbn [snap_of h_net h_act h_u c_net c_act c_u]. rewrite <- Ha, <- Hr. auto.
        * split; [reflexivity|]. split; [eapply record_a_ok; [eassumption|reflexivity]|eapply record_n_ok; [eassumption|reflexivity]].
    - inv_bind E un Et. destruct un as [u1 n2]. inv_bind E sn Esn. inv_bind E s Es. inv_bind E sa Esa. injection E as <-.
      destruct (evolve_topology_ok _ _ _ _ _ _ _ _ _ Et) as (n1 & Hadj & Htop). cbn in Hadj. subst n1.
      assert (Hn2 : NoDup (nodes n2)) by (eapply topology_step_nodup; eassumption).
      assert (Hm2 : map_ok (c_map c) n2).
      { unfold topology_step in Htop. destruct (g_topo g); [rewrite Hmap; constructor|]. destruct Htop as [_ ->]. assumption. }
      destruct (evolve_activities_ok _ _ _ _ _ _ _ _ _ _ _ Hg Hm2 Hn2 Es) as (ks & Hact & _).
      split.
      + split; [exact Hn2|]. cbn [c_map c_net]. unfold topology_step in Htop. destruct (g_topo g); [assumption|]. destruct Htop as [_ ->]. assumption.
      + exists past, (mkState sa sn). split; [assumption|]. split.
        * exists ks, u1. cbn [snap_of h_net h_act h_u c_net c_act c_u]. auto.
        * split; [reflexivity|]. split; [eapply record_a_ok; [eassumption|reflexivity]|eapply record_n_ok; [eassumption|reflexivity]].
    - inv_bind E un Et. destruct un as [u1 n2]. inv_bind E sn Esn. inv_bind E s Es. inv_bind E sa Esa. injection E as <-.
      destruct (evolve_topology_ok _ _ _ _ _ _ _ _ _ Et) as (n1 & Hadj & Htop). cbn in Hadj. subst n1.
      assert (Hn2 : NoDup (nodes n2)) by (eapply topology_step_nodup; eassumption).
      destruct (evolve_activities_ok _ _ _ _ _ _ _ _ _ _ _ Hg Hm Hnd Es) as (ks & Hact & _).
      split.
      + split; [exact Hn2|]. cbn [c_map c_net]. unfold topology_step in Htop. destruct (g_topo g); [assumption|]. destruct Htop as [_ ->]. assumption.
      + exists past, (mkState sa sn). split; [assumption|]. split.
        * exists ks, u1. cbn [snap_of h_net h_act h_u c_net c_act c_u]. auto.
        * split; [reflexivity|]. split; [eapply record_a_ok; [eassumption|reflexivity]|eapply record_n_ok; [eassumption|reflexivity]].
  Qed.

  (** ** the loop *)

  (** the configurations after each step of a run from [c] at time [t] to [c'] at time [t'] *)
  Inductive Run (g : args) (mk : memokey) (infn : input_fn) : Z -> config mk -> list (config mk) -> Prop :=
  | Run_nil t c : Run g mk infn t c []
  | Run_cons t c u i c1 cs : infn (c_u c) t (c_act c) (c_net c) = Ok (u, Some i) -> step W g mk t i (with_u c u) = Ok c1 ->
      Run g mk infn (t + 1) c1 cs -> Run g mk infn t c (c1 :: cs).

  Lemma loop_run g mk infn fuel : forall t (c c' : config mk), loop W g mk infn fuel t c = Ok c' ->
    exists cs u, Run g mk infn t c cs /\ (length cs < fuel)%nat /\
      let cl := last cs c in infn (c_u cl) (t + Z.of_nat (length cs)) (c_act cl) (c_net cl) = Ok (u, None) /\ c' = with_u cl u.
  Proof.
    induction fuel as [|f IH]; intros t c c' E; cbn [loop] in E; [discriminate|].
    inv_bind E ui Ei. destruct ui as [u [i|]].
    - inv_bind E c1 Es. destruct (IH _ _ _ E) as (cs & u' & Hr & Hl & Hlast). exists (c1 :: cs), u'.
      split; [econstructor; eassumption|]. split; [cbn; lia|].
      cbn zeta. replace (last (c1 :: cs) c) with (last cs c1) by (destruct cs; [reflexivity|clear; revert c0 c1 c; induction cs; [reflexivity|intros; apply (IHcs a)]]).
      replace (t + Z.of_nat (length (c1 :: cs))) with (t + 1 + Z.of_nat (length cs)) by (cbn [length]; lia). assumption.
    - injection E as <-. exists [], u. split; [constructor|]. split; [cbn; lia|]. cbn. rewrite Z.add_0_r. auto.
  Qed.

  Lemma run_nth g mk infn t (c : config mk) cs : Run g mk infn t c cs ->
    forall k a b, nth_error (c :: cs) k = Some a -> nth_error (c :: cs) (S k) = Some b ->
    exists u i, infn (c_u a) (t + Z.of_nat k) (c_act a) (c_net a) = Ok (u, Some i) /\ step W g mk (t + Z.of_nat k) i (with_u a u) = Ok b.
  Proof.
    induction 1 as [t c|t c u i c1 cs Ei Es Hr IH]; intros k a b Ha Hb.
    - destruct k; discriminate.
    - destruct k as [|k].
      + cbn in Ha, Hb. injection Ha as <-. injection Hb as <-. rewrite Z.add_0_r. eauto.
      + destruct (IH k a b Ha Hb) as (u' & i' & E1 & E2). exists u', i'.
        replace (t + Z.of_nat (S k)) with (t + 1 + Z.of_nat k) by lia. auto.
  Qed.

  Lemma step_traj g mk t inp (c c' : config mk) : step W g mk t inp c = Ok c' -> exists s, c_traj c' = c_traj c ++ [s].
  Proof.
    intros E. unfold step in E. inv_bind E past Ep. destruct (g_order g).
    - inv_bind E s Es. inv_bind E sa Esa. inv_bind E un Et. destruct un as [u2 n2]. inv_bind E sn Esn. injection E as <-. eexists; reflexivity.
    - inv_bind E un Et. destruct un as [u1 n2]. inv_bind E sn Esn. inv_bind E s Es. inv_bind E sa Esa. injection E as <-. eexists; reflexivity.
    - inv_bind E un Et. destruct un as [u1 n2]. inv_bind E sn Esn. inv_bind E s Es. inv_bind E sa Esa. injection E as <-. eexists; reflexivity.
  Qed.

  Lemma last_cons {X} (x y d : X) l : last (x :: l) d = last l x.
  Proof. revert x d. induction l as [|z l IH]; intros x d; [reflexivity|]. change (last (z :: l) d = last (z :: l) x). rewrite !IH. reflexivity. Qed.

  Lemma run_traj g mk infn t (c : config mk) cs : Run g mk infn t c cs ->
    exists ss, length ss = length cs /\ c_traj (last cs c) = c_traj c ++ ss /\
      forall k a, nth_error (c :: cs) k = Some a -> c_traj a = c_traj c ++ firstn k ss.
  Proof.
    induction 1 as [t c|t c u i c1 cs Ei Es Hr IH].
    - exists []. split; [reflexivity|]. split; [cbn; rewrite app_nil_r; reflexivity|]. intros [|[|k]] a E; cbn in E; try discriminate. injection E as <-. cbn. rewrite app_nil_r. reflexivity.
    - destruct IH as (ss & Hl & Hlast & Hk). destruct (step_traj _ _ _ _ _ _ Es) as [s Et]. cbn [with_u c_traj] in Et. exists (s :: ss).
      split; [cbn; lia|]. split; [rewrite last_cons by exact c; rewrite Hlast, Et, <- app_assoc; reflexivity|].
      intros [|k] a Ha.
      + cbn in Ha. injection Ha as <-. cbn. rewrite app_nil_r. reflexivity.
      + rewrite (Hk k a Ha), Et, <- app_assoc. reflexivity.
  Qed.

  Lemma with_u_inv g mk (c : config mk) u : inv g mk c -> inv g mk (with_u c u).
  Proof. intros Hi. exact Hi. Qed.

  Lemma run_inv g mk infn t (c : config mk) cs :
    g_memo g = false -> topo_ok g -> (g_topo g = None \/ no_insert g \/ g_order g <> ACTIVITIES_FIRST) ->
    Run g mk infn t c cs -> inv g mk c -> forall k a, nth_error (c :: cs) k = Some a -> inv g mk a.
  Proof.
    intros Hg Hok Hcase. induction 1 as [t c|t c u i c1 cs Ei Es Hr IH]; intros Hi k a Ha.
    - destruct k as [|[|k]]; cbn in Ha; try discriminate. injection Ha as <-. assumption.
    - destruct k as [|k]; cbn in Ha; [injection Ha as <-; assumption|].
      apply (IH (proj1 (step_ok _ _ _ _ _ _ Hg Hok Hcase (with_u_inv _ _ _ u Hi) Es)) k a Ha).
  Qed.

  Lemma nth_last {X} (x : X) l : nth_error (x :: l) (length l) = Some (last l x).
  Proof. revert x. induction l as [|y l IH]; intros x; [reflexivity|]. rewrite last_cons by exact x. apply IH. Qed.

  Lemma evolve_run fuel (u0 : U) n initial ts inp (g : args) uf traj :
    evolve W fuel u0 n initial ts inp g = Ok (uf, traj) ->
    let init := match initial with None => [] | Some c => to_dict W c end in
    let mk := match g_key g with Some k => k | None => default_key n end in
    exists infn sa sn cs,
      get_input_function ts inp = Ok infn /\
      (g_rule g <> None -> length init = net_len n) /\
      set_activities W (g_comp g) init = Ok sa /\ set_network W (g_comp g) n = Ok sn /\
      let c0 := mkCfg u0 init n [] (match g_topo g with None => Some (get_neighbourhood_map n) | Some _ => None end) [mkState sa sn] : config mk in
      Run g mk infn 1 c0 cs /\ (length cs < fuel)%nat /\
      infn (c_u (last cs c0)) (1 + Z.of_nat (length cs)) (c_act (last cs c0)) (c_net (last cs c0)) = Ok (uf, None) /\
      traj = c_traj (last cs c0).
  Proof.
    intros E. unfold evolve in E. cbn zeta. inv_bind E infn Ein.
    match type of E with (if ?b then _ else _) = _ => destruct b eqn:Eb end; [discriminate|].
    inv_bind E sa Esa. inv_bind E sn Esn. inv_bind E c Ec. injection E as <- <-.
    destruct (loop_run _ _ _ _ _ _ _ Ec) as (cs & u & Hr & Hl & Hlast). cbn zeta in Hlast. destruct Hlast as [Hlast ->].
    exists infn, sa, sn, cs. split; [assumption|]. split.
    - intros Hr'. destruct (g_rule g); [|congruence]. rewrite andb_true_r in Eb. apply negb_false_iff, Nat.eqb_eq in Eb. assumption.
    - split; [assumption|]. split; [assumption|]. cbn zeta. split; [exact Hr|]. split; [exact Hl|]. split; [exact Hlast|reflexivity].
  Qed.

  Theorem evolve_meets_spec fuel (u0 : U) n initial ts inp (g : args) uf traj :
    g_memo g = false -> NoDup (nodes n) -> topo_ok g -> (g_topo g = None \/ no_insert g \/ g_order g <> ACTIVITIES_FIRST) ->
    evolve W fuel u0 n initial ts inp g = Ok (uf, traj) ->
    exists infn hs, get_input_function ts inp = Ok infn /\
      run_spec W infn g u0 (match initial with None => [] | Some c => to_dict W c end) n hs uf traj.
  Proof.
    intros Hg Hnd Hok Hcase E. destruct (evolve_run _ _ _ _ _ _ _ _ _ E) as (infn & sa & sn & cs & Hin & Hlen & Esa & Esn & Hr & Hf & Hlast & Htr).
    set (init := match initial with None => [] | Some c => to_dict W c end) in *.
    set (mk := match g_key g with Some k => k | None => default_key n end) in *.
    match type of Hr with Run _ _ _ _ ?x _ => set (c0 := x) in * end.
    assert (Hi0 : inv g mk c0).
    { split; [exact Hnd|]. cbn [c0 c_map c_net]. destruct (g_topo g); reflexivity. }
    destruct (run_traj _ _ _ _ _ _ Hr) as (ss & Hls & Htl & Htk).
    assert (Etraj : traj = mkState sa sn :: ss) by (rewrite Htr, Htl; reflexivity).
    exists infn, (map snap_of (c0 :: cs)). split; [assumption|]. constructor.
    - rewrite map_length, Etraj. cbn [length]. lia.
    - reflexivity.
    - exists (mkState sa sn). rewrite Etraj. split; [reflexivity|]. cbn [st_act st_net]. auto.
    - intros k a b Ha Hb. rewrite nth_error_map in Ha, Hb.
      destruct (nth_error (c0 :: cs) k) as [ca|] eqn:Eca; [|discriminate]. destruct (nth_error (c0 :: cs) (S k)) as [cb|] eqn:Ecb; [|discriminate].
      cbn [option_map] in Ha, Hb. injection Ha as <-. injection Hb as <-.
      destruct (run_nth _ _ _ _ _ _ Hr k ca cb Eca Ecb) as (u & i & Einp & Es).
      assert (Hia : inv g mk ca) by (eapply run_inv; eassumption).
      destruct (step_ok _ _ _ _ _ _ Hg Hok Hcase (with_u_inv _ _ _ u Hia) Es) as (_ & past & s & Hp & Ht & Htj & Hsa & Hsn).
      exists u, i, past, s. rewrite Z.add_comm in Einp, Ht, Hp.
      split; [exact Einp|].
      assert (Eka : c_traj ca = firstn (S k) traj) by (rewrite (Htk k ca Eca), Etraj; reflexivity).
      split; [cbn [with_u c_traj] in Hp; rewrite <- Eka; exact Hp|]. split; [exact Ht|].
      split; [|split; assumption].
      cbn [with_u c_traj] in Htj.
      assert (Ekb : c_traj cb = firstn (S (S k)) traj) by (rewrite (Htk (S k) cb Ecb), Etraj; reflexivity).
      assert (Hkl : (S k < length (c0 :: cs))%nat) by (apply nth_error_Some; congruence). cbn [length] in Hkl.
      assert (Hlt : length traj = S (length cs)) by (rewrite Etraj; cbn; lia).
      assert (Hc : length (c_traj ca) = S k) by (rewrite Eka, firstn_length; lia).
      assert (En : nth_error (c_traj cb) (S k) = Some s) by (rewrite Htj, nth_error_app2, Hc, Nat.sub_diag by lia; reflexivity).
      rewrite Ekb, nth_error_firstn_lt in En by lia. exact En.
    - intros a Ha. rewrite map_length in *. cbn [length] in *. replace (S (length cs) - 1)%nat with (length cs) in Ha by lia.
      rewrite nth_error_map, nth_last in Ha. cbn [option_map] in Ha. injection Ha as <-. cbn [snap_of h_u h_act h_net].
      replace (Z.of_nat (S (length cs))) with (1 + Z.of_nat (length cs)) by lia. exact Hlast.
  Qed.
End Proofs.

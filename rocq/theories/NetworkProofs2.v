(** Refinement of Network.v to the abstract multigraph, continued: remove_node, update_edge, all calls, queries. *)
From Verif Require Import Py PyFacts Network NetworkSpec NetworkProofs.
Open Scope Z_scope.

Lemma Permutation_concat_map_ext {A B} (f g : A -> list B) (l : list A) :
  (forall x, In x l -> Permutation (f x) (g x)) -> Permutation (concat (map f l)) (concat (map g l)).
Proof.
  induction l as [|x xs IH]; cbn; intros Hp; [constructor|]. apply Permutation_app; auto.
Qed.

Lemma perm_eq {A} (l l' : list A) : l = l' -> Permutation l l'.
Proof. intros ->. apply Permutation_refl. Qed.

Section Proofs.
  Context {L V : Type} `{EqD L}.
  Notation network := (network L V).
  Notation graph := (graph L V).
  Notation attrs := (dict string V).
  Notation edge_t := (L * L * attrs)%type.
  Implicit Types (es : list edge_t) (g : graph) (v w i j : L) (ns : dict L (node L V)) (n : network).

  (** *** remove_node *)

  Definition drop_out v (k : Z) (nd : node L V) : node L V :=
    with_outg (with_out nd (n_out nd - k)) (filter (fun x => negb (eqb x v)) (n_outg nd)).

  Lemma loop1 v (l : dict L (list attrs)) ns r :
    NoDup (dkeys l) -> NoDup (dkeys ns) -> incl (dkeys l) (dkeys ns) ->
    exists ns1, mfor l (fun ies => mthen (decrement_out_degree (fst ies) (Z.of_nat (length (snd ies))))
                                         (remove_outgoing (fst ies) v)) (mkNet ns r) = (mkNet ns1 r, Ok tt)
      /\ dkeys ns1 = dkeys ns
      /\ forall w, dget ns1 w = match dget l w with
                                | Some x => option_map (drop_out v (Z.of_nat (length x))) (dget ns w)
                                | None => dget ns w
                                end.
  Proof.
    revert ns. induction l as [|[i x] l IH]; intros ns Hl Hns Hincl; cbn [mfor].
    - exists ns. repeat split; auto.
    - inversion Hl as [|? ? Hni Hl']; subst.
      assert (Hi : In i (dkeys ns)) by (apply Hincl; left; reflexivity).
      cbn [fst snd].
      erewrite mthen_ok.
      2:{ unfold decrement_out_degree. erewrite mthen_ok by (apply on_node_ok; assumption).
          unfold remove_outgoing. apply on_node_ok; rewrite dkeys_dmod; assumption. }
      set (f1 := fun nd => with_out nd _). set (f2 := fun nd => with_outg nd _).
      destruct (IH (dmod (dmod ns i f1) i f2)) as (ns1 & E & Hk & Hg).
      + assumption.
      + rewrite !dkeys_dmod. assumption.
      + rewrite !dkeys_dmod. intros y Hy. apply Hincl. right. assumption.
      + exists ns1. split; [exact E|]. rewrite !dkeys_dmod in Hk. split; [assumption|].
        intros w. rewrite Hg. cbn [dget]. rewrite !dget_dmod.
        destruct (eqd w i) as [->|Hne]; [|reflexivity].
        assert (N : dget l i = None) by (apply dget_none; assumption). rewrite N.
        destruct (dget ns i) as [nd|]; [|reflexivity]. cbn. unfold f1, f2, drop_out. reflexivity.
  Qed.

  Definition drop_in v (k : Z) (nd : node L V) : node L V :=
    with_inc (with_in nd (n_in nd - k)) (ddel (n_inc nd) v).

  Lemma ddel_twice (d : dict L (list attrs)) v : ddel (ddel d v) v = ddel d v.
  Proof. apply ddel_notin. rewrite in_dkeys_ddel. tauto. Qed.

  Lemma loop2 v (l : list L) ns r :
    NoDup (dkeys ns) -> incl l (dkeys ns) ->
    exists ns1, mfor l (fun j => mthen (decrement_in_degree j 1) (remove_incoming v j)) (mkNet ns r) = (mkNet ns1 r, Ok tt)
      /\ dkeys ns1 = dkeys ns
      /\ forall w, dget ns1 w = if in_dec eqd w l then option_map (drop_in v (Z.of_nat (count l w))) (dget ns w)
                                else dget ns w.
  Proof.
    revert ns. induction l as [|j l IH]; intros ns Hns Hincl; cbn [mfor].
    - exists ns. repeat split; auto.
    - assert (Hj : In j (dkeys ns)) by (apply Hincl; left; reflexivity).
      erewrite mthen_ok.
      2:{ unfold decrement_in_degree. erewrite mthen_ok by (apply on_node_ok; assumption).
          unfold remove_incoming. apply on_node_ok; rewrite dkeys_dmod; assumption. }
      set (f1 := fun nd => with_in nd _). set (f2 := fun nd => if dmem (n_inc nd) v then _ else _).
      destruct (IH (dmod (dmod ns j f1) j f2)) as (ns1 & E & Hk & Hg).
      + rewrite !dkeys_dmod. assumption.
      + rewrite !dkeys_dmod. intros y Hy. apply Hincl. right. assumption.
      + exists ns1. split; [exact E|]. rewrite !dkeys_dmod in Hk. split; [assumption|].
        assert (F : forall nd, f2 (f1 nd) = drop_in v 1 nd).
        { intros nd. unfold f2, f1, drop_in. cbn.
          destruct (dmem (n_inc nd) v) eqn:Em; [reflexivity|].
          apply dmem_false in Em. rewrite (ddel_notin _ _ Em). reflexivity. }
        intros w. rewrite Hg, !dget_dmod. unfold count. cbn [filter].
        destruct (eqd w j) as [->|Hne].
        * rewrite eqb_refl. destruct (in_dec eqd j (j :: l)) as [_|Hn]; [|exfalso; apply Hn; left; reflexivity].
          destruct (in_dec eqd j l) as [Hin|Hni].
          -- destruct (dget ns j) as [nd|]; [|reflexivity]. cbn [option_map]. rewrite F. f_equal.
             unfold drop_in. cbn. rewrite ddel_twice. unfold with_inc, with_in. cbn. f_equal. 
             change (length (filter _ l)) with (count l j). lia.
          -- destruct (dget ns j) as [nd|]; [|reflexivity]. cbn [option_map]. rewrite F. f_equal.
             cbn [length]. change (length (filter _ l)) with (count l j). rewrite count_notin by assumption. reflexivity.
        * destruct (eqb_spec w j) as [|_]; [contradiction|].
          destruct (in_dec eqd w l) as [Hin|Hni], (in_dec eqd w (j :: l)) as [Hin'|Hni']; try reflexivity.
          -- exfalso. apply Hni'. right. assumption.
          -- exfalso. destruct Hin'; [congruence|contradiction].
  Qed.

  Lemma spec_remove_node_ok g v : graph_ok g -> graph_ok (spec_remove_node g v).
  Proof.
    intros [Hnd He].
    assert (Em : map fst (filter (fun na : L * attrs => negb (eqb (fst na) v)) (g_nodes g)) =
                 filter (fun x => negb (eqb x v)) (map fst (g_nodes g))).
    { clear. induction (g_nodes g) as [|[u b] l IH]; cbn; [reflexivity|]. destruct (eqb u v); cbn; congruence. }
    split; unfold is_node; cbn; rewrite Em.
    - apply NoDup_filter. assumption.
    - intros e Hin. apply filter_In in Hin. destruct Hin as [Hin Hp]. apply negb_true_iff, orb_false_elim in Hp.
      destruct Hp as [Hs Ht]. rewrite !filter_In, Hs, Ht. destruct (He e Hin). auto.
  Qed.

  Lemma count_map_tgt es w : count (map tgt es) w = length (filter (fun e => eqb (tgt e) w) es).
  Proof.
    unfold count. induction es as [|e es IH]; cbn; [reflexivity|].
    rewrite (eqb_sym w). destruct (eqb (tgt e) w); cbn; congruence.
  Qed.

  Lemma count_filter_ne (l : list L) v w : w <> v -> count (filter (fun x => negb (eqb x v)) l) w = count l w.
  Proof.
    intros Hne. unfold count. induction l as [|x xs IH]; cbn; [reflexivity|].
    destruct (eqb_spec x v) as [->|Hx]; cbn.
    - destruct (eqb_spec w v); [contradiction|assumption].
    - destruct (eqb w x); cbn; congruence.
  Qed.

  Lemma remove_node_R n g v :
    R n g -> is_node g v ->
    exists n', remove_node v n = (n', Ok tt) /\ R n' (spec_remove_node g v) /\ net_rot n' = net_rot n.
  Proof.
    intros [En Hok] Hv. destruct n as [ns r]. cbn in En. subst ns.
    pose proof (proj1 Hok) as Hnd.
    assert (Hok' := spec_remove_node_ok g v Hok).
    destruct (dget_key_some (g_nodes g) v Hv) as [bv Ev].
    set (es := g_edges g) in *.
    unfold remove_node.
    assert (El : lookup v (mkNet (repr g) r) = (mkNet (repr g) r, Ok (rnode es v bv))).
    { unfold lookup. cbn. rewrite dget_repr, Ev. reflexivity. }
    rewrite (mbind_ok _ _ _ _ _ El). cbn [n_inc rnode].
    destruct (loop1 v (inc_of es v) (repr g) r) as (ns1 & E1 & Hk1 & Hg1).
    { apply NoDup_inc_of. }
    { rewrite dkeys_repr. assumption. }
    { rewrite dkeys_repr. intros i Hi. apply in_inc_keys in Hi. destruct Hi as (e & He & <- & _). apply Hok. assumption. }
    rewrite (mthen_ok _ _ _ _ E1).
    set (outs := filter (fun x => negb (eqb x v)) (map tgt (from es v))).
    assert (Hself : In v (dkeys (inc_of es v)) \/ outs = map tgt (from es v)).
    { destruct (in_dec eqd v (dkeys (inc_of es v))) as [Hin|Hni]; [left; assumption|right].
      apply filter_true. intros x Hx. apply in_map_iff in Hx. destruct Hx as (e & <- & He).
      apply filter_In in He. destruct He as [He Hs]. apply eqb_eq in Hs. rewrite negb_true_iff, eqb_false.
      intros Ht. apply Hni. apply in_inc_keys. exists e. auto. }
    assert (El2 : exists nd', lookup v (mkNet ns1 r) = (mkNet ns1 r, Ok nd') /\ n_outg nd' = outs).
    { unfold lookup. cbn. rewrite Hg1, dget_repr, Ev, dget_inc_of. cbn [option_map].
      destruct (in_dec eqd v (dkeys (inc_of es v))) as [Hin|Hni].
      - eexists. split; [reflexivity|]. reflexivity.
      - eexists. split; [reflexivity|]. cbn. destruct Hself as [Hx|Hx]; [contradiction|]. symmetry. assumption. }
    destruct El2 as (nd' & El2 & Eo). rewrite (mbind_ok _ _ _ _ _ El2), Eo.
    destruct (loop2 v outs ns1 r) as (ns2 & E2 & Hk2 & Hg2).
    { rewrite Hk1, dkeys_repr. assumption. }
    { rewrite Hk1, dkeys_repr. intros x Hx. apply filter_In in Hx. destruct Hx as [Hx _].
      apply in_map_iff in Hx. destruct Hx as (e & <- & He). apply filter_In in He. apply Hok. tauto. }
    rewrite (mthen_ok _ _ _ _ E2).
    eexists. split; [reflexivity|]. split; [|reflexivity]. split; [|assumption].
    unfold set_nodes. cbn [net_nodes net_rot].
    apply repr_intro; [assumption| |].
    - rewrite dkeys_ddel, Hk2, Hk1, dkeys_repr. cbn. clear.
      induction (g_nodes g) as [|[u b] l IH]; cbn; [reflexivity|].
      rewrite (eqb_sym v u). destruct (eqb u v); cbn; congruence.
    - intros w. rewrite dget_ddel. cbn [spec_remove_node g_nodes g_edges]. fold es.
      assert (Eg : dget (filter (fun na : L * attrs => negb (eqb (fst na) v)) (g_nodes g)) w =
                   if eqd w v then None else dget (g_nodes g) w).
      { clear. induction (g_nodes g) as [|[u b] l IH]; cbn; [destruct (eqd w v); reflexivity|].
        destruct (eqb_spec u v) as [->|Hne]; cbn.
        - rewrite IH. destruct (eqd w v); reflexivity.
        - destruct (eqd w u) as [->|]; [|assumption]. destruct (eqd u v); congruence. }
      rewrite Eg. destruct (eqd w v) as [->|Hwv]; [reflexivity|].
      rewrite Hg2, Hg1, dget_repr. fold es.
      destruct (dget (g_nodes g) w) as [bw|] eqn:Ew; cbn [option_map].
      2:{ destruct (in_dec eqd w outs), (dget (inc_of es v) w); reflexivity. }
      set (p := fun e : edge_t => negb (eqb (src e) v || eqb (tgt e) v)).
      assert (Einc : inc_of (filter p es) w = ddel (inc_of es w) v).
      { apply inc_of_filter. intros e _ Ht. unfold p. destruct (eqb_spec (tgt e) v); [congruence|].
        rewrite orb_false_r. reflexivity. }
      assert (Einto : Z.of_nat (length (into (filter p es) w)) =
                      Z.of_nat (length (into es w)) - Z.of_nat (length (betw es v w))).
      { rewrite betw_into, <- length_filter_neg. f_equal. f_equal. unfold into. rewrite filter_comm.
        apply filter_ext_in. intros e He. apply filter_In in He. destruct He as [_ Ht]. apply eqb_eq in Ht.
        unfold p. destruct (eqb_spec (tgt e) v); [congruence|]. rewrite orb_false_r. reflexivity. }
      assert (Efrom : from (filter p es) w = filter (fun e => negb (eqb (tgt e) v)) (from es w)).
      { unfold from. rewrite filter_comm. apply filter_ext_in. intros e He. apply filter_In in He.
        destruct He as [_ Hs]. apply eqb_eq in Hs. unfold p. destruct (eqb_spec (src e) v); [congruence|reflexivity]. }
      assert (Ecount : count outs w = length (betw es v w)).
      { unfold outs. rewrite count_filter_ne by assumption. rewrite count_map_tgt, <- betw_from. reflexivity. }
      assert (Hin_outs : In w outs <-> In v (dkeys (inc_of es w))).
      { rewrite <- count_pos, Ecount. rewrite <- (betw_nil_iff es v w). destruct (betw es v w); cbn; split; intros; try lia; congruence. }
      assert (Fcase : option_map (fun nd => nd) (Some (rnode (filter p es) w bw)) =
                      Some (drop_in v (Z.of_nat (length (betw es v w)))
                              (drop_out v (Z.of_nat (length (betw es w v))) (rnode es w bw)))).
      { cbn. f_equal. unfold rnode, drop_in, drop_out, with_inc, with_in, with_out, with_outg. cbn.
        rewrite Einc, Einto, Efrom, map_tgt_filter, length_filter_neg, (betw_from es w v). reflexivity. }
      cbn [option_map] in Fcase. rewrite Fcase. clear Fcase.
      assert (Fout : match dget (inc_of es v) w with
                     | Some x => Some (drop_out v (Z.of_nat (length x)) (rnode es w bw))
                     | None => Some (rnode es w bw) end =
                     Some (drop_out v (Z.of_nat (length (betw es w v))) (rnode es w bw))).
      { rewrite dget_inc_of. destruct (in_dec eqd w (dkeys (inc_of es v))) as [Hin|Hni]; [reflexivity|].
        f_equal. rewrite (betw_nil _ _ _ Hni). unfold drop_out, rnode, with_out, with_outg. cbn.
        rewrite Z.sub_0_r. f_equal. symmetry. apply filter_true. intros x Hx. apply in_map_iff in Hx.
        destruct Hx as (e & <- & He). apply filter_In in He. destruct He as [He Hs]. apply eqb_eq in Hs.
        rewrite negb_true_iff, eqb_false. intros Ht. apply Hni. apply in_inc_keys. exists e. auto. }
      rewrite Fout. cbn [option_map]. rewrite Ecount.
      destruct (in_dec eqd w outs) as [Hin|Hni]; [reflexivity|].
      f_equal. assert (Hni' : ~ In v (dkeys (inc_of es w))) by tauto.
      rewrite (betw_nil _ _ _ Hni'). unfold drop_in, drop_out, with_inc, with_in, with_out, with_outg, rnode. cbn.
      rewrite Z.sub_0_r, (ddel_notin _ _ Hni'). reflexivity.
  Qed.

  (** *** update_edge *)

  Lemma same_shape es es' :
    map fst es' = map fst es ->
    (forall w, length (into es' w) = length (into es w)) /\
    (forall w, length (from es' w) = length (from es w)) /\
    (forall w, map src (into es' w) = map src (into es w)) /\
    (forall w, map tgt (from es' w) = map tgt (from es w)).
  Proof.
    revert es'. induction es as [|[[a b] c] es IH]; intros [|[[a' b'] c'] es'] E; try discriminate; [repeat split|].
    cbn in E. inversion E as [[E1 E2 E3]]. subst a' b'. destruct (IH es' E3) as (I1 & I2 & I3 & I4).
    unfold into, from in *. cbn. unfold src, tgt in *. cbn in *.
    repeat split; intros w; specialize (I1 w); specialize (I2 w); specialize (I3 w); specialize (I4 w);
      [destruct (eqb b w)|destruct (eqb a w)|destruct (eqb b w)|destruct (eqb a w)]; cbn; congruence.
  Qed.

  Lemma upd_R g i j es' l' r :
    graph_ok g -> map fst es' = map fst (g_edges g) -> between g i j <> [] ->
    betw es' i j = l' ->
    (forall i' j', (i', j') <> (i, j) -> betw es' i' j' = betw (g_edges g) i' j') ->
    R (mkNet (dmod (repr g) j (fun nd => with_inc nd (dset (n_inc nd) i l'))) r) (mkG (g_nodes g) es').
  Proof.
    intros Hok Hsh Hb Hl Hother. destruct (same_shape _ _ Hsh) as (I1 & I2 & I3 & I4).
    change (between g i j) with (betw (g_edges g) i j) in Hb. apply betw_nil_iff in Hb.
    assert (Hok' : graph_ok (mkG (g_nodes g) es')).
    { destruct Hok as [Hnd He]. split; cbn; [assumption|]. intros e Hin.
      assert (Hin' : In (fst e) (map fst (g_edges g))) by (rewrite <- Hsh; apply in_map; assumption).
      apply in_map_iff in Hin'. destruct Hin' as (e' & Ee & Hin'). specialize (He e' Hin').
      unfold src, tgt, is_node in *. cbn. rewrite <- Ee. assumption. }
    split; [|assumption]. cbn [net_nodes]. apply repr_intro; [assumption| |].
    - rewrite dkeys_dmod, dkeys_repr. reflexivity.
    - intros w. rewrite dget_dmod, dget_repr. cbn [g_nodes g_edges].
      destruct (dget (g_nodes g) w) as [bw|]; [|destruct (eqd w j); reflexivity]. cbn [option_map].
      assert (Ek : forall w, dkeys (inc_of es' w) = dkeys (inc_of (g_edges g) w)).
      { intros u. rewrite !dkeys_inc_of, I3. reflexivity. }
      assert (Einc : inc_of es' w = if eqd w j then dset (inc_of (g_edges g) w) i l' else inc_of (g_edges g) w).
      { destruct (eqd w j) as [->|Hne].
        - apply dict_ext.
          + rewrite Ek, dkeys_dset. apply dmem_true in Hb. rewrite Hb. reflexivity.
          + apply NoDup_inc_of.
          + intros k. rewrite dget_dset, dget_inc_of, Ek. destruct (eqd k i) as [->|Hki].
            * destruct (in_dec eqd i _); [congruence|contradiction].
            * rewrite Hother by congruence. symmetry. apply dget_inc_of.
        - apply dict_ext; [apply Ek|apply NoDup_inc_of|].
          intros k. rewrite !dget_inc_of, Ek, Hother by congruence. reflexivity. }
      unfold rnode. rewrite I1, I2, I4, Einc. destruct (eqd w j); reflexivity.
  Qed.

  Lemma betw_map_upd es i j a i' j' :
    betw (map (fun e => if eqb (src e) i && eqb (tgt e) j then (i, j, dupdate (dat e) a) else e) es) i' j' =
    if eqb i i' && eqb j j' then map (fun e => dupdate e a) (betw es i j) else betw es i' j'.
  Proof.
    unfold betw. induction es as [|[[x y] c] es IH]; cbn.
    - destruct (eqb i i' && eqb j j'); reflexivity.
    - unfold src, tgt, dat in *. cbn in *.
      destruct (eqb_spec x i) as [->|Hx], (eqb_spec y j) as [->|Hy]; cbn;
        destruct (eqb_spec i i') as [->|Hi], (eqb_spec j j') as [->|Hj]; cbn in *; rewrite ?eqb_refl; cbn; rewrite ?IH; try reflexivity;
        repeat (match goal with |- context [eqb ?a ?b] => destruct (eqb_spec a b); try congruence end); cbn; rewrite ?IH; try reflexivity.
  Qed.

  Lemma betw_cons e es i j :
    betw (e :: es) i j = if eqb (src e) i && eqb (tgt e) j then dat e :: betw es i j else betw es i j.
  Proof. unfold betw. cbn. destruct (eqb (src e) i && eqb (tgt e) j); reflexivity. Qed.

  Lemma betw_update_kth es i j k a i' j' :
    betw (update_kth es i j k a) i' j' =
    if eqb i i' && eqb j j' then upd_nth (betw es i j) k (fun e => dupdate e a) else betw es i' j'.
  Proof.
    destruct (eqb i i' && eqb j j') eqn:Em.
    - apply andb_true_iff in Em. destruct Em as [E1 E2]. apply eqb_eq in E1. apply eqb_eq in E2. subst i' j'.
      revert k. induction es as [|e es IH]; intros k; cbn [update_kth]; [destruct k; reflexivity|].
      rewrite (betw_cons e es). destruct (eqb (src e) i && eqb (tgt e) j) eqn:Ee.
      + destruct k as [|k]; rewrite betw_cons; [|rewrite Ee, IH; reflexivity].
        unfold src, tgt. cbn. rewrite !eqb_refl. reflexivity.
      + rewrite betw_cons, Ee. apply IH.
    - revert k. induction es as [|e es IH]; intros k; cbn [update_kth]; [reflexivity|].
      rewrite (betw_cons e es). destruct (eqb (src e) i && eqb (tgt e) j) eqn:Ee.
      + assert (E' : eqb (src e) i' && eqb (tgt e) j' = false).
        { apply andb_true_iff in Ee. destruct Ee as [E1 E2]. apply eqb_eq in E1. apply eqb_eq in E2. rewrite E1, E2. assumption. }
        rewrite E'. destruct k as [|k]; rewrite betw_cons; [|rewrite E'; apply IH].
        unfold src, tgt. cbn. rewrite Em. reflexivity.
      + rewrite betw_cons. destruct (eqb (src e) i' && eqb (tgt e) j'); rewrite IH; reflexivity.
  Qed.

  Lemma fst_update_kth es i j k a : map fst (update_kth es i j k a) = map fst es.
  Proof.
    revert k. induction es as [|[[x y] c] es IH]; intros k; cbn; [reflexivity|]. unfold src, tgt. cbn.
    destruct (eqb_spec x i) as [->|], (eqb_spec y j) as [->|]; cbn; rewrite ?IH; try reflexivity.
    destruct k; cbn; rewrite ?IH; reflexivity.
  Qed.

  Lemma fst_map_upd es i j a :
    map fst (map (fun e => if eqb (src e) i && eqb (tgt e) j then (i, j, dupdate (dat e) a) else e) es) = map fst es.
  Proof.
    rewrite map_map. apply map_ext. intros [[x y] c]. unfold src, tgt. cbn.
    destruct (eqb_spec x i) as [->|], (eqb_spec y j) as [->|]; reflexivity.
  Qed.

  Lemma R_node_of n g j : R n g -> is_node g j ->
    exists b, dget (net_nodes n) j = Some (rnode (g_edges g) j b).
  Proof.
    intros [En Hok] Hj. destruct (dget_key_some (g_nodes g) j Hj) as [b E]. exists b.
    rewrite En, dget_repr, E. reflexivity.
  Qed.

  Lemma between_nodes g i j : graph_ok g -> between g i j <> [] -> is_node g i /\ is_node g j.
  Proof.
    intros Hok Hb. change (between g i j) with (betw (g_edges g) i j) in Hb. apply betw_nil_iff in Hb.
    apply in_inc_keys in Hb. destruct Hb as (e & He & <- & <-). apply Hok. assumption.
  Qed.

  Lemma has_edge_R n g i j : R n g -> has_edge n i j = match between g i j with [] => false | _ => true end.
  Proof.
    intros [En Hok]. unfold has_edge. rewrite En, dget_repr.
    change (between g i j) with (betw (g_edges g) i j).
    destruct (dget (g_nodes g) j) as [b|] eqn:E; cbn.
    - unfold dmem. rewrite dget_inc_of'. destruct (betw (g_edges g) i j); reflexivity.
    - destruct (betw (g_edges g) i j) eqn:Eb; [reflexivity|].
      assert (Hb : between g i j <> []) by (change (betw (g_edges g) i j <> []); congruence).
      apply (between_nodes g i j Hok) in Hb. destruct Hb as [_ Hj].
      apply dget_none in E. contradiction.
  Qed.

  Lemma update_all_R n g i j a :
    R n g -> between g i j <> [] -> kwargs_clash ["self"; "i"; "j"; "indices"]%string a = false ->
    exists n', update_edge i j None a n = (n', Ok tt) /\ R n' (spec_update_all g i j a) /\ net_rot n' = net_rot n.
  Proof.
    intros HR Hb Hkw. unfold update_edge. rewrite Hkw, (has_edge_R _ _ _ _ HR).
    destruct (between g i j) eqn:Eb; [congruence|]. cbn [negb]. rewrite <- Eb in Hb.
    destruct HR as [En Hok]. destruct n as [ns r]. cbn in En. subst ns.
    destruct (between_nodes g i j Hok Hb) as [_ Hj].
    rewrite on_node_ok by (rewrite dkeys_repr; apply Hok || assumption).
    eexists. split; [reflexivity|]. split; [|reflexivity].
    assert (Hsh := fst_map_upd (g_edges g) i j a).
    assert (Hx := upd_R g i j _ _ r Hok Hsh Hb eq_refl).
    assert (Hf : dmod (repr g) j (fun nd => match dget (n_inc nd) i with
                   | Some es => with_inc nd (dset (n_inc nd) i (map (fun e => dupdate e a) es)) | None => nd end) =
                 dmod (repr g) j (fun nd => with_inc nd (dset (n_inc nd) i (map (fun e => dupdate e a) (between g i j))))).
    { assert (Hnr : NoDup (dkeys (repr g))) by (rewrite dkeys_repr; apply Hok).
      destruct (dget_key_some (g_nodes g) j Hj) as [b E].
      assert (Ej : dget (repr g) j = Some (rnode (g_edges g) j b)) by (rewrite dget_repr, E; reflexivity).
      rewrite (dmod_dset _ _ _ _ Hnr Ej), (dmod_dset _ _ _ _ Hnr Ej). f_equal. cbn [rnode n_inc].
      rewrite dget_inc_of'. change (betw (g_edges g) i j) with (between g i j). rewrite Eb. reflexivity. }
    rewrite Hf. rewrite betw_map_upd, !eqb_refl in Hx. cbn in Hx. apply Hx.
    intros i' j' Hne. rewrite betw_map_upd. destruct (eqb_spec i i'), (eqb_spec j j'); cbn; congruence.
  Qed.

  Lemma py_index_spec (m : nat) (k : Z) :
    py_index m k = if (- Z.of_nat m <=? k) && (k <? Z.of_nat m) then Some (Z.to_nat (k mod Z.of_nat m)) else None.
  Proof.
    destruct (Z.leb_spec (- Z.of_nat m) k), (Z.ltb_spec k (Z.of_nat m)); cbn;
      (apply py_index_mod; lia) || (apply py_index_err; lia).
  Qed.

  Lemma update_at_R n g i j a ks :
    R n g -> between g i j <> [] ->
    exists n', mfor ks (update_edge_at i j a) n = (n', if snd (spec_update_at g i j ks a) then Ok tt else Err IndexError)
               /\ R n' (fst (spec_update_at g i j ks a)) /\ net_rot n' = net_rot n.
  Proof.
    revert n g. induction ks as [|k ks IH]; intros n g HR Hb; cbn [mfor spec_update_at].
    - exists n. auto.
    - destruct HR as [En Hok]. destruct n as [ns r]. cbn in En. subst ns.
      destruct (between_nodes g i j Hok Hb) as [_ Hj].
      destruct (dget_key_some (g_nodes g) j Hj) as [b E].
      assert (El : lookup j (mkNet (repr g) r) = (mkNet (repr g) r, Ok (rnode (g_edges g) j b))).
      { unfold lookup. cbn. rewrite dget_repr, E. reflexivity. }
      assert (Estep : update_edge_at i j a k (mkNet (repr g) r) =
        match py_set_nth (between g i j) k (fun e => dupdate e a) with
        | None => (mkNet (repr g) r, Err IndexError)
        | Some es' => (mkNet (dmod (repr g) j (fun nd => with_inc nd (dset (n_inc nd) i es'))) r, Ok tt)
        end).
      { unfold update_edge_at. rewrite (mbind_ok _ _ _ _ _ El). cbn [rnode n_inc].
        rewrite dget_inc_of'. change (betw (g_edges g) i j) with (between g i j).
        destruct (between g i j) as [|x xs]; [congruence|].
        destruct (py_set_nth (x :: xs) k _) as [es'|]; [|reflexivity].
        apply on_node_ok; rewrite dkeys_repr; [apply Hok|assumption]. }
      unfold py_set_nth in Estep. rewrite py_index_spec in Estep.
      destruct ((- Z.of_nat (length (between g i j)) <=? k) && (k <? Z.of_nat (length (between g i j)))) eqn:Ei.
      + rewrite (mthen_ok _ _ _ _ Estep).
        set (k' := Z.to_nat _).
        assert (HR' : R (mkNet (dmod (repr g) j (fun nd => with_inc nd (dset (n_inc nd) i
                   (upd_nth (between g i j) k' (fun e => dupdate e a))))) r) (spec_update_kth g i j k' a)).
        { apply upd_R; auto using fst_update_kth.
          - rewrite betw_update_kth, !eqb_refl. reflexivity.
          - intros i' j' Hne. rewrite betw_update_kth. destruct (eqb_spec i i'), (eqb_spec j j'); cbn; congruence. }
        destruct (IH _ _ HR') as (n' & En' & HRn & Hrot).
        * change (betw (update_kth (g_edges g) i j k' a) i j <> []). rewrite betw_update_kth, !eqb_refl. cbn.
          change (betw (g_edges g) i j) with (between g i j). intros Ex. apply Hb.
          apply (f_equal (@length _)) in Ex. rewrite length_upd_nth in Ex.
          destruct (between g i j); [reflexivity|discriminate].
        * exists n'. auto.
      + exists (mkNet (repr g) r). split.
        * unfold mthen, mbind. rewrite Estep. reflexivity.
        * split; [split; [reflexivity|assumption]|reflexivity].
  Qed.

  (** *** Every call *)

  Definition RS (n : network) (s : astate (L:=L) (V:=V)) : Prop := R n (fst s) /\ net_rot n = snd s.

  Lemma run_op_RS n s o : RS n s ->
    RS (fst (run_op o n)) (fst (spec_step s o)) /\ snd (run_op o n) = snd (spec_step s o).
  Proof.
    intros [HR Hrot]. destruct s as [g rot]. cbn in HR, Hrot. subst rot.
    destruct o as [v a|i j a|i j a|i j ks a|i j|v|rs|]; cbn [run_op spec_step].
    - (* add_node *)
      change (names ["self"; "node_label"]%string a) with (kwargs_clash ["self"; "node_label"]%string a).
      change (names ["in"; "out"; "incoming"; "outgoing"]%string a)
        with (kwargs_clash ["in"; "out"; "incoming"; "outgoing"]%string a).
      destruct (kwargs_clash ["self"; "node_label"]%string a) eqn:E1.
      { unfold add_node. rewrite E1. cbn. unfold RS. auto. }
      destruct (kwargs_clash ["in"; "out"; "incoming"; "outgoing"]%string a) eqn:E2.
      { unfold add_node. rewrite E1, E2. cbn. unfold RS. auto. }
      destruct (add_node_R n g v a HR E1 E2) as (n' & -> & HR' & Hrot). unfold RS. cbn. auto.
    - (* add_edge *)
      change (names ["self"; "i"; "j"]%string a) with (kwargs_clash ["self"; "i"; "j"]%string a).
      destruct (kwargs_clash ["self"; "i"; "j"]%string a) eqn:E1.
      { unfold add_edge. rewrite E1. cbn. unfold RS. auto. }
      destruct (add_edge_R n g i j a HR E1) as (n' & -> & HR' & Hrot). unfold RS. cbn. auto.
    - (* add_edge_bidir *)
      change (names ["self"; "i"; "j"]%string a) with (kwargs_clash ["self"; "i"; "j"]%string a).
      unfold add_edge_bidir. destruct (kwargs_clash ["self"; "i"; "j"]%string a) eqn:E1.
      { cbn. unfold RS. auto. }
      destruct (add_edge_R n g i j a HR E1) as (n' & E & HR' & Hrot). rewrite (mthen_ok _ _ _ _ E).
      destruct (add_edge_R n' _ j i a HR' E1) as (n2 & E' & HR2 & Hrot2). rewrite E'. unfold RS. cbn.
      rewrite Hrot2, Hrot. auto.
    - (* update_edge *)
      change (names ["self"; "i"; "j"; "indices"]%string a) with (kwargs_clash ["self"; "i"; "j"; "indices"]%string a).
      destruct (kwargs_clash ["self"; "i"; "j"; "indices"]%string a) eqn:E1.
      { unfold update_edge. rewrite E1. cbn. unfold RS. auto. }
      destruct (between g i j) as [|x xs] eqn:Eb.
      { unfold update_edge. rewrite E1, (has_edge_R _ _ _ _ HR), Eb. cbn. unfold RS. auto. }
      assert (Hb : between g i j <> []) by congruence.
      destruct ks as [ks|].
      + destruct (update_at_R n g i j a ks HR Hb) as (n' & E & HR' & Hrot).
        unfold update_edge. rewrite E1, (has_edge_R _ _ _ _ HR), Eb. cbn [negb]. rewrite E.
        destruct (spec_update_at g i j ks a) as [g' ok]. unfold RS. cbn in *. auto.
      + destruct (update_all_R n g i j a HR Hb E1) as (n' & -> & HR' & Hrot). unfold RS. cbn. auto.
    - (* remove_edge *)
      destruct (between g i j) as [|x xs] eqn:Eb.
      + assert (E : remove_edge i j n = (n, Err KeyError)).
        { unfold remove_edge, mbind, lookup. destruct HR as [En Hok]. rewrite En, dget_repr.
          destruct (dget (g_nodes g) j) as [b|]; cbn; [|reflexivity].
          rewrite dget_inc_of'. change (betw (g_edges g) i j) with (between g i j). rewrite Eb. reflexivity. }
        rewrite E. unfold RS. cbn. auto.
      + assert (Hb : between g i j <> []) by congruence.
        destruct (remove_edge_R n g i j HR Hb) as (n' & -> & HR' & Hrot). unfold RS. cbn. auto.
    - (* remove_node *)
      destruct (is_nodeb g v) eqn:Ev.
      + apply is_nodeb_true in Ev. destruct (remove_node_R n g v HR Ev) as (n' & -> & HR' & Hrot). unfold RS. cbn. auto.
      + assert (E : remove_node v n = (n, Err KeyError)).
        { unfold remove_node, mbind, lookup. destruct HR as [En Hok]. rewrite En, dget_repr.
          destruct (dget (g_nodes g) v) as [b|] eqn:E; cbn; [|reflexivity].
          apply dget_some_key in E. assert (is_nodeb g v = true) by (apply is_nodeb_true; assumption). congruence. }
        rewrite E. unfold RS. cbn. auto.
    - (* rotation *)
      unfold set_rotation_system.
      assert (E : forallb (fun e => dmem (net_nodes n) (fst e) && forallb (fun x => dmem (net_nodes n) x) (snd e)) rs
                  = rotation_valid g rs).
      { assert (Em : forall x, dmem (net_nodes n) x = is_nodeb g x).
        { intros x. apply eq_true_iff_eq. destruct HR as [En _]. rewrite dmem_true, is_nodeb_true, En, dkeys_repr. reflexivity. }
        unfold rotation_valid. induction rs as [|[k l] rs IH]; cbn; [reflexivity|]. rewrite IH, Em. f_equal. f_equal.
        clear -Em. induction l as [|x xs IH]; cbn; [reflexivity|]. rewrite Em, IH. reflexivity. }
      rewrite E. destruct (rotation_valid g rs); unfold RS; cbn; auto.
    - (* copy *)
      unfold RS, copy. cbn. auto.
  Qed.

  Lemma run_ops_RS os n s : RS n s ->
    RS (fst (run_ops os n)) (fst (spec_steps s os)) /\ snd (run_ops os n) = snd (spec_steps s os).
  Proof.
    revert n s. induction os as [|o os IH]; intros n s HR; cbn [run_ops spec_steps]; [auto|].
    pose proof (run_op_RS n s o HR) as [H1 H2].
    destruct (run_op o n) as [n1 r1], (spec_step s o) as [s1 r1']. cbn in H1, H2. subst r1'.
    pose proof (IH n1 s1 H1) as [H3 H4].
    destruct (run_ops os n1) as [n2 rs], (spec_steps s1 os) as [s2 rs']. cbn in *. subst. auto.
  Qed.

  Lemma R_empty : R (empty_network : network) empty_graph.
  Proof. split; [reflexivity|]. split; [constructor|contradiction]. Qed.

  (** *** Queries *)

  Lemma nodes_R n g : R n g -> nodes n = map fst (g_nodes g).
  Proof. intros [En _]. unfold nodes. rewrite En, dkeys_repr. reflexivity. Qed.

  Lemma net_len_R n g : R n g -> net_len n = length (g_nodes g).
  Proof. intros [En _]. unfold net_len. rewrite En. unfold repr. apply map_length. Qed.

  Lemma in_edges_R n g v : R n g ->
    in_edges n v = if is_nodeb g v then Ok (map (fun i => (i, between g i v)) (in_neighbours g v)) else Err KeyError.
  Proof.
    intros [En Hok]. unfold in_edges. rewrite En, dget_repr.
    destruct (is_nodeb g v) eqn:Ev.
    - apply is_nodeb_true in Ev. destruct (dget_key_some (g_nodes g) v Ev) as [b ->]. reflexivity.
    - destruct (dget (g_nodes g) v) as [b|] eqn:E; [|reflexivity].
      apply dget_some_key in E. assert (is_nodeb g v = true) by (apply is_nodeb_true; assumption). congruence.
  Qed.

  Lemma edge_R n g i j : R n g ->
    edge n i j = match between g i j with [] => Err KeyError | l => Ok l end.
  Proof.
    intros HR. pose proof HR as [En Hok]. unfold edge. unfold in_edges. rewrite En, dget_repr.
    change (between g i j) with (betw (g_edges g) i j).
    destruct (dget (g_nodes g) j) as [b|] eqn:E; cbn.
    - rewrite dget_inc_of'. destruct (betw (g_edges g) i j); reflexivity.
    - destruct (betw (g_edges g) i j) eqn:Eb; [reflexivity|].
      assert (Hb : between g i j <> []) by (change (betw (g_edges g) i j <> []); congruence).
      apply (between_nodes g i j Hok) in Hb. apply dget_none in E. destruct Hb. contradiction.
  Qed.

  Lemma is_nodeb_dget g v : is_nodeb g v = match dget (g_nodes g) v with Some _ => true | None => false end.
  Proof.
    apply eq_true_iff_eq. rewrite is_nodeb_true. unfold is_node. rewrite <- (dmem_true (g_nodes g) v). unfold dmem. reflexivity.
  Qed.

  Lemma in_degree_R n g v : R n g ->
    in_degree n v = if is_nodeb g v then Ok (Z.of_nat (length (edges_into g v))) else Err KeyError.
  Proof.
    intros [En Hok]. unfold in_degree. rewrite En, dget_repr, is_nodeb_dget. destruct (dget (g_nodes g) v); reflexivity.
  Qed.
  Lemma out_degree_R n g v : R n g ->
    out_degree n v = if is_nodeb g v then Ok (Z.of_nat (length (edges_from g v))) else Err KeyError.
  Proof.
    intros [En Hok]. unfold out_degree. rewrite En, dget_repr, is_nodeb_dget. destruct (dget (g_nodes g) v); reflexivity.
  Qed.
  Lemma degree_R n g v : R n g ->
    degree n v = if is_nodeb g v then Ok (Z.of_nat (length (edges_from g v) + length (edges_into g v))) else Err KeyError.
  Proof.
    intros [En Hok]. unfold degree. rewrite En, dget_repr, is_nodeb_dget. destruct (dget (g_nodes g) v); [|reflexivity].
    cbn. rewrite Nat2Z.inj_add. reflexivity.
  Qed.

  (** edges enumerated per target and per source are a permutation of the edge list *)
  Lemma perm_split {A} (p : A -> bool) (l : list A) : Permutation l (filter p l ++ filter (fun x => negb (p x)) l).
  Proof.
    induction l as [|x xs IH]; cbn; [constructor|]. destruct (p x); cbn.
    - constructor. assumption.
    - apply Permutation_cons_app. assumption.
  Qed.

  Lemma perm_group {A} (f : A -> L) (ks : list L) (l : list A) :
    NoDup ks -> (forall x, In x l -> In (f x) ks) ->
    Permutation (flat_map (fun k => filter (fun x => eqb (f x) k) l) ks) l.
  Proof.
    revert l. induction ks as [|k ks IH]; intros l Hnd Hin; cbn.
    - destruct l as [|x xs]; [constructor|]. exfalso. apply (Hin x). left. reflexivity.
    - inversion Hnd as [|? ? Hni Hnd']; subst.
      etransitivity; [|symmetry; apply (perm_split (fun x => eqb (f x) k))].
      apply Permutation_app_head.
      etransitivity; [|apply (IH (filter (fun x => negb (eqb (f x) k)) l) Hnd')].
      + apply perm_eq. rewrite !flat_map_concat_map. f_equal. apply map_ext_in. intros k' Hk'.
        rewrite filter_filter. apply filter_ext. intros x. destruct (eqb_spec (f x) k'); [|rewrite andb_false_r; reflexivity].
        destruct (eqb_spec (f x) k); [congruence|reflexivity].
      + intros x Hx. apply filter_In in Hx. destruct Hx as [Hx Hne]. apply negb_true_iff, eqb_false in Hne.
        destruct (Hin x Hx); [congruence|assumption].
  Qed.

  Lemma edges_R n g : R n g -> Permutation (edges n) (g_edges g).
  Proof.
    intros [En Hok]. unfold edges. rewrite En.
    etransitivity; [|apply (perm_group tgt (map fst (g_nodes g)))].
    - unfold repr. rewrite !flat_map_concat_map, !map_map. cbn.
      apply Permutation_concat_map_ext. intros [v b] _. cbn. clear En Hok.
      etransitivity; [|apply (perm_group src (dedup (map src (into (g_edges g) v))))].
      + apply perm_eq. unfold inc_of. rewrite !flat_map_concat_map, !map_map. f_equal. apply map_ext.
        intros i. cbn. unfold betw, into. rewrite map_map, filter_filter.
        rewrite (filter_ext (fun e : edge_t => eqb (tgt e) v && eqb (src e) i) (fun e => eqb (src e) i && eqb (tgt e) v))
          by (intros; apply andb_comm).
        rewrite <- (map_id (filter (fun e : edge_t => eqb (src e) i && eqb (tgt e) v) (g_edges g))) at 2.
        apply map_ext_in. intros [[x y] c] Hx. apply filter_In in Hx. destruct Hx as [_ Hx]. apply andb_true_iff in Hx.
        destruct Hx as [H1 H2]. apply eqb_eq in H1. apply eqb_eq in H2. unfold src, tgt in *. cbn in *. subst. reflexivity.
      + apply NoDup_dedup.
      + intros e He. apply in_dedup. apply in_map. assumption.
    - apply Hok.
    - intros e He. apply Hok. assumption.
  Qed.
End Proofs.

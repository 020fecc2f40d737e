(** Refinement of Network.v to the abstract multigraph of NetworkSpec.v. *)
From Verif Require Import Py PyFacts Network NetworkSpec.
Open Scope Z_scope.

Section Proofs.
  Context {L V : Type} `{EqD L}.
  Notation network := (network L V).
  Notation graph := (graph L V).
  Notation attrs := (dict string V).
  Notation edge_t := (L * L * attrs)%type.
  Implicit Types (es : list edge_t) (g : graph) (v w i j : L) (ns : dict L (node L V)) (n : network).

  (** *** The concrete node dict that represents an abstract graph *)

  Definition into es v := filter (fun e => eqb (tgt e) v) es.
  Definition from es v := filter (fun e => eqb (src e) v) es.
  Definition betw es i j : list attrs := map dat (filter (fun e => eqb (src e) i && eqb (tgt e) j) es).
  Definition inc_of es v : dict L (list attrs) :=
    map (fun i => (i, betw es i v)) (dedup (map src (into es v))).

  Definition rnode es v (a : attrs) : node L V :=
    mkNode (Z.of_nat (length (into es v))) (Z.of_nat (length (from es v))) (inc_of es v) (map tgt (from es v)) a.

  Definition repr g : dict L (node L V) :=
    map (fun na => (fst na, rnode (g_edges g) (fst na) (snd na))) (g_nodes g).

  Definition R (n : network) g : Prop := net_nodes n = repr g /\ graph_ok g.

  (** *** dedup *)

  Lemma in_dedup (l : list L) x : In x (dedup l) <-> In x l.
  Proof.
    induction l as [|y ys IH]; cbn; [tauto|].
    rewrite filter_In, IH, negb_true_iff, eqb_false. split; intros Hx.
    - tauto.
    - destruct (eqd y x); [auto|]. destruct Hx as [->|Hx]; [congruence|]. auto.
  Qed.

  Lemma NoDup_dedup (l : list L) : NoDup (dedup l).
  Proof.
    induction l as [|y ys IH]; cbn; constructor.
    - rewrite filter_In, negb_true_iff, eqb_false. tauto.
    - apply NoDup_filter. assumption.
  Qed.

  Lemma dedup_filter (p : L -> bool) (l : list L) : dedup (filter p l) = filter p (dedup l).
  Proof.
    induction l as [|y ys IH]; cbn; [reflexivity|].
    destruct (p y) eqn:E; cbn; rewrite IH.
    - f_equal. apply filter_comm.
    - rewrite filter_filter. apply filter_ext_in. intros x Hx.
      destruct (eqb_spec y x) as [->|]; cbn; [assumption|reflexivity].
  Qed.

  Lemma dedup_snoc (l : list L) x :
    dedup (l ++ [x]) = if in_dec eqd x l then dedup l else dedup l ++ [x].
  Proof.
    induction l as [|y ys IH]; cbn [app dedup]; [reflexivity|].
    rewrite IH. destruct (in_dec eqd x ys) as [Hin|Hni]; destruct (in_dec eqd x (y :: ys)) as [Hin'|Hni'].
    - reflexivity.
    - exfalso; apply Hni'; right; assumption.
    - destruct Hin' as [->|Hin']; [|contradiction].
      rewrite filter_app. cbn. rewrite eqb_refl. cbn. rewrite app_nil_r. reflexivity.
    - rewrite filter_app. cbn. destruct (eqb_spec y x) as [->|]; [exfalso; apply Hni'; left; reflexivity|].
      reflexivity.
  Qed.

  Lemma dget_mapkey {W} (f : L -> W) (l : list L) k :
    dget (map (fun i => (i, f i)) l) k = if in_dec eqd k l then Some (f k) else None.
  Proof.
    induction l as [|y ys IH]; cbn [map dget]; [reflexivity|].
    destruct (eqd k y) as [->|Hne].
    - destruct (in_dec eqd y (y :: ys)) as [_|Hn]; [reflexivity|exfalso; apply Hn; left; reflexivity].
    - rewrite IH. destruct (in_dec eqd k ys) as [Hi|Hn], (in_dec eqd k (y :: ys)) as [Hi'|Hn']; auto.
      + exfalso; apply Hn'; right; assumption.
      + destruct Hi'; [congruence|contradiction].
  Qed.

  Lemma dkeys_mapkey {W} (f : L -> W) (l : list L) : dkeys (map (fun i => (i, f i)) l) = l.
  Proof. unfold dkeys. rewrite map_map. cbn. apply map_id. Qed.

  (** *** inc_of *)

  Lemma dkeys_inc_of es v : dkeys (inc_of es v) = dedup (map src (into es v)).
  Proof. apply dkeys_mapkey. Qed.

  Lemma NoDup_inc_of es v : NoDup (dkeys (inc_of es v)).
  Proof. rewrite dkeys_inc_of. apply NoDup_dedup. Qed.

  Lemma in_inc_keys es v i :
    In i (dkeys (inc_of es v)) <-> exists e, In e es /\ src e = i /\ tgt e = v.
  Proof.
    rewrite dkeys_inc_of, in_dedup, in_map_iff. unfold into. split.
    - intros (e & He & Hin). apply filter_In in Hin. destruct Hin as [Hin Ht]. apply eqb_eq in Ht. exists e; auto.
    - intros (e & Hin & Hs & Ht). exists e. split; [assumption|]. apply filter_In. split; [assumption|].
      apply eqb_true. assumption.
  Qed.

  Lemma dget_inc_of es v i :
    dget (inc_of es v) i = if in_dec eqd i (dkeys (inc_of es v)) then Some (betw es i v) else None.
  Proof.
    unfold inc_of at 1. rewrite (dget_mapkey (fun i => betw es i v)). rewrite <- dkeys_inc_of. reflexivity.
  Qed.

  Lemma betw_nil es i v : ~ In i (dkeys (inc_of es v)) -> betw es i v = [].
  Proof.
    intros Hni. unfold betw. rewrite filter_false; [reflexivity|]. intros e He.
    destruct (eqb_spec (src e) i); cbn; [|reflexivity]. destruct (eqb_spec (tgt e) v); [|reflexivity].
    exfalso. apply Hni. apply in_inc_keys. eauto.
  Qed.

  Lemma betw_nonnil es i v : In i (dkeys (inc_of es v)) -> betw es i v <> [].
  Proof.
    intros Hin. apply in_inc_keys in Hin. destruct Hin as (e & He & Hs & Ht).
    unfold betw. intros E. apply map_eq_nil in E.
    assert (Hf : In e (filter (fun e => eqb (src e) i && eqb (tgt e) v) es)).
    { apply filter_In. split; [assumption|]. subst. rewrite !eqb_refl. reflexivity. }
    rewrite E in Hf. contradiction.
  Qed.

  Lemma betw_nil_iff es i v : betw es i v <> [] <-> In i (dkeys (inc_of es v)).
  Proof.
    split; [|apply betw_nonnil]. intros Hb. destruct (in_dec eqd i (dkeys (inc_of es v))) as [Hx|Hx]; [assumption|].
    apply betw_nil in Hx. contradiction.
  Qed.

  Lemma dget_inc_of' es v i :
    dget (inc_of es v) i = match betw es i v with [] => None | l => Some l end.
  Proof.
    rewrite dget_inc_of. destruct (in_dec eqd i _) as [Hin|Hni].
    - apply betw_nonnil in Hin. destruct (betw es i v); congruence.
    - apply betw_nil in Hni. rewrite Hni. reflexivity.
  Qed.

  Lemma betw_snoc es i j a i' v :
    betw (es ++ [(i, j, a)]) i' v = betw es i' v ++ (if eqb i i' && eqb j v then [a] else []).
  Proof.
    unfold betw. rewrite filter_app, map_app. f_equal. cbn.
    change (src (i, j, a)) with i. change (tgt (i, j, a)) with j.
    destruct (eqb i i' && eqb j v); reflexivity.
  Qed.

  Lemma inc_of_snoc es i j a v :
    inc_of (es ++ [(i, j, a)]) v =
    if eqb j v then append_incoming (inc_of es v) i a else inc_of es v.
  Proof.
    apply dict_ext.
    - rewrite dkeys_inc_of. unfold into. rewrite filter_app. cbn.
      change (tgt (i, j, a)) with j. destruct (eqb j v) eqn:Ej; cbn.
      + rewrite map_app. cbn. rewrite dedup_snoc. unfold append_incoming.
        change (src (i, j, a)) with i.
        destruct (in_dec eqd i _) as [Hin|Hni].
        * rewrite dget_inc_of'. assert (Hi : In i (dkeys (inc_of es v))) by (rewrite dkeys_inc_of, in_dedup; assumption).
          destruct (betw es i v) as [|b bs] eqn:Eb; [apply betw_nonnil in Hi; congruence|].
          rewrite dkeys_dset. apply dmem_true in Hi. rewrite Hi, dkeys_inc_of. reflexivity.
        * assert (Hi : ~ In i (dkeys (inc_of es v))) by (rewrite dkeys_inc_of, in_dedup; assumption).
          rewrite dget_inc_of', (betw_nil _ _ _ Hi), dkeys_dset.
          apply dmem_false in Hi. rewrite Hi, dkeys_inc_of. reflexivity.
      + rewrite app_nil_r, dkeys_inc_of. reflexivity.
    - apply NoDup_inc_of.
    - intros k. rewrite dget_inc_of', betw_snoc.
      destruct (eqb_spec j v) as [->|Hj].
      + unfold append_incoming. rewrite andb_true_r.
        destruct (dget (inc_of es v) i) as [l|] eqn:El; rewrite dget_dset.
        * destruct (eqd k i) as [->|Hki].
          -- rewrite eqb_refl. rewrite dget_inc_of' in El. destruct (betw es i v); [discriminate|].
             inversion El. reflexivity.
          -- destruct (eqb_spec i k); [congruence|]. rewrite app_nil_r. symmetry. apply dget_inc_of'.
        * destruct (eqd k i) as [->|Hki].
          -- rewrite eqb_refl. rewrite dget_inc_of' in El. destruct (betw es i v); [|discriminate]. reflexivity.
          -- destruct (eqb_spec i k); [congruence|]. rewrite app_nil_r. symmetry. apply dget_inc_of'.
      + rewrite andb_false_r, app_nil_r. symmetry. apply dget_inc_of'.
  Qed.

  Lemma betw_filter (p : edge_t -> bool) es i v :
    betw (filter p es) i v = map dat (filter (fun e => p e && (eqb (src e) i && eqb (tgt e) v)) es).
  Proof. unfold betw. rewrite filter_filter. reflexivity. Qed.

  (** a filter on edges that, among the edges into [v], removes exactly those coming from [i] *)
  Lemma inc_of_filter (p : edge_t -> bool) es i v :
    (forall e, In e es -> tgt e = v -> p e = negb (eqb (src e) i)) ->
    inc_of (filter p es) v = ddel (inc_of es v) i.
  Proof.
    intros Hp. apply dict_ext.
    - rewrite dkeys_ddel, !dkeys_inc_of, <- dedup_filter. f_equal.
      unfold into. rewrite filter_comm.
      assert (E : filter p (filter (fun e => eqb (tgt e) v) es) =
                  filter (fun e => negb (eqb (src e) i)) (filter (fun e => eqb (tgt e) v) es)).
      { apply filter_ext_in. intros e He. apply filter_In in He. destruct He as [He Ht].
        apply eqb_eq in Ht. apply Hp; assumption. }
      rewrite E. generalize (filter (fun e => eqb (tgt e) v) es) as l.
      induction l as [|e l IH]; cbn; [reflexivity|].
      rewrite (eqb_sym i (src e)). destruct (eqb (src e) i); cbn; congruence.
    - apply NoDup_inc_of.
    - intros k. rewrite dget_ddel, !dget_inc_of', betw_filter.
      destruct (eqd k i) as [->|Hki].
      + rewrite filter_false; [reflexivity|]. intros e He.
        destruct (eqb_spec (src e) i) as [Es|Es]; cbn; [|apply andb_false_r].
        destruct (eqb_spec (tgt e) v) as [Et|Et]; cbn; [|apply andb_false_r].
        rewrite Hp by assumption. rewrite Es, eqb_refl. reflexivity.
      + unfold betw. rewrite (filter_ext_in _ (fun e => eqb (src e) k && eqb (tgt e) v)); [reflexivity|].
        intros e He. destruct (eqb_spec (src e) k) as [Es|Es]; cbn; [|apply andb_false_r].
        destruct (eqb_spec (tgt e) v) as [Et|Et]; cbn; [|apply andb_false_r].
        rewrite Hp by assumption. destruct (eqb_spec (src e) i); [congruence|reflexivity].
  Qed.

  (** a filter that keeps all edges into [v] *)
  Lemma inc_of_filter_id (p : edge_t -> bool) es v :
    (forall e, In e es -> tgt e = v -> p e = true) -> inc_of (filter p es) v = inc_of es v.
  Proof.
    intros Hp.
    assert (Ei : into (filter p es) v = into es v).
    { unfold into. rewrite filter_comm. apply filter_true. intros e He. apply filter_In in He.
      destruct He as [He Ht]. apply Hp; [assumption|]. apply eqb_true. assumption. }
    unfold inc_of. rewrite Ei. apply map_ext. intros i. f_equal. rewrite betw_filter. unfold betw. f_equal.
    apply filter_ext_in. intros e He.
    destruct (eqb_spec (tgt e) v) as [Et|Et]; [rewrite Hp by assumption; reflexivity|].
    rewrite !andb_false_r. reflexivity.
  Qed.

  (** *** Lookup in [repr] *)

  Lemma dkeys_repr g : dkeys (repr g) = map fst (g_nodes g).
  Proof. unfold repr, dkeys. rewrite map_map. reflexivity. Qed.

  Lemma dget_repr g v : dget (repr g) v = option_map (rnode (g_edges g) v) (dget (g_nodes g) v).
  Proof. unfold repr. apply (dget_map_vals (rnode (g_edges g))). Qed.

  Lemma R_NoDup n g : R n g -> NoDup (dkeys (net_nodes n)).
  Proof. intros [E [Hnd _]]. rewrite E, dkeys_repr. assumption. Qed.

  (** A network whose keys and lookups match the representation is the representation. *)
  Lemma repr_intro (ns : dict L (node L V)) g :
    graph_ok g -> dkeys ns = map fst (g_nodes g) ->
    (forall w, dget ns w = option_map (rnode (g_edges g) w) (dget (g_nodes g) w)) -> ns = repr g.
  Proof.
    intros [Hnd _] Hk Hg. apply dict_ext.
    - rewrite dkeys_repr. assumption.
    - rewrite Hk. assumption.
    - intros w. rewrite Hg, dget_repr. reflexivity.
  Qed.

  (** *** Running the primitive steps *)

  Lemma on_node_ok v f ns r :
    NoDup (dkeys ns) -> In v (dkeys ns) ->
    on_node v f (mkNet ns r) = (mkNet (dmod ns v f) r, Ok tt).
  Proof.
    intros Hnd Hin. unfold on_node. cbn. destruct (dget_key_some _ _ Hin) as [nd E]. rewrite E.
    unfold set_nodes. cbn. rewrite (dmod_dset _ _ f _ Hnd E). reflexivity.
  Qed.

  Lemma mthen_ok (m k : mut unit) (n n' : network) : m n = (n', Ok tt) -> mthen m k n = k n'.
  Proof. intros E. unfold mthen, mbind. rewrite E. reflexivity. Qed.

  Lemma mbind_ok {A B} (m : mut A) (f : A -> mut B) (n n' : network) a :
    m n = (n', Ok a) -> mbind m f n = f a n'.
  Proof. intros E. unfold mbind. rewrite E. reflexivity. Qed.

  Definition ensure_key (ns : dict L (node L V)) v := if dmem ns v then ns else dset ns v new_node.

  Lemma init_node_eq v ns r : init_node v (mkNet ns r) = (mkNet (ensure_key ns v) r, Ok tt).
  Proof. unfold init_node, ensure_key. cbn. destruct (dmem ns v); reflexivity. Qed.

  (** *** ensure_node *)

  Lemma is_nodeb_true g v : is_nodeb g v = true <-> is_node g v.
  Proof. unfold is_nodeb, is_node. destruct (in_dec eqd v _); split; congruence || tauto. Qed.

  Lemma into_nil g v : graph_ok g -> ~ is_node g v -> into (g_edges g) v = [].
  Proof.
    intros [_ Hok] Hn. apply filter_false. intros e He. apply eqb_false. intros E. apply Hn. subst v.
    apply Hok. assumption.
  Qed.
  Lemma from_nil g v : graph_ok g -> ~ is_node g v -> from (g_edges g) v = [].
  Proof.
    intros [_ Hok] Hn. apply filter_false. intros e He. apply eqb_false. intros E. apply Hn. subst v.
    apply Hok. assumption.
  Qed.

  Lemma ensure_node_ok g v : graph_ok g -> graph_ok (ensure_node g v).
  Proof.
    intros Hok. unfold ensure_node. destruct (is_nodeb g v) eqn:E; [assumption|].
    destruct Hok as [Hnd He]. split; cbn.
    - rewrite map_app. cbn. apply NoDup_snoc; [assumption|]. intros Hin. apply is_nodeb_true in Hin. congruence.
    - intros e Hin. specialize (He e Hin). unfold is_node in *. cbn. rewrite map_app, !in_app_iff. tauto.
  Qed.

  Lemma is_node_ensure g v w : is_node (ensure_node g v) w <-> is_node g w \/ w = v.
  Proof.
    unfold ensure_node. destruct (is_nodeb g v) eqn:E.
    - apply is_nodeb_true in E. split; [auto|]. intros [Hx| ->]; assumption.
    - unfold is_node. cbn. rewrite map_app, in_app_iff. cbn. split; intuition congruence.
  Qed.

  Lemma ensure_key_repr g v : graph_ok g -> ensure_key (repr g) v = repr (ensure_node g v).
  Proof.
    intros Hok. unfold ensure_key, ensure_node.
    assert (Em : dmem (repr g) v = is_nodeb g v).
    { apply eq_true_iff_eq. rewrite dmem_true, is_nodeb_true, dkeys_repr. reflexivity. }
    rewrite Em. destruct (is_nodeb g v) eqn:E; [reflexivity|].
    assert (Hn : ~ is_node g v) by (rewrite <- is_nodeb_true; congruence).
    rewrite dset_new by (rewrite dkeys_repr; assumption).
    unfold repr. cbn. rewrite map_app. cbn. f_equal. f_equal. f_equal.
    unfold rnode. rewrite (into_nil g v Hok Hn), (from_nil g v Hok Hn). unfold inc_of.
    rewrite (into_nil g v Hok Hn). reflexivity.
  Qed.

  (** *** add_edge *)

  Lemma from_snoc es i j a w : from (es ++ [(i, j, a)]) w = from es w ++ (if eqb i w then [(i, j, a)] else []).
  Proof. unfold from. rewrite filter_app. cbn. change (src (i, j, a)) with i. destruct (eqb i w); reflexivity. Qed.
  Lemma into_snoc es i j a w : into (es ++ [(i, j, a)]) w = into es w ++ (if eqb j w then [(i, j, a)] else []).
  Proof. unfold into. rewrite filter_app. cbn. change (tgt (i, j, a)) with j. destruct (eqb j w); reflexivity. Qed.

  Lemma spec_add_edge_ok g i j a : graph_ok g -> graph_ok (spec_add_edge g i j a).
  Proof.
    intros Hok. unfold spec_add_edge.
    assert (Hok2 := ensure_node_ok _ j (ensure_node_ok _ i Hok)).
    assert (Hn : forall w, w = i \/ w = j -> is_node (ensure_node (ensure_node g i) j) w).
    { intros w Hw. rewrite !is_node_ensure. intuition. }
    set (g2 := ensure_node (ensure_node g i) j) in *. destruct Hok2 as [Hnd He].
    split; cbn; [assumption|]. intros e Hin. apply in_app_iff in Hin. cbn in Hin.
    destruct Hin as [Hin|[<-|[]]].
    - apply He. assumption.
    - split; apply Hn; auto.
  Qed.

  Lemma add_edge_R n g i j a :
    R n g -> kwargs_clash ["self"; "i"; "j"]%string a = false ->
    exists n', add_edge i j a n = (n', Ok tt) /\ R n' (spec_add_edge g i j a) /\ net_rot n' = net_rot n.
  Proof.
    intros [En Hok] Hkw. destruct n as [ns r]. cbn in En. subst ns.
    unfold add_edge. rewrite Hkw.
    rewrite (mthen_ok _ _ _ _ (init_node_eq i _ r)), (mthen_ok _ _ _ _ (init_node_eq j _ r)).
    rewrite ensure_key_repr by assumption.
    rewrite ensure_key_repr by (apply ensure_node_ok; assumption).
    assert (Hok' := spec_add_edge_ok g i j a Hok).
    unfold spec_add_edge in *.
    assert (Hi : is_node (ensure_node (ensure_node g i) j) i) by (rewrite !is_node_ensure; auto).
    assert (Hj : is_node (ensure_node (ensure_node g i) j) j) by (rewrite !is_node_ensure; auto).
    assert (Hok2 := ensure_node_ok _ j (ensure_node_ok _ i Hok)).
    set (g2 := ensure_node (ensure_node g i) j) in *.
    destruct Hok2 as [Hnd _].
    repeat (erewrite mthen_ok by
      (unfold increment_in_degree, increment_out_degree; apply on_node_ok; rewrite ?dkeys_dmod, ?dkeys_repr; assumption)).
    unfold add_outgoing. rewrite on_node_ok by (rewrite ?dkeys_dmod, ?dkeys_repr; assumption).
    eexists. split; [reflexivity|]. split; [|reflexivity]. split; [|assumption]. cbn [net_nodes].
    apply repr_intro; [assumption| |].
    - rewrite !dkeys_dmod, dkeys_repr. reflexivity.
    - intros w. cbn [g_nodes g_edges].
      rewrite !dget_dmod, dget_repr. destruct (dget (g_nodes g2) w) as [at_|] eqn:Ew; cbn [option_map].
      2:{ repeat (match goal with |- context [eqd ?a ?b] => destruct (eqd a b) end); reflexivity. }
      unfold rnode. rewrite into_snoc, from_snoc, inc_of_snoc, map_app, !app_length.
      rewrite (eqb_sym i w), (eqb_sym j w). unfold eqb.
      destruct (eqd w i) as [Ewi|Ewi], (eqd w j) as [Ewj|Ewj];
        cbn; unfold with_inc, with_in, with_out, with_outg; cbn; do 2 f_equal; rewrite ?app_nil_r; cbn; try reflexivity; lia.
  Qed.

  (** *** add_node *)

  Lemma spec_add_node_ok g v a : graph_ok g -> graph_ok (spec_add_node g v a).
  Proof.
    intros Hok. assert (Hok' := ensure_node_ok g v Hok). unfold spec_add_node.
    destruct Hok' as [Hnd He].
    assert (Em : map fst (map (fun na => if eqd (fst na) v then (fst na, dupdate (snd na) a) else na)
                 (g_nodes (ensure_node g v))) = map fst (g_nodes (ensure_node g v))).
    { rewrite map_map. apply map_ext. intros [w b]. cbn. destruct (eqd w v); reflexivity. }
    split; cbn; unfold is_node; cbn; rewrite Em; assumption.
  Qed.

  Lemma add_node_R n g v a :
    R n g -> kwargs_clash ["self"; "node_label"]%string a = false ->
    kwargs_clash ["in"; "out"; "incoming"; "outgoing"]%string a = false ->
    exists n', add_node v a n = (n', Ok tt) /\ R n' (spec_add_node g v a) /\ net_rot n' = net_rot n.
  Proof.
    intros [En Hok] Hkw Hkw2. destruct n as [ns r]. cbn in En. subst ns.
    unfold add_node. rewrite Hkw, Hkw2.
    rewrite (mthen_ok _ _ _ _ (init_node_eq v _ r)).
    rewrite ensure_key_repr by assumption.
    assert (Hv : is_node (ensure_node g v) v) by (rewrite is_node_ensure; auto).
    assert (Hok2 := ensure_node_ok _ v Hok). assert (Hok' := spec_add_node_ok g v a Hok).
    unfold spec_add_node in *.
    set (g2 := ensure_node g v) in *. destruct Hok2 as [Hnd _].
    rewrite on_node_ok by (rewrite ?dkeys_repr; assumption).
    eexists. split; [reflexivity|]. split; [|reflexivity]. split; [|assumption]. cbn [net_nodes].
    apply repr_intro; [assumption| |].
    - rewrite dkeys_dmod, dkeys_repr. cbn. rewrite map_map. apply map_ext. intros [w b]. cbn.
      destruct (eqd w v); reflexivity.
    - intros w. rewrite dget_dmod, dget_repr. cbn [g_nodes g_edges].
      assert (Em : dget (map (fun na => if eqd (fst na) v then (fst na, dupdate (snd na) a) else na) (g_nodes g2)) w
                   = if eqd w v then option_map (fun b => dupdate b a) (dget (g_nodes g2) w) else dget (g_nodes g2) w).
      { clear. induction (g_nodes g2) as [|[u b] l IH]; cbn; [destruct (eqd w v); reflexivity|].
        destruct (eqd u v) as [->|Hne]; cbn.
        - destruct (eqd w v); [reflexivity|exact IH].
        - destruct (eqd w u) as [->|]; [|exact IH]. destruct (eqd u v); [congruence|reflexivity]. }
      rewrite Em. destruct (eqd w v) as [->|]; [|reflexivity].
      destruct (dget (g_nodes g2) v); reflexivity.
  Qed.

  (** *** remove_edge *)

  Lemma length_filter_neg {A} (p : A -> bool) (l : list A) :
    Z.of_nat (length (filter (fun x => negb (p x)) l)) = Z.of_nat (length l) - Z.of_nat (length (filter p l)).
  Proof. induction l as [|x xs IH]; [reflexivity|]. cbn [filter length]. destruct (p x); cbn [negb length]; lia. Qed.

  Lemma betw_into es i j : length (betw es i j) = length (filter (fun e => eqb (src e) i) (into es j)).
  Proof.
    unfold betw, into. rewrite map_length, filter_filter. f_equal. apply filter_ext. intros e. apply andb_comm.
  Qed.
  Lemma betw_from es i j : length (betw es i j) = length (filter (fun e => eqb (tgt e) j) (from es i)).
  Proof. unfold betw, from. rewrite map_length, filter_filter. reflexivity. Qed.

  Lemma map_tgt_filter es j :
    map tgt (filter (fun e => negb (eqb (tgt e) j)) es) = filter (fun x => negb (eqb x j)) (map tgt es).
  Proof.
    induction es as [|e es IH]; cbn; [reflexivity|]. destruct (eqb (tgt e) j); cbn; congruence.
  Qed.

  Lemma spec_remove_edge_ok g i j : graph_ok g -> graph_ok (spec_remove_edge g i j).
  Proof.
    intros [Hnd He]. split; cbn; [assumption|]. intros e Hin. apply filter_In in Hin. apply He. tauto.
  Qed.

  Lemma remove_edge_R n g i j :
    R n g -> between g i j <> [] ->
    exists n', remove_edge i j n = (n', Ok tt) /\ R n' (spec_remove_edge g i j) /\ net_rot n' = net_rot n.
  Proof.
    intros [En Hok] Hb. destruct n as [ns r]. cbn in En. subst ns.
    change (between g i j) with (betw (g_edges g) i j) in Hb.
    assert (Hin : In i (dkeys (inc_of (g_edges g) j))).
    { destruct (in_dec eqd i (dkeys (inc_of (g_edges g) j))) as [Hx|Hx]; [assumption|].
      apply betw_nil in Hx. contradiction. }
    assert (Hij : is_node g i /\ is_node g j).
    { apply in_inc_keys in Hin. destruct Hin as (e & He & <- & <-). apply Hok. assumption. }
    destruct Hij as [Hi Hj].
    assert (Hok' := spec_remove_edge_ok g i j Hok).
    pose proof (proj1 Hok) as Hnd.
    unfold remove_edge.
    assert (Ej : exists b, dget (g_nodes g) j = Some b) by (apply dget_key_some; assumption).
    destruct Ej as [bj Ej].
    assert (El : lookup j (mkNet (repr g) r) = (mkNet (repr g) r, Ok (rnode (g_edges g) j bj))).
    { unfold lookup. cbn. rewrite dget_repr, Ej. reflexivity. }
    rewrite (mbind_ok _ _ _ _ _ El). cbn [n_inc rnode].
    assert (Ed : dget (inc_of (g_edges g) j) i = Some (betw (g_edges g) i j)).
    { rewrite dget_inc_of. destruct (in_dec eqd i _); [reflexivity|contradiction]. }
    rewrite Ed.
    unfold remove_outgoing, decrement_out_degree, decrement_in_degree, remove_incoming.
    repeat (erewrite mthen_ok by
      (apply on_node_ok; rewrite ?dkeys_dmod, ?dkeys_repr; assumption)).
    rewrite on_node_ok by (rewrite ?dkeys_dmod, ?dkeys_repr; assumption).
    eexists. split; [reflexivity|]. split; [|reflexivity]. split; [|assumption]. cbn [net_nodes].
    apply repr_intro; [assumption| |].
    - rewrite !dkeys_dmod, dkeys_repr. reflexivity.
    - intros w. cbn [g_nodes g_edges spec_remove_edge].
      rewrite !dget_dmod, dget_repr. destruct (dget (g_nodes g) w) as [at_|] eqn:Ew; cbn [option_map].
      2:{ repeat (match goal with |- context [eqd ?a ?b] => destruct (eqd a b) end); reflexivity. }
      set (p := fun e : edge_t => negb (eqb (src e) i && eqb (tgt e) j)).
      assert (Einc : inc_of (filter p (g_edges g)) w =
                     if eqd w j then ddel (inc_of (g_edges g) w) i else inc_of (g_edges g) w).
      { destruct (eqd w j) as [->|Hne].
        - apply inc_of_filter. intros e _ Ht. unfold p. rewrite Ht, eqb_refl, andb_true_r. reflexivity.
        - apply inc_of_filter_id. intros e _ Ht. unfold p. destruct (eqb_spec (tgt e) j); [congruence|].
          rewrite andb_false_r. reflexivity. }
      assert (Einto : Z.of_nat (length (into (filter p (g_edges g)) w)) =
                      Z.of_nat (length (into (g_edges g) w)) - (if eqd w j then Z.of_nat (length (betw (g_edges g) i j)) else 0)).
      { destruct (eqd w j) as [->|Hne].
        - rewrite betw_into, <- length_filter_neg. f_equal. f_equal. unfold into. rewrite filter_comm.
          apply filter_ext_in. intros e He. apply filter_In in He. unfold p. rewrite (proj2 He), andb_true_r. reflexivity.
        - rewrite Z.sub_0_r. f_equal. f_equal. unfold into. rewrite filter_comm. apply filter_true.
          intros e He. apply filter_In in He. destruct He as [_ Ht]. apply eqb_eq in Ht. unfold p.
          destruct (eqb_spec (tgt e) j); [congruence|]. rewrite andb_false_r. reflexivity. }
      assert (Efrom : from (filter p (g_edges g)) w =
                      if eqd w i then filter (fun e => negb (eqb (tgt e) j)) (from (g_edges g) w) else from (g_edges g) w).
      { unfold from. rewrite filter_comm. destruct (eqd w i) as [->|Hne].
        - apply filter_ext_in. intros e He. apply filter_In in He. unfold p. rewrite (proj2 He). reflexivity.
        - apply filter_true. intros e He. apply filter_In in He. destruct He as [_ Hs]. apply eqb_eq in Hs.
          unfold p. destruct (eqb_spec (src e) i); [congruence|reflexivity]. }
      unfold rnode. rewrite Einc, Einto, Efrom.
      destruct (eqd w i) as [Hwi|Hwi], (eqd w j) as [Hwj|Hwj]; subst;
        cbn; unfold with_inc, with_in, with_out, with_outg; cbn;
        rewrite ?map_tgt_filter, ?length_filter_neg, ?betw_from;
        try (match goal with |- context [dmem ?d ?x] => assert (Em : dmem d x = true) by (apply dmem_true; assumption); rewrite Em end);
        cbn; unfold with_inc, with_in, with_out, with_outg; cbn; do 2 f_equal; try reflexivity; try lia.
  Qed.
End Proofs.

(** * Proofs: bipartite, complete and disconnected networks. *)
From Verif Require Import Py PyFacts ListFacts Network NetworkSpec NetworkProofs NetworkProofs2 NetworkProofs3.
From Verif Require Import Topology TopologySpec TopologyProofs TopologyProofs2 TopologyProofs3 TopologyProofs4.
Open Scope string_scope.
Open Scope list_scope.
Open Scope Z_scope.

Lemma flat_map_single_list {A B} `{EqD A} (f : A -> list B) l k : NoDup l -> (forall x, In x l -> x <> k -> f x = []) ->
  flat_map f l = if in_dec eqd k l then f k else [].
Proof.
  induction l as [|x xs IH]; intros Hnd Hf; cbn [flat_map]; [reflexivity|]. inversion Hnd; subst.
  rewrite IH by (try assumption; intros y Hy; apply Hf; right; assumption).
  destruct (in_dec eqd k (x :: xs)) as [Hi|Hi], (in_dec eqd k xs) as [Hj|Hj].
  - rewrite (Hf x); [reflexivity|left; reflexivity|]. intros ->. contradiction.
  - destruct Hi as [-> |Hi]; [apply app_nil_r|contradiction].
  - exfalso. apply Hi. right. assumption.
  - rewrite (Hf x); [reflexivity|left; reflexivity|]. intros ->. apply Hi. left. reflexivity.
Qed.

Section Bipartite.
  Context {L V : Type} `{EqD L}.

  Definition bip_edges (A B : list L) (f : L -> L -> dict string V) : list (L * L * dict string V) :=
    flat_map (fun u => flat_map (fun v => [(u, v, f u v); (v, u, f u v)]) B) A.

  Lemma bip_eq A B ea f :
    (forall u v, In u A -> In v B -> kwargs_clash ["self"; "i"; "j"] (f u v) = false) ->
    match ea with
    | None => forall u v, f u v = []
    | Some d => forall u v, In u A -> In v B -> exists du, dget d u = Some du /\ dget du v = Some (f u v)
    end ->
    bipartite A B ea = mfor (bip_edges A B f) (fun e => add_edge (src e) (tgt e) (dat e)) empty_network.
  Proof.
    intros Hk Hf. unfold bipartite, bip_edges. rewrite mfor_flat_map. apply mfor_ext. intros u n Hu.
    rewrite mfor_flat_map. apply mfor_ext. intros v m Hv. specialize (Hk u v Hu Hv). 
    assert (E : forall a, a = f u v -> add_edge_bidir u v a m =
       mfor [(u, v, f u v); (v, u, f u v)] (fun e => add_edge (src e) (tgt e) (dat e)) m).
    { intros a ->. unfold add_edge_bidir. rewrite Hk. cbn [mfor]. rewrite !mthen_eq. cbn [src tgt dat fst snd].
      destruct (add_edge u v (f u v) m) as [m1 [[]|e]]; [|reflexivity]. rewrite mthen_eq.
      destruct (add_edge v u (f u v) m1) as [m2 [[]|e]]; reflexivity. }
    destruct ea as [d|].
    - destruct (Hf u v Hu Hv) as (du & E1 & E2). rewrite E1, E2. apply E. reflexivity.
    - apply E. symmetry. apply Hf.
  Qed.

  Lemma betw_bip A B f i j : NoDup A -> NoDup B -> (forall x, In x A -> ~ In x B) ->
    betw (bip_edges A B f) i j =
      if in_dec eqd i A then (if in_dec eqd j B then [f i j] else [])
      else if in_dec eqd j A then (if in_dec eqd i B then [f j i] else []) else [].
  Proof.
    intros HA HB Hdis. unfold bip_edges. rewrite betw_flat_map.
    assert (Hone : forall u v, betw [(u, v, f u v); (v, u, f u v)] i j =
       (if eqb u i && eqb v j then [f u v] else []) ++ (if eqb v i && eqb u j then [f u v] else [])).
    { intros u v. unfold betw. cbn [filter src tgt dat fst snd]. destruct (eqb u i && eqb v j), (eqb v i && eqb u j); reflexivity. }
    destruct (in_dec eqd i A) as [HiA|HiA].
    - rewrite (flat_map_single_list _ _ i HA).
      + destruct (in_dec eqd i A); [|contradiction]. rewrite betw_flat_map. rewrite (flat_map_single_list _ _ j HB).
        * destruct (in_dec eqd j B) as [HjB|HjB]; [|reflexivity]. rewrite Hone, !eqb_refl. cbn [andb].
          destruct (eqb_spec j i) as [->|]; [exfalso; firstorder|]. cbn [andb]. reflexivity.
        * intros v Hv Hne. rewrite Hone. destruct (eqb_spec v j); [contradiction|]. rewrite andb_false_r.
          destruct (eqb_spec v i) as [->|]; [exfalso; firstorder|]. reflexivity.
      + intros u Hu Hne. rewrite betw_flat_map. apply flat_map_nil. intros v Hv. rewrite Hone.
        destruct (eqb_spec u i); [contradiction|]. destruct (eqb_spec v i) as [->|]; [exfalso; firstorder|]. reflexivity.
    - destruct (in_dec eqd j A) as [HjA|HjA].
      + rewrite (flat_map_single_list _ _ j HA).
        * destruct (in_dec eqd j A); [|contradiction]. rewrite betw_flat_map. rewrite (flat_map_single_list _ _ i HB).
          -- destruct (in_dec eqd i B) as [HiB|HiB]; [|reflexivity]. rewrite Hone, !eqb_refl. cbn [andb].
             destruct (eqb_spec j i) as [->|]; [contradiction|]. reflexivity.
          -- intros v Hv Hne. rewrite Hone. destruct (eqb_spec v i); [contradiction|].
             destruct (eqb_spec v j) as [->|]; [exfalso; firstorder|]. rewrite andb_false_r. reflexivity.
        * intros u Hu Hne. rewrite betw_flat_map. apply flat_map_nil. intros v Hv. rewrite Hone.
          destruct (eqb_spec u i) as [->|]; [contradiction|]. destruct (eqb_spec u j); [contradiction|]. rewrite andb_false_r. reflexivity.
      + apply flat_map_nil. intros u Hu. rewrite betw_flat_map. apply flat_map_nil. intros v Hv. rewrite Hone.
        destruct (eqb_spec u i) as [->|]; [contradiction|]. destruct (eqb_spec u j) as [->|]; [contradiction|]. rewrite andb_false_r. reflexivity.
  Qed.

  Lemma in_bip A B f e : In e (bip_edges A B f) <->
    exists u v, In u A /\ In v B /\ (e = (u, v, f u v) \/ e = (v, u, f u v)).
  Proof.
    unfold bip_edges. rewrite in_flat_map. split.
    - intros (u & Hu & He). apply in_flat_map in He. destruct He as (v & Hv & [<-|[<-|[]]]); exists u, v; auto.
    - intros (u & v & Hu & Hv & He). exists u. split; [assumption|]. apply in_flat_map. exists v. split; [assumption|].
      destruct He as [-> | ->]; cbn; auto.
  Qed.

  (** with an attribute table [ea] (or without one, [f] constantly empty) *)
  Lemma bipartite_spec A B ea (f : L -> L -> dict string V) : NoDup A -> NoDup B -> (forall x, In x A -> ~ In x B) ->
    (forall u v, In u A -> In v B -> kwargs_clash ["self"; "i"; "j"] (f u v) = false) ->
    match ea with
    | None => forall u v, f u v = []
    | Some d => forall u v, In u A -> In v B -> exists du, dget d u = Some du /\ dget du v = Some (f u v)
    end ->
    exists n, bipartite A B ea = (n, Ok tt) /\
      (forall i j, edge n i j = if in_dec eqd i A then (if in_dec eqd j B then Ok [f i j] else Err KeyError)
                                else if in_dec eqd j A then (if in_dec eqd i B then Ok [f j i] else Err KeyError) else Err KeyError) /\
      (forall x, In x (nodes n) <-> (In x A /\ B <> []) \/ (In x B /\ A <> [])).
  Proof.
    intros HA HB Hdis Hk Hf. rewrite (bip_eq A B ea f Hk Hf).
    destruct (build_graph (bip_edges A B f)) as (n & E & HR & _).
    { intros e He. apply in_bip in He. destruct He as (u & v & Hu & Hv & [-> | ->]); cbn [dat snd]; apply Hk; assumption. }
    exists n. split; [assumption|]. split.
    - intros i j. rewrite (edge_R _ _ i j HR). change (between (graph_of (bip_edges A B f)) i j) with (betw (bip_edges A B f) i j).
      rewrite betw_bip by assumption. destruct (in_dec eqd i A), (in_dec eqd j B), (in_dec eqd j A), (in_dec eqd i B); reflexivity.
    - intros x. rewrite (nodes_R _ _ HR). change (In x (map fst (g_nodes (graph_of (bip_edges A B f))))) with (is_node (graph_of (bip_edges A B f)) x).
      rewrite is_node_graph_of. split.
      + intros (e & He & Hx). apply in_bip in He. destruct He as (u & v & Hu & Hv & [-> | ->]); cbn [src tgt fst snd] in Hx;
          (assert (A <> []) by (intros ->; contradiction)); (assert (B <> []) by (intros ->; contradiction));
          destruct Hx as [-> | ->]; auto.
      + intros [[Hx Hne]|[Hx Hne]].
        * destruct B as [|v B']; [congruence|]. exists (x, v, f x v). split; [|cbn; auto]. apply in_bip. exists x, v. cbn. auto.
        * destruct A as [|u A']; [congruence|]. exists (u, x, f u x). split; [|cbn; auto]. apply in_bip. exists u, x. cbn. auto.
  Qed.

  Definition total_edges_graph (n : network L V) : nat := length (edges n).

  Lemma bipartite_missing A B (ea : dict L (dict L (dict string V))) :
    (forall u v du a, In u A -> In v B -> dget ea u = Some du -> dget du v = Some a -> kwargs_clash ["self"; "i"; "j"] a = false) ->
    (exists u v, In u A /\ In v B /\ forall du, dget ea u = Some du -> dget du v = None) ->
    snd (bipartite A B (Some ea)) = Err KeyError.
  Proof.
    intros Hk (u & v & Hu & Hv & Hm). unfold bipartite.
    set (body := fun node1 node2 => match (match dget ea node1 with Some d => dget d node2 | None => None end) with
                    | Some attrs => add_edge_bidir node1 node2 attrs | None => mraise KeyError end).
    assert (Hbody : forall x y m g, R m g -> In x A -> In y B ->
              (exists m' g', body x y m = (m', Ok tt) /\ R m' g') \/ (snd (body x y m) = Err KeyError)).
    { intros x y m g HR Hx Hy. unfold body. destruct (dget ea x) as [du|] eqn:E1; [|right; reflexivity].
      destruct (dget du y) as [a|] eqn:E2; [|right; reflexivity]. left. specialize (Hk x y du a Hx Hy E1 E2).
      unfold add_edge_bidir. rewrite Hk. 
      destruct (add_edge_R m g x y a HR Hk) as (m1 & Em1 & HR1 & _).
      destruct (add_edge_R m1 _ y x a HR1 Hk) as (m2 & Em2 & HR2 & _). exists m2. eexists. split; [|exact HR2].
      rewrite mthen_eq, Em1. exact Em2. }
    assert (Hinner : forall x B', incl B' B -> In x A -> forall m g, R m g ->
              (exists m' g', mfor B' (body x) m = (m', Ok tt) /\ R m' g') \/ snd (mfor B' (body x) m) = Err KeyError).
    { intros x B'. induction B' as [|y ys IH]; intros Hi Hx m g HR; cbn [mfor]; [left; exists m, g; split; [reflexivity|assumption]|]. rewrite mthen_eq.
      destruct (Hbody x y m g HR Hx (Hi y (or_introl eq_refl))) as [(m' & g' & E & HR')|E].
      - rewrite E. apply (IH ltac:(intros z Hz; apply Hi; right; assumption) Hx m' g' HR').
      - right. destruct (body x y m) as [m' [t|e]]; cbn [snd] in *; [discriminate|assumption]. }
    assert (Hinner_bad : forall B', incl B' B -> In v B' -> forall m g, R m g -> snd (mfor B' (body u) m) = Err KeyError).
    { intros B'. induction B' as [|y ys IH]; intros Hi Hv' m g HR; [contradiction|]. cbn [mfor]. rewrite mthen_eq.
      destruct (Hbody u y m g HR Hu (Hi y (or_introl eq_refl))) as [(m' & g' & E & HR')|E].
      - rewrite E. destruct Hv' as [-> |Hv'].
        + exfalso. unfold body in E. destruct (dget ea u) as [du|]; [rewrite (Hm du eq_refl) in E|]; discriminate.
        + apply (IH ltac:(intros z Hz; apply Hi; right; assumption) Hv' m' g' HR').
      - destruct (body u y m) as [m' [t|e]]; cbn [snd] in *; [discriminate|assumption]. }
    assert (Hall : forall A', incl A' A -> In u A' -> forall m g, R m g -> snd (mfor A' (fun x => mfor B (body x)) m) = Err KeyError).
    { intros A'. induction A' as [|x xs IH]; intros Hi Hu' m g HR; [contradiction|]. cbn [mfor]. rewrite mthen_eq.
      destruct (Hinner x B (incl_refl _) (Hi x (or_introl eq_refl)) m g HR) as [(m' & g' & E & HR')|E].
      - rewrite E. destruct Hu' as [-> |Hu'].
        + exfalso. assert (Hbad := Hinner_bad B (incl_refl _) Hv m g HR). rewrite E in Hbad. discriminate.
        + apply (IH ltac:(intros z Hz; apply Hi; right; assumption) Hu' m' g' HR').
      - destruct (mfor B (body x) m) as [m' [t|e]]; cbn [snd] in *; [discriminate|assumption]. }
    apply (Hall A (incl_refl _) Hu _ empty_graph R_empty).
  Qed.
End Bipartite.

Lemma complete_at n i j : 0 <= i < n -> 0 <= j < n -> at_ (complete_adjacency n) i j = Some (if i =? j then 0 else 1).
Proof.
  intros Hi Hj. unfold at_, complete_adjacency. rewrite nth_error_map, nth_error_zrange by lia. cbn [option_map].
  rewrite nth_error_map, nth_error_zrange by lia. cbn [option_map]. rewrite !Z2Nat.id, !Z.add_0_l by lia. reflexivity.
Qed.

Lemma complete_square n : 0 <= n -> is_square n (complete_adjacency n).
Proof.
  intros Hn. unfold complete_adjacency. split; [rewrite map_length, length_zrange; lia|]. intros row Hrow.
  apply in_map_iff in Hrow. destruct Hrow as (i & <- & _). rewrite map_length, length_zrange. lia.
Qed.

Lemma complete_spec n : 2 <= n ->
  exists net, complete n = (net, Ok tt) /\
    (forall v, In v (nodes net) <-> 0 <= v < n) /\ NoDup (nodes net) /\
    (forall i j, 0 <= i < n -> 0 <= j < n -> i <> j -> edge net i j = Ok [[("weight", 1)]]) /\
    (forall i j, ~ (0 <= i < n /\ 0 <= j < n /\ i <> j) -> edge net i j = Err KeyError).
Proof.
  intros Hn. unfold complete. destruct (Z.leb_spec n 0); [lia|].
  destruct (from_adjacency_roundtrip 0 1 Z.add nzb (complete_adjacency n) n) as (net & E & _ & He & Hne & Hnd & Hnodes & _).
  - intros v. unfold nzb. destruct (Z.eqb_spec v 0); cbn; split; congruence.
  - intros v. apply Z.add_0_l.
  - apply complete_square. lia.
  - exists net. split; [assumption|]. assert (Hsq := complete_square n ltac:(lia)). split; [|split; [assumption|split]].
    + intros v. rewrite Hnodes. split.
      * intros (y & w & _ & [Hw|Hw]); apply (square_bound n) in Hw; tauto.
      * intros Hv. exists (if v =? 0 then 1 else 0), 1. split; [lia|]. left. unfold entry_is.
        destruct (Z.eqb_spec v 0); (split; [lia|split; [lia|]]); rewrite complete_at by lia;
          [destruct (Z.eqb_spec v 1)|destruct (Z.eqb_spec v 0)]; try lia; reflexivity.
    + intros i j Hi Hj Hij. apply He; [|lia]. split; [lia|split; [lia|]]. rewrite complete_at by lia.
      destruct (Z.eqb_spec i j); [contradiction|reflexivity].
    + intros i j Hno. apply Hne. intros v Hv. assert (Hb := square_bound n _ i j v Hsq Hv). destruct Hv as (_ & _ & Ea).
      rewrite complete_at in Ea by lia. destruct (Z.eqb_spec i j); [congruence|]. exfalso. apply Hno. tauto.
Qed.

Lemma complete_small : complete 1 = (empty_network, Ok tt) /\ forall n, n <= 0 -> snd (complete n) = Err (Raise "NetworkXError").
Proof.
  split; [reflexivity|]. intros n Hn. unfold complete. destruct (Z.leb_spec n 0); [reflexivity|lia].
Qed.

Section Disconnected.
  Context {V : Type}.

  Lemma add_nodes_R (l : list Z) : exists n, mfor l (fun v => add_node v []) (empty_network : network Z V) = (n, Ok tt) /\
    R n (mkG (map (fun v => (v, [])) (dedup l)) []) /\ net_rot n = None.
  Proof.
    induction l as [|v l IH] using rev_ind.
    - exists empty_network. split; [reflexivity|]. split; [apply R_empty|reflexivity].
    - destruct IH as (n & E & HR & Hrot). rewrite mfor_app, mthen_eq, E. cbn [mfor]. rewrite mthen_eq.
      destruct (add_node_R n _ v [] HR) as (n' & E' & HR' & Hrot'); [reflexivity|reflexivity|]. rewrite E'.
      exists n'. split; [reflexivity|]. split; [|congruence].
      assert (Eg : spec_add_node (mkG (map (fun v : Z => (v, [] : dict string V)) (dedup l)) []) v []
                   = mkG (map (fun v => (v, [])) (dedup (l ++ [v]))) []).
      { unfold spec_add_node. rewrite ensure_node_dedup. cbn [g_nodes g_edges]. f_equal.
        rewrite map_map. apply map_ext. intros w. cbn [fst snd]. destruct (eqd w v); reflexivity. }
      rewrite <- Eg. assumption.
  Qed.

  Lemma disconnected_spec (arg : disconnected_arg Z) : 
    exists n, disconnected (V:=V) arg = (n, Ok tt) /\ net_rot n = None /\ NoDup (nodes n) /\
      (forall v, In v (nodes n) <-> match arg with DInt k => 0 <= v < k | DList l => In v l | DOther => False end) /\
      (forall v nd, dget (net_nodes n) v = Some nd -> n_attr nd = []) /\
      edges n = [] /\ (forall i j, edge n i j = Err KeyError).
  Proof.
    assert (Hg : forall (n : network Z V) (l : list Z), R n (mkG (map (fun v => (v, [] : dict string V)) (dedup l)) []) ->
       NoDup (nodes n) /\ (forall v, In v (nodes n) <-> In v l) /\ (forall v nd, dget (net_nodes n) v = Some nd -> n_attr nd = []) /\
       edges n = [] /\ (forall i j, edge n i j = Err KeyError)).
    { intros n l HR. split; [exact (R_NoDup _ _ HR)|]. split; [|split; [|split]].
      - intros v. rewrite (nodes_R _ _ HR). cbn [g_nodes]. rewrite map_map. cbn [fst]. rewrite map_id. apply in_dedup.
      - intros v nd E. destruct HR as [HR _]. rewrite HR, dget_repr in E. cbn [g_nodes g_edges] in E. rewrite (dget_mapkey (fun _ => [])) in E.
        destruct (in_dec eqd v (dedup l)); [|discriminate]. cbn in E. injection E as <-. reflexivity.
      - assert (Hp := edges_R _ _ HR). cbn [g_edges] in Hp. apply Permutation_sym, Permutation_nil in Hp. assumption.
      - intros i j. rewrite (edge_R _ _ i j HR). reflexivity. }
    destruct arg as [k|l|].
    - exists (init_network k). split; [reflexivity|]. split; [reflexivity|].
      assert (HR : R (init_network k : network Z V) (mkG (map (fun v => (v, [])) (dedup (zrange 0 k))) [])).
      { destruct (add_nodes_R (zrange 0 k)) as (n & E & HR & Hrot).
        assert (Hd : dedup (zrange 0 k) = zrange 0 k).
        { clear n E HR Hrot. assert (Hnd := NoDup_zrange 0 k). induction (zrange 0 k) as [|x xs IH]; [reflexivity|]. inversion Hnd; subst.
          cbn [dedup]. rewrite IH by assumption. f_equal. apply filter_true. intros y Hy. destruct (eqb_spec x y); [subst; contradiction|reflexivity]. }
        split; [|exact (proj2 HR)]. rewrite Hd. unfold init_network, repr. cbn [net_nodes g_nodes g_edges]. rewrite map_map. reflexivity. }
      destruct (Hg _ _ HR) as (H1 & H2 & H3). split; [assumption|]. split; [|assumption]. intros v. rewrite H2, in_zrange. reflexivity.
    - destruct (add_nodes_R l) as (n & E & HR & Hrot). exists n. split; [exact E|]. split; [assumption|]. apply Hg. assumption.
    - exists empty_network. split; [reflexivity|]. split; [reflexivity|]. apply (Hg _ []). apply R_empty.
  Qed.
End Disconnected.

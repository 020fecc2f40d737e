(** * Proofs: from_adjacency_matrix and the other builders of topology/networks.py. *)
From Verif Require Import Py PyFacts ListFacts Network NetworkSpec NetworkProofs NetworkProofs2 NetworkProofs3.
From Verif Require Import Topology TopologySpec TopologyProofs.
Open Scope string_scope.
Open Scope Z_scope.

(** ** mfor *)

Lemma mfor_ext {L V A} (l : list A) (f g : A -> mut (L:=L) (V:=V) unit) n :
  (forall x n, In x l -> f x n = g x n) -> mfor l f n = mfor l g n.
Proof.
  revert n. induction l as [|x xs IH]; intros n He; cbn [mfor]; [reflexivity|].
  unfold mthen, mbind. rewrite He by (left; reflexivity). destruct (g x n) as [n' [u|e]]; [|reflexivity].
  apply IH. intros y m Hy. apply He. right. assumption.
Qed.

Lemma mthen_assoc {L V} (a b c : mut (L:=L) (V:=V) unit) n : mthen (mthen a b) c n = mthen a (mthen b c) n.
Proof. unfold mthen, mbind. destruct (a n) as [n' [u|e]]; reflexivity. Qed.

Lemma mthen_eq {L V} (m k : mut (L:=L) (V:=V) unit) n :
  mthen m k n = match m n with (n', Ok _) => k n' | (n', Err e) => (n', Err e) end.
Proof. reflexivity. Qed.

Lemma mfor_app {L V A} (l l' : list A) (f : A -> mut (L:=L) (V:=V) unit) n :
  mfor (l ++ l') f n = mthen (mfor l f) (mfor l' f) n.
Proof.
  revert n. induction l as [|x xs IH]; intros n; cbn [mfor app]; [reflexivity|].
  rewrite mthen_assoc, !mthen_eq. destruct (f x n) as [n' [u|e]]; [|reflexivity]. apply IH.
Qed.

Lemma mfor_flat_map {L V A B} (l : list A) (h : A -> list B) (f : B -> mut (L:=L) (V:=V) unit) n :
  mfor (flat_map h l) f n = mfor l (fun x => mfor (h x) f) n.
Proof.
  revert n. induction l as [|x xs IH]; intros n; cbn [mfor flat_map]; [reflexivity|].
  rewrite mfor_app. unfold mthen, mbind. destruct (mfor (h x) f n) as [n' [u|e]]; [|reflexivity]. apply IH.
Qed.

(** ** building a network from a list of edges *)

Section Build.
  Context {L V : Type} `{EqD L}.
  Notation edge_t := (L * L * dict string V)%type.

  Definition ends (e : edge_t) : list L := [src e; tgt e].
  (** the graph with the given edges, nodes in order of first mention *)
  Definition graph_of (es : list edge_t) : graph L V := mkG (map (fun v => (v, [])) (dedup (flat_map ends es))) es.

  Lemma map_fst_graph_of es : map fst (g_nodes (graph_of es)) = dedup (flat_map ends es).
  Proof. cbn. rewrite map_map. cbn. apply map_id. Qed.

  Lemma is_node_graph_of es v : is_node (graph_of es) v <-> exists e, In e es /\ (v = src e \/ v = tgt e).
  Proof.
    unfold is_node. rewrite map_fst_graph_of, in_dedup, in_flat_map. unfold ends. cbn [In]. split; intros (e & He & Hv); exists e; intuition.
  Qed.

  Lemma graph_of_ok es : graph_ok (graph_of es).
  Proof.
    split.
    - rewrite map_fst_graph_of. apply NoDup_dedup.
    - intros e He. rewrite !is_node_graph_of. split; exists e; auto.
  Qed.

  Lemma ensure_node_dedup (l : list L) (es : list edge_t) v :
    ensure_node (mkG (map (fun v => (v, [])) (dedup l)) es) v = mkG (map (fun v => (v, [])) (dedup (l ++ [v]))) es.
  Proof.
    unfold ensure_node. rewrite dedup_snoc. unfold is_nodeb. cbn [g_nodes g_edges]. rewrite map_map. cbn [fst]. rewrite map_id.
    destruct (in_dec eqd v (dedup l)) as [Hin|Hni], (in_dec eqd v l) as [Hin'|Hni']; try reflexivity.
    - exfalso. apply Hni'. apply in_dedup. assumption.
    - exfalso. apply Hni. apply in_dedup. assumption.
    - rewrite map_app. reflexivity.
  Qed.

  Lemma graph_of_snoc es e : graph_of (es ++ [e]) = spec_add_edge (graph_of es) (src e) (tgt e) (dat e).
  Proof.
    unfold spec_add_edge. change (graph_of es) with (mkG (map (fun v => (v, [] : dict string V)) (dedup (flat_map ends es))) es). cbv zeta. rewrite !ensure_node_dedup. cbn [g_nodes g_edges]. unfold graph_of.
    rewrite flat_map_app. cbn [flat_map]. unfold ends at 2. rewrite <- !app_assoc. cbn [app].
    destruct e as [[i j] a]. reflexivity.
  Qed.

  Lemma build_graph es : (forall e, In e es -> kwargs_clash ["self"; "i"; "j"] (dat e) = false) ->
    exists n, mfor es (fun e => add_edge (src e) (tgt e) (dat e)) (empty_network : network L V) = (n, Ok tt) /\
              R n (graph_of es) /\ net_rot n = None.
  Proof.
    induction es as [|e es IH] using rev_ind; intros Hk.
    - exists empty_network. split; [reflexivity|]. split; [|reflexivity]. split; [reflexivity|apply graph_of_ok].
    - destruct IH as (n & E & HR & Hrot); [intros e' He'; apply Hk; apply in_app_iff; auto|].
      rewrite mfor_app. unfold mthen, mbind. rewrite E. cbn [mfor]. unfold mthen, mbind.
      destruct (add_edge_R n _ (src e) (tgt e) (dat e) HR) as (n' & E' & HR' & Hrot').
      { apply Hk. apply in_app_iff. right. left. reflexivity. }
      rewrite E'. exists n'. split; [reflexivity|]. rewrite graph_of_snoc. split; [assumption|congruence].
  Qed.
End Build.

(** ** enumerate *)

Lemma combine_seq_in {A} (l : list A) s k x : In (k, x) (combine (seq s (length l)) l) <-> (s <= k)%nat /\ nth_error l (k - s) = Some x.
Proof.
  revert s. induction l as [|y ys IH]; intros s; cbn [length seq combine In].
  - rewrite nth_error_nil || idtac. split; [tauto|]. intros [_ E]. destruct (k - s)%nat; discriminate.
  - rewrite IH. split.
    + intros [E|[Hs E]].
      * injection E as <- <-. rewrite Nat.sub_diag. auto.
      * split; [lia|]. replace (k - s)%nat with (S (k - S s)) by lia. assumption.
    + intros [Hs E]. destruct (Nat.eq_dec k s) as [->|Hne].
      * left. rewrite Nat.sub_diag in E. cbn in E. congruence.
      * right. split; [lia|]. replace (k - s)%nat with (S (k - S s)) in E by lia. assumption.
Qed.

Lemma in_enumerate {A} (l : list A) k x : In (k, x) (enumerate l) <-> nth_error l k = Some x.
Proof. unfold enumerate. rewrite combine_seq_in. rewrite Nat.sub_0_r. split; [tauto|]. split; [lia|assumption]. Qed.

Lemma flat_map_combine_single {A B} (f : nat * A -> list B) (l : list A) s i :
  (forall k x, k <> i -> f (k, x) = []) ->
  flat_map f (combine (seq s (length l)) l) = if Nat.ltb i s then [] else match nth_error l (i - s) with Some x => f (i, x) | None => [] end.
Proof.
  revert s. induction l as [|y ys IH]; intros s Hf; cbn [length seq combine flat_map].
  - destruct (Nat.ltb i s); [reflexivity|]. destruct (i - s)%nat; reflexivity.
  - rewrite IH by assumption. destruct (Nat.eq_dec s i) as [->|Hne].
    + destruct (Nat.ltb_spec i (S i)); [|lia]. destruct (Nat.ltb_spec i i); [lia|]. rewrite Nat.sub_diag, app_nil_r. reflexivity.
    + rewrite Hf by assumption. cbn [app]. destruct (Nat.ltb_spec i (S s)), (Nat.ltb_spec i s); try lia; try reflexivity.
      replace (i - s)%nat with (S (i - S s)) by lia. reflexivity.
Qed.

Lemma flat_map_enumerate_single {A B} (f : nat * A -> list B) (l : list A) i :
  (forall k x, k <> i -> f (k, x) = []) ->
  flat_map f (enumerate l) = match nth_error l i with Some x => f (i, x) | None => [] end.
Proof. intros Hf. unfold enumerate. rewrite (flat_map_combine_single f l 0 i Hf). cbn. rewrite Nat.sub_0_r. reflexivity. Qed.

Lemma flat_map_filter {A B} (f : A -> list B) (p : B -> bool) l : filter p (flat_map f l) = flat_map (fun x => filter p (f x)) l.
Proof. induction l as [|x xs IH]; cbn; [reflexivity|]. rewrite filter_app, IH. reflexivity. Qed.
Lemma map_flat_map {A B C} (f : A -> list B) (g : B -> C) l : map g (flat_map f l) = flat_map (fun x => map g (f x)) l.
Proof. induction l as [|x xs IH]; cbn; [reflexivity|]. rewrite map_app, IH. reflexivity. Qed.
Lemma flat_map_ext_in {A B} (f g : A -> list B) l : (forall x, In x l -> f x = g x) -> flat_map f l = flat_map g l.
Proof. induction l as [|x xs IH]; intros He; cbn; [reflexivity|]. rewrite He by (left; reflexivity). f_equal. apply IH. intros y Hy. apply He. right. assumption. Qed.

(** ** from_adjacency_matrix *)

Section FromAdj.
  Context {V : Type} (nz : V -> bool).

  Definition row_edges (i : nat) (row : list V) : list (Z * Z * dict string V) :=
    flat_map (fun jv => if nz (snd jv) then [(Z.of_nat i, Z.of_nat (fst jv), [("weight", snd jv)])] else []) (enumerate row).
  Definition adj_edges (adj : list (list V)) : list (Z * Z * dict string V) :=
    flat_map (fun ir => row_edges (fst ir) (snd ir)) (enumerate adj).

  Lemma from_adj_eq adj : from_adjacency_matrix nz adj =
    mfor (adj_edges adj) (fun e => add_edge (src e) (tgt e) (dat e)) empty_network.
  Proof.
    unfold from_adjacency_matrix, adj_edges. rewrite mfor_flat_map. apply mfor_ext. intros [i row] n _. cbn [fst snd].
    unfold row_edges. rewrite mfor_flat_map. apply mfor_ext. intros [j v] m _. cbn [fst snd].
    destruct (nz v); [|reflexivity]. cbn [mfor]. unfold mthen, mbind. cbn [src tgt dat fst snd].
    destruct (add_edge _ _ _ m) as [m' [[]|e]]; reflexivity.
  Qed.

  Lemma in_adj_edges adj e : In e (adj_edges adj) <->
    exists i j v, at_ adj (Z.of_nat i) (Z.of_nat j) = Some v /\ nz v = true /\ e = (Z.of_nat i, Z.of_nat j, [("weight", v)]).
  Proof.
    unfold adj_edges, row_edges, at_. rewrite in_flat_map. split.
    - intros ([i row] & Hr & He). apply in_enumerate in Hr. cbn [fst snd] in He. apply in_flat_map in He.
      destruct He as ([j v] & Hj & He). apply in_enumerate in Hj. cbn [fst snd] in He.
      destruct (nz v) eqn:Ev; [|contradiction]. destruct He as [<-|[]]. exists i, j, v.
      rewrite !Nat2Z.id, Hr. auto.
    - intros (i & j & v & Ea & Ev & ->). rewrite !Nat2Z.id in Ea. destruct (nth_error adj i) as [row|] eqn:Er; [|discriminate].
      exists (i, row). split; [apply in_enumerate; assumption|]. apply in_flat_map. exists (j, v).
      split; [apply in_enumerate; assumption|]. cbn [fst snd]. rewrite Ev. left. reflexivity.
  Qed.

  Lemma from_adj_R adj : exists n, from_adjacency_matrix nz adj = (n, Ok tt) /\ R n (graph_of (adj_edges adj)) /\ net_rot n = None.
  Proof.
    rewrite from_adj_eq. apply build_graph. intros e He. apply in_adj_edges in He. destruct He as (i & j & v & _ & _ & ->). reflexivity.
  Qed.

  (** the weight at (i, j), if non-zero *)
  Definition nonzero_at (adj : list (list V)) (i j : Z) : option V :=
    if (0 <=? i) && (0 <=? j) then
      match at_ adj i j with Some v => if nz v then Some v else None | None => None end
    else None.

  Lemma nonzero_at_nat adj (i j : nat) : nonzero_at adj (Z.of_nat i) (Z.of_nat j) =
    match nth_error adj i with Some row => match nth_error row j with Some v => if nz v then Some v else None | None => None end | None => None end.
  Proof.
    unfold nonzero_at, at_. rewrite !Nat2Z.id. destruct (Z.leb_spec 0 (Z.of_nat i)); [|lia]. destruct (Z.leb_spec 0 (Z.of_nat j)); [|lia].
    cbn [andb]. destruct (nth_error adj i); reflexivity.
  Qed.

  Lemma betw_adj adj i j : betw (adj_edges adj) i j = match nonzero_at adj i j with Some v => [[("weight", v)]] | None => [] end.
  Proof.
    unfold adj_edges. rewrite betw_flat_map.
    destruct (Z.ltb_spec i 0) as [Hi|Hi].
    { assert (En : nonzero_at adj i j = None) by (unfold nonzero_at; destruct (0 <=? i) eqn:E; [lia|reflexivity]). rewrite En.
      apply flat_map_nil. intros [i' row] _. cbn [fst snd]. unfold row_edges. rewrite betw_flat_map. apply flat_map_nil.
      intros [j' v] _. cbn [fst snd]. destruct (nz v); [|reflexivity]. rewrite betw_cons. cbn [src tgt fst snd].
      destruct (eqb_spec (Z.of_nat i') i); [lia|]. reflexivity. }
    destruct (Z.ltb_spec j 0) as [Hj|Hj].
    { assert (En : nonzero_at adj i j = None) by (unfold nonzero_at; destruct (0 <=? j) eqn:E; [lia|rewrite andb_false_r; reflexivity]). rewrite En.
      apply flat_map_nil. intros [i' row] _. cbn [fst snd]. unfold row_edges. rewrite betw_flat_map. apply flat_map_nil.
      intros [j' v] _. cbn [fst snd]. destruct (nz v); [|reflexivity]. rewrite betw_cons. cbn [src tgt fst snd].
      destruct (eqb_spec (Z.of_nat j') j); [lia|]. rewrite andb_false_r. reflexivity. }
    destruct (Z_of_nat_complete i Hi) as [i0 ->]. destruct (Z_of_nat_complete j Hj) as [j0 ->]. clear Hi Hj.
    rename i0 into i, j0 into j. rewrite nonzero_at_nat.
    rewrite (flat_map_enumerate_single _ _ i).
    - cbn [fst snd]. destruct (nth_error adj i) as [row|]; [|reflexivity].
      unfold row_edges. rewrite betw_flat_map. rewrite (flat_map_enumerate_single _ _ j).
      + cbn [fst snd]. destruct (nth_error row j) as [v|]; [|reflexivity]. destruct (nz v); [|reflexivity].
        rewrite betw_cons. cbn [src tgt dat fst snd]. rewrite !eqb_refl. reflexivity.
      + intros k x Hk. cbn [fst snd]. destruct (nz x); [|reflexivity]. rewrite betw_cons. cbn [src tgt fst snd].
        destruct (eqb_spec (Z.of_nat k) (Z.of_nat j)); [lia|]. rewrite andb_false_r. reflexivity.
    - intros k row Hk. cbn [fst snd]. unfold row_edges. rewrite betw_flat_map. apply flat_map_nil.
      intros [j' v] _. cbn [fst snd]. destruct (nz v); [|reflexivity]. rewrite betw_cons. cbn [src tgt fst snd].
      destruct (eqb_spec (Z.of_nat k) (Z.of_nat i)); [lia|]. reflexivity.
  Qed.

  Lemma node_adj adj v : is_node (graph_of (adj_edges adj)) v <-> exists w, nonzero_at adj v w <> None \/ nonzero_at adj w v <> None.
  Proof.
    rewrite is_node_graph_of. split.
    - intros (e & He & Hv). apply in_adj_edges in He. destruct He as (i & j & x & Ea & Ex & ->). cbn [src tgt fst snd] in Hv.
      assert (Hx : nonzero_at adj (Z.of_nat i) (Z.of_nat j) <> None).
      { unfold nonzero_at. rewrite Ea, Ex. destruct (Z.leb_spec 0 (Z.of_nat i)); [|lia]. destruct (Z.leb_spec 0 (Z.of_nat j)); [|lia]. discriminate. }
      destruct Hv as [-> | ->]; eauto.
    - assert (Hx : forall i j, nonzero_at adj i j <> None -> exists x, In (i, j, x) (adj_edges adj)).
      { intros i j Hn. unfold nonzero_at in Hn. destruct (0 <=? i) eqn:E1; [|contradiction]. destruct (0 <=? j) eqn:E2; [|contradiction].
        cbn [andb] in Hn. destruct (at_ adj i j) as [x|] eqn:Ea; [|contradiction]. destruct (nz x) eqn:Ex; [|contradiction].
        exists [("weight", x)]. apply in_adj_edges. exists (Z.to_nat i), (Z.to_nat j), x. rewrite !Z2Nat.id by lia. auto. }
      intros (w & [Hn|Hn]); destruct (Hx _ _ Hn) as [x Hin]; eexists; (split; [exact Hin|]); cbn; auto.
  Qed.

  Lemma in_neighbours_adj adj n v : is_square n adj -> 
    in_neighbours (graph_of (adj_edges adj)) v = filter (fun i => if nonzero_at adj i v then true else false) (zrange 0 n).
  Proof.
    intros [Hl Hr]. unfold in_neighbours, edges_into. cbn [g_edges graph_of].
    assert (Es : map src (filter (fun e => eqb (tgt e) v) (adj_edges adj)) =
                 filter (fun i => if nonzero_at adj i v then true else false) (zrange 0 n)).
    { unfold adj_edges. rewrite flat_map_filter, map_flat_map.
      rewrite (flat_map_ext_in _ (fun ir => if nonzero_at adj (Z.of_nat (fst ir)) v then [Z.of_nat (fst ir)] else [])).
      - replace n with (Z.of_nat (length adj)) by assumption. unfold zrange. replace (Z.to_nat (Z.of_nat (length adj) - 0)) with (length adj) by lia.
        unfold enumerate.
        assert (G : forall (l : list (list V)) s, flat_map (fun ir : nat * list V => if nonzero_at adj (Z.of_nat (fst ir)) v then [Z.of_nat (fst ir)] else []) (combine (seq s (length l)) l)
            = filter (fun i => if nonzero_at adj i v then true else false) (map (fun k => 0 + Z.of_nat k) (seq s (length l)))).
        { clear. induction l as [|x xs IH]; intros s; [reflexivity|]. cbn [length seq combine flat_map map filter fst]. rewrite IH.
          rewrite Z.add_0_l. destruct (nonzero_at adj (Z.of_nat s) v); reflexivity. }
        apply G.
      - intros [i row] Hin. apply in_enumerate in Hin. cbn [fst snd]. unfold row_edges. rewrite flat_map_filter, map_flat_map.
        destruct (Z.ltb_spec v 0) as [Hv|Hv].
        { assert (En : nonzero_at adj (Z.of_nat i) v = None) by (unfold nonzero_at; destruct (0 <=? v) eqn:E; [lia|rewrite andb_false_r; reflexivity]).
          rewrite En. apply flat_map_nil. intros [j x] _. cbn [fst snd]. destruct (nz x); [|reflexivity]. cbn [filter tgt fst snd].
          destruct (eqb_spec (Z.of_nat j) v); [lia|]. reflexivity. }
        destruct (Z_of_nat_complete v Hv) as [v0 ->]. clear Hv. rename v0 into v.
        rewrite nonzero_at_nat, Hin. rewrite (flat_map_enumerate_single _ _ v).
        + cbn [fst snd]. destruct (nth_error row v) as [x|]; [|reflexivity]. destruct (nz x); [|reflexivity].
          cbn [filter tgt fst snd]. rewrite eqb_refl. reflexivity.
        + intros k x Hk. cbn [fst snd]. destruct (nz x); [|reflexivity]. cbn [filter tgt fst snd].
          destruct (eqb_spec (Z.of_nat k) (Z.of_nat v)); [lia|]. reflexivity. }
    rewrite Es. 
    assert (Hd : forall l : list Z, NoDup l -> dedup l = l).
    { induction l as [|x xs IH]; intros Hnd; [reflexivity|]. inversion Hnd; subst. cbn. rewrite IH by assumption. f_equal.
      apply filter_true. intros y Hy. apply negb_true_iff, eqb_false. intros ->. contradiction. }
    apply Hd. apply NoDup_filter, NoDup_zrange.
  Qed.
End FromAdj.

(** Proofs about the model of demos/flocking: the topology rule and the run. *)
From Verif Require Import Py PyFacts ListFacts Network NetworkSpec NetworkProofs NetworkProofs2 NetworkProofs3 NetMult Evolve EvolveSpec EvolveProofs EvolveStatic EvolveTopo TopoRun DemoNets FlockRun FlockSpec Flock.
Open Scope string_scope.
Open Scope list_scope.
Open Scope Z_scope.

Lemma filter_all {X} (f : X -> bool) l : (forall x, In x l -> f x = true) -> filter f l = l.
Proof. induction l as [|y l IH]; intros Hf; [reflexivity|]. cbn [filter]. rewrite (Hf y (or_introl eq_refl)), IH; [reflexivity|]. intros x Hx. apply Hf. right. assumption. Qed.

(** ** Neighbours and mutations *)
Section Nbrs.
  Context {L V : Type} `{EqD L}.
  Notation graph := (graph L V).

  Lemma in_neighbours_add_to (g : graph) i j a : in_neighbours (spec_add_edge g i j a) j = if in_dec eqd i (in_neighbours g j) then in_neighbours g j else in_neighbours g j ++ [i].
  Proof.
    assert (E : g_edges (spec_add_edge g i j a) = g_edges g ++ [(i, j, a)]).
    { unfold spec_add_edge, ensure_node. cbn [g_edges]. f_equal. repeat match goal with |- context[if ?b then _ else _] => destruct b end; reflexivity. }
    unfold in_neighbours, edges_into. rewrite E, filter_app. cbn [filter]. unfold tgt at 2. cbn [fst snd]. rewrite eqb_refl, map_app. cbn [map src fst].
    rewrite dedup_snoc. destruct (in_dec eqd i (map src _)) as [Hi|Hi]; destruct (in_dec eqd i (dedup _)) as [Hd|Hd]; try reflexivity; exfalso; rewrite in_dedup in Hd; tauto.
  Qed.
  Lemma in_neighbours_remove (g : graph) i j v : in_neighbours (spec_remove_edge g i j) v = if eqb v j then filter (fun x => negb (eqb x i)) (in_neighbours g v) else in_neighbours g v.
  Proof.
    unfold in_neighbours, edges_into, spec_remove_edge. cbn [g_edges]. rewrite filter_filter.
    destruct (eqb_spec v j) as [->|Hv].
    - rewrite <- dedup_filter. f_equal. induction (g_edges g) as [|e es IH]; [reflexivity|]. cbn [filter map].
      destruct (eqb_spec (tgt e) j) as [Et|Et]; cbn [andb negb].
      + rewrite ?andb_true_r, ?andb_true_l. cbn [map filter]. destruct (eqb_spec (src e) i) as [Es|Es]; cbn [negb andb map filter]; rewrite ?IH; reflexivity.
      + rewrite ?andb_false_r. cbn. exact IH.
    - f_equal. f_equal. apply filter_ext_in. intros e _. destruct (eqb_spec (tgt e) v) as [->|]; [|rewrite ?andb_false_r; reflexivity].
      rewrite (proj2 (eqb_false v j) Hv), andb_false_r. reflexivity.
  Qed.
  Lemma spec_remove_none (g : graph) i j : between g i j = [] -> spec_remove_edge g i j = g.
  Proof.
    destruct g as [ns es]. unfold between, spec_remove_edge. cbn [g_nodes g_edges]. intros E. f_equal.
    induction es as [|e es IH]; [reflexivity|]. cbn [filter] in *. destruct (eqb (src e) i && eqb (tgt e) j); [discriminate|]. cbn [negb]. rewrite IH by assumption. reflexivity.
  Qed.
End Nbrs.

Section Flock.
  Context {A V : Type} `{EqD A} (visible : A -> A -> bool).
  Notation network := (network Z V).
  Notation graph := (graph Z V).

  Section Link.
    Context (S : dict Z A) (st : Z -> A) (n : Z).
    Context (HS : forall v, 0 <= v < n -> dget S v = Some (st v)).
    Notation vis i j := (visible (st i) (st j)).

    (** one pair, on graphs *)
    Definition gstep (g : graph) (ij : Z * Z) : graph := if vis (fst ij) (snd ij) then spec_add_edge g (fst ij) (snd ij) [] else spec_remove_edge g (fst ij) (snd ij).

    Lemma link_boids_R (m : network) g i j : 0 <= i < n -> 0 <= j < n -> R m g -> exists m', link_boids visible S (i, j) m = (m', Ok tt) /\ R m' (gstep g (i, j)) /\ net_rot m' = net_rot m.
    Proof.
      intros Hi Hj HR. unfold link_boids, gstep. cbn [fst snd]. rewrite (HS i Hi), (HS j Hj). destruct (vis i j).
      - apply add_edge_R; [assumption|reflexivity].
      - rewrite (has_edge_R m g i j HR). destruct (between g i j) as [|e es] eqn:E.
        + exists m. rewrite spec_remove_none by assumption. auto.
        + apply remove_edge_R; [assumption|congruence].
    Qed.
    Lemma link_all_R ps : (forall i j, In (i, j) ps -> 0 <= i < n /\ 0 <= j < n) -> forall (m : network) g, R m g ->
      exists m', mfor ps (link_boids visible S) m = (m', Ok tt) /\ R m' (fold_left gstep ps g) /\ net_rot m' = net_rot m.
    Proof.
      induction ps as [|[i j] ps IH]; intros Hin m g HR; [exists m; auto|]. cbn [mfor fold_left].
      destruct (Hin i j (or_introl eq_refl)) as [Hi Hj]. destruct (link_boids_R m g i j Hi Hj HR) as (m1 & E1 & HR1 & Er1).
      destruct (IH (fun a b Hab => Hin a b (or_intror Hab)) m1 _ HR1) as (m2 & E2 & HR2 & Er2).
      exists m2. rewrite (mthen_ok _ _ _ _ E1). split; [assumption|]. split; [assumption|congruence].
    Qed.

    (** the effect on the neighbours of [v] *)
    Definition nstep (v : Z) (old : list Z) (i : Z) : list Z := if vis i v then (if in_dec eqd i old then old else old ++ [i]) else filter (fun x => negb (eqb x i)) old.

    Lemma gstep_nbrs g i j v : in_neighbours (gstep g (i, j)) v = if j =? v then nstep v (in_neighbours g v) i else in_neighbours g v.
    Proof.
      unfold gstep, nstep. cbn [fst snd]. destruct (Z.eqb_spec j v) as [->|Hv].
      - destruct (vis i v); [apply in_neighbours_add_to|]. rewrite in_neighbours_remove, eqb_refl. reflexivity.
      - destruct (vis i j); [apply in_neighbours_add; assumption|]. rewrite in_neighbours_remove, (proj2 (eqb_false v j)) by congruence. reflexivity.
    Qed.
    Lemma gsteps_nbrs ps v : forall g, in_neighbours (fold_left gstep ps g) v = fold_left (nstep v) (map fst (filter (fun ij => snd ij =? v) ps)) (in_neighbours g v).
    Proof.
      induction ps as [|[i j] ps IH]; intros g; [reflexivity|]. cbn [fold_left filter]. rewrite IH, gstep_nbrs. cbn [snd]. destruct (j =? v); reflexivity.
    Qed.
    Lemma gsteps_labels ps : (forall i j, In (i, j) ps -> 0 <= i < n /\ 0 <= j < n) -> forall g : graph, labels g = zrange 0 n -> labels (fold_left gstep ps g) = zrange 0 n.
    Proof.
      induction ps as [|[i j] ps IH]; intros Hin g Hg; [assumption|]. cbn [fold_left]. apply IH; [intros a b Hab; apply Hin; right; assumption|].
      destruct (Hin i j (or_introl eq_refl)) as [Hi Hj]. unfold gstep. cbn [fst snd]. destruct (vis i j); [|rewrite labels_remove_edge; assumption].
      rewrite labels_add_old; [assumption| |]; rewrite Hg; apply in_zrange; assumption.
    Qed.
    Lemma gstep_mult g i j x y : mult (gstep g (i, j)) x y = if (x =? i) && (y =? j) then (if vis x y then Datatypes.S (mult g x y) else O) else mult g x y.
    Proof.
      unfold gstep. cbn [fst snd]. destruct (vis i j) eqn:E.
      - rewrite mult_add_edge. unfold hit. change (eqb x i) with (if eqd x i then true else false). change (eqb y j) with (if eqd y j then true else false).
        destruct (eqd x i) as [->|Hx]; [rewrite Z.eqb_refl|rewrite (proj2 (Z.eqb_neq x i) Hx)]; cbn [andb]; [|lia].
        destruct (eqd y j) as [->|Hy]; [rewrite Z.eqb_refl, E|rewrite (proj2 (Z.eqb_neq y j) Hy)]; lia.
      - rewrite mult_remove_edge. change (eqb x i) with (if eqd x i then true else false). change (eqb y j) with (if eqd y j then true else false).
        destruct (eqd x i) as [->|Hx]; [rewrite Z.eqb_refl|rewrite (proj2 (Z.eqb_neq x i) Hx)]; cbn [andb]; [|reflexivity].
        destruct (eqd y j) as [->|Hy]; [rewrite Z.eqb_refl, E|rewrite (proj2 (Z.eqb_neq y j) Hy)]; reflexivity.
    Qed.
    Lemma gsteps_mult ps x y : NoDup ps -> forall g, mult (fold_left gstep ps g) x y = if in_dec eqd (x, y) ps then (if vis x y then Datatypes.S (mult g x y) else O) else mult g x y.
    Proof.
      induction ps as [|[i j] ps IH]; intros Hnd g; [reflexivity|]. inversion Hnd as [|? ? Hn Hnd']; subst. cbn [fold_left]. rewrite IH, gstep_mult by assumption.
      destruct (in_dec eqd (x, y) ps) as [Hi|Hi]; destruct (in_dec eqd (x, y) ((i, j) :: ps)) as [Hi'|Hi'].
      - destruct ((x =? i) && (y =? j)) eqn:E; [|reflexivity]. apply andb_prop in E. destruct E as [E1 E2]. apply Z.eqb_eq in E1, E2. subst. contradiction.
      - exfalso. apply Hi'. right. assumption.
      - destruct Hi' as [E|Hi']; [injection E as -> ->; rewrite !Z.eqb_refl; reflexivity|contradiction].
      - destruct ((x =? i) && (y =? j)) eqn:E; [|reflexivity]. apply andb_prop in E. destruct E as [E1 E2]. apply Z.eqb_eq in E1, E2. subst. exfalso. apply Hi'. left. reflexivity.
    Qed.
  End Link.

  Lemma in_flock_pairs n i j : In (i, j) (flock_pairs n) <-> 0 <= i /\ i < j /\ j < n.
  Proof.
    unfold flock_pairs. rewrite in_flat_map. split.
    - intros (a & Ha & Hin). apply in_map_iff in Hin. destruct Hin as (b & E & Hb). injection E as <- <-. apply in_zrange in Ha, Hb. lia.
    - intros (H1 & H2 & H3). exists i. rewrite in_zrange. split; [lia|]. apply in_map. apply in_zrange. lia.
  Qed.
  Lemma NoDup_flock_pairs n : NoDup (flock_pairs n).
  Proof.
    unfold flock_pairs. pose proof (NoDup_zrange 0 n) as Hnd. induction (zrange 0 n) as [|i l IH]; [constructor|]. inversion Hnd as [|? ? Hn Hnd']; subst. cbn [flat_map].
    assert (Happ : forall l1 l2 : list (Z * Z), NoDup l1 -> NoDup l2 -> (forall x, In x l1 -> ~ In x l2) -> NoDup (l1 ++ l2)).
    { induction l1 as [|x l1 IH1]; intros l2 H1 H2 Hd; [assumption|]. inversion H1; subst. cbn [app]. constructor; [rewrite in_app_iff; intros [Hx|Hx]; [contradiction|apply (Hd x (or_introl eq_refl) Hx)]|]. apply IH1; [assumption|assumption|intros y Hy; apply Hd; right; assumption]. }
    apply Happ; [|apply IH; assumption|].
    - apply FinFun.Injective_map_NoDup; [intros a b E; congruence|apply NoDup_zrange].
    - intros [a b] H1 H2. apply in_map_iff in H1. destruct H1 as (c & E & _). injection E as <- <-. apply in_flat_map in H2. destruct H2 as (d & Hd & H2). apply in_map_iff in H2. destruct H2 as (e & E & _). injection E as -> ->. contradiction.
  Qed.
  (** the sources of the pairs that end in [v], in order *)
  Lemma flock_sources n v : 0 <= v < n -> map fst (filter (fun ij => snd ij =? v) (flock_pairs n)) = zrange 0 v.
  Proof.
    intros Hv. unfold flock_pairs. rewrite (zrange_split 0 v n) by lia.
    assert (Hone : forall i, map fst (filter (fun ij => snd ij =? v) (map (pair i) (zrange (i + 1) n))) = if i <? v then [i] else []).
    { intros i. destruct (Z.ltb_spec i v) as [Hi|Hi].
      - rewrite (zrange_split (i + 1) v n), (zrange_cons v n) by lia. rewrite map_app, filter_app, map_app. cbn [map filter snd]. rewrite Z.eqb_refl. cbn [map fst].
        assert (Hno : forall l, ~ In v l -> filter (fun ij => snd ij =? v) (map (@pair Z Z i) l) = []).
        { induction l as [|x l IH]; [reflexivity|]. intros Hx. cbn [map filter snd]. destruct (Z.eqb_spec x v) as [->|]; [exfalso; apply Hx; left; reflexivity|]. apply IH. intros Hi'. apply Hx. right. assumption. }
        rewrite !Hno by (rewrite in_zrange; lia). reflexivity.
      - assert (Hno : forall l, ~ In v l -> filter (fun ij => snd ij =? v) (map (@pair Z Z i) l) = []).
        { induction l as [|x l IH]; [reflexivity|]. intros Hx. cbn [map filter snd]. destruct (Z.eqb_spec x v) as [->|]; [exfalso; apply Hx; left; reflexivity|]. apply IH. intros Hi'. apply Hx. right. assumption. }
        rewrite Hno by (rewrite in_zrange; lia). reflexivity. }
    assert (Hall : forall l, map fst (filter (fun ij => snd ij =? v) (flat_map (fun i => map (pair i) (zrange (i + 1) n)) l)) = filter (fun i => i <? v) l).
    { induction l as [|i l IH]; [reflexivity|]. cbn [flat_map filter]. rewrite filter_app, map_app, IH, Hone. destruct (i <? v); reflexivity. }
    rewrite Hall, filter_app.
    assert (E1 : filter (fun i => i <? v) (zrange 0 v) = zrange 0 v) by (apply filter_all; intros x Hx; apply in_zrange in Hx; apply Z.ltb_lt; lia).
    assert (E2 : filter (fun i => i <? v) (zrange v n) = []).
    { assert (Hx : forall x, In x (zrange v n) -> (x <? v) = false) by (intros x Hx; apply in_zrange in Hx; apply Z.ltb_ge; lia). induction (zrange v n) as [|x l IH]; [reflexivity|]. cbn [filter]. rewrite (Hx x (or_introl eq_refl)). apply IH. intros y Hy. apply Hx. right. assumption. }
    rewrite E1, E2. apply app_nil_r.
  Qed.

  (** processing them one by one is [watch] *)
  Lemma nsteps_watch (st : Z -> A) v old : 0 <= v -> (forall i, In i old -> 0 <= i < v) -> fold_left (nstep st v) (zrange 0 v) old = watch visible st v old.
  Proof.
    intros Hv Hold.
    assert (Hk : forall k : nat, fold_left (nstep st v) (zrange 0 (Z.of_nat k)) old =
      filter (fun i => negb (i <? Z.of_nat k) || visible (st i) (st v)) old ++ filter (fun i => visible (st i) (st v) && negb (existsb (Z.eqb i) old)) (zrange 0 (Z.of_nat k))).
    { induction k as [|k IH].
      - cbn [fold_left]. change (Z.of_nat 0) with 0. rewrite (zrange_nil 0 0) by lia. cbn [fold_left filter]. rewrite app_nil_r. symmetry. apply filter_all. intros x Hx. specialize (Hold x Hx). destruct (Z.ltb_spec x 0); [lia|reflexivity].
      - rewrite Nat2Z.inj_succ. rewrite (zrange_snoc 0 (Z.succ (Z.of_nat k))) by lia. replace (Z.succ (Z.of_nat k) - 1) with (Z.of_nat k) by lia.
        rewrite fold_left_app, IH, filter_app. cbn [fold_left filter]. set (c := Z.of_nat k). set (N := filter _ (zrange 0 c)).
        assert (HN : forall x, In x N -> x < c) by (intros x Hx; apply filter_In in Hx; destruct Hx as [Hx _]; apply in_zrange in Hx; lia).
        assert (Hsame : visible (st c) (st v) = true \/ ~ In c old -> filter (fun i => negb (i <? Z.succ c) || visible (st i) (st v)) old = filter (fun i => negb (i <? c) || visible (st i) (st v)) old).
        { intros Hc. apply filter_ext_in. intros x Hx. destruct (Z.ltb_spec x (Z.succ c)), (Z.ltb_spec x c); try lia; try reflexivity. assert (x = c) by lia. subst x. destruct Hc as [-> |Hc]; [reflexivity|contradiction]. }
        assert (Hex : existsb (Z.eqb c) old = if in_dec eqd c old then true else false).
        { destruct (in_dec eqd c old) as [Hi|Hi].
          - apply existsb_exists. exists c. split; [assumption|apply Z.eqb_refl].
          - destruct (existsb (Z.eqb c) old) eqn:E; [|reflexivity]. apply existsb_exists in E. destruct E as (y & Hy & E). apply Z.eqb_eq in E. subst. contradiction. }
        unfold nstep. destruct (visible (st c) (st v)) eqn:Ev; cbn [andb].
        + rewrite Hsame by (left; reflexivity). rewrite Hex. destruct (in_dec eqd c old) as [Hi|Hi]; cbn [negb].
          * destruct (in_dec _ _ _) as [Hd|Hd]; [rewrite app_nil_r; reflexivity|]. exfalso. apply Hd, in_or_app. left. apply filter_In. split; [assumption|]. rewrite Ev, orb_true_r. reflexivity.
          * destruct (in_dec _ _ _) as [Hd|Hd]; [|rewrite app_assoc; reflexivity]. exfalso. apply in_app_or in Hd. destruct Hd as [Hd|Hd]; [apply filter_In in Hd; tauto|apply HN in Hd; lia].
        + rewrite app_nil_r, filter_app. f_equal.
          * rewrite filter_filter. apply filter_ext_in. intros x Hx. change (eqb x c) with (if eqd x c then true else false).
            destruct (eqd x c) as [->|Hne].
            -- destruct (Z.ltb_spec c (Z.succ c)); [|lia]. rewrite Ev. cbn. rewrite ?andb_false_r. reflexivity.
            -- destruct (Z.ltb_spec x (Z.succ c)), (Z.ltb_spec x c); try lia; cbn; rewrite ?andb_true_r; reflexivity.
          * apply filter_all. intros x Hx. specialize (HN x Hx). change (eqb x c) with (if eqd x c then true else false). destruct (eqd x c); [lia|reflexivity]. }
    specialize (Hk (Z.to_nat v)). rewrite Z2Nat.id in Hk by assumption. rewrite Hk. unfold watch. f_equal.
    apply filter_ext_in. intros x Hx. specialize (Hold x Hx). destruct (Z.ltb_spec x v); [reflexivity|lia].
  Qed.

  Lemma watch_range (st : Z -> A) v old i : (forall i, In i old -> 0 <= i < v) -> In i (watch visible st v old) -> 0 <= i < v.
  Proof.
    intros Hold Hi. unfold watch in Hi. apply in_app_or in Hi. destruct Hi as [Hi|Hi]; apply filter_In in Hi; destruct Hi as [Hi _]; [auto|apply in_zrange in Hi; assumption].
  Qed.

  Section Run.
    Context {U I BA BN : Type} (W : env Z V A BA BN) (fly : A -> list A -> res A) (move : A -> list A -> A).
    Notation acts := (dict Z A).

    Lemma watched_range st0 k v i : In i (watched visible move st0 k v) -> 0 <= i < v.
    Proof.
      revert v i. induction k as [|k IH]; intros v i; [intros []|]. unfold watched. cbn [flock]. destruct (flock visible move st0 k) as [st old] eqn:E. cbn [snd]. intros Hi.
      apply (watch_range st v (old v)); [|assumption]. intros x Hx. apply (IH v x). unfold watched. rewrite E. assumption.
    Qed.
    Lemma boid_S st0 k : boid visible move st0 (S k) = fun j => move (boid visible move st0 k j) (map (boid visible move st0 k) (watched visible move st0 (S k) j)).
    Proof. unfold boid, watched. cbn [flock]. destruct (flock visible move st0 k) as [st old]. reflexivity. Qed.
    Lemma watched_S st0 k : watched visible move st0 (S k) = fun j => watch visible (boid visible move st0 k) j (watched visible move st0 k j).
    Proof. unfold boid, watched. cbn [flock]. destruct (flock visible move st0 k) as [st old]. reflexivity. Qed.

    (** what is known of the state and the network after [k] steps *)
    Definition flock_at (n : Z) (st0 : Z -> A) (k : nat) (S : acts) (m : network) : Prop :=
      map fst S = zrange 0 n /\ (forall v, 0 <= v < n -> dget S v = Some (boid visible move st0 k v)) /\
      exists g, R m g /\ net_rot m = None /\ labels g = zrange 0 n /\
        (forall v, 0 <= v < n -> in_neighbours g v = watched visible move st0 k v) /\
        (forall i j, mult g i j = if (0 <=? i) && (i <? j) && (j <? n) then streak visible move st0 i j k else O).

    Theorem flock_run fuel (u0 : U) n c T (st0 : Z -> A) : 1 <= T -> (Z.to_nat T <= fuel)%nat -> 1 <= n ->
      map fst (to_dict W c) = zrange 0 n -> (forall v, 0 <= v < n -> dget (to_dict W c) v = Some (st0 v)) ->
      (forall k v, Z.of_nat k + 1 < T -> 0 <= v < n -> let st := boid visible move st0 k in let now := watched visible move st0 (S k) v in fly (st v) (map st now) = Ok (move (st v) (map st now))) ->
      exists traj hs, evolve (I:=I) W fuel u0 (init_network n) (Some c) (Some T) None (flock_args visible fly) = Ok (u0, traj) /\ Z.of_nat (length hs) = T /\
        Forall2 (fun s Sm => activities W s = Ok (shown_acts (fst Sm)) /\ state_network W s = Ok (shown_net (snd Sm))) traj hs /\
        nth_error hs 0 = Some (to_dict W c, init_network n) /\
        (forall k S m, nth_error hs k = Some (S, m) -> flock_at n st0 k S m).
    Proof.
      intros HT Hfuel Hn Hkeys Hvals Hfly. apply (topo_then_run W fuel u0 (init_network n) c T _ (flock_activity_rule fly) (flock_topology_rule visible) (flock_at n st0)).
      - repeat split.
      - assumption.
      - assumption.
      - unfold net_len, init_network. cbn [net_nodes]. rewrite map_length, <- Hkeys, map_length. reflexivity.
      - split; [assumption|]. split; [assumption|]. exists (mkG (map (fun i => (i, [])) (zrange 0 n)) []). split; [|split; [reflexivity|split; [|split; [reflexivity|]]]].
        + split.
          * unfold init_network, repr. cbn [net_nodes g_nodes g_edges]. rewrite map_map. reflexivity.
          * split; [cbn [g_nodes]; rewrite map_map; cbn [fst]; rewrite map_id; apply NoDup_zrange|intros e []].
        + unfold labels. cbn [g_nodes]. rewrite map_map. apply map_id.
        + intros i j. destruct (_ && _); reflexivity.
      - intros k S m Hk (HK & HV & g & HR & Hrot & Hlab & Hnb & Hmu).
        set (st := boid visible move st0 k) in *. set (now := watched visible move st0 (Datatypes.S k)).
        assert (Hin : forall i j, In (i, j) (flock_pairs n) -> 0 <= i < n /\ 0 <= j < n) by (intros i j Hij; apply in_flock_pairs in Hij; lia).
        destruct (link_all_R S st n HV (flock_pairs n) Hin (copy (copy m)) g (copy_R _ _ (copy_R _ _ HR))) as (m' & Em & HR' & Erot').
        set (g' := fold_left (gstep st) (flock_pairs n) g) in *.
        assert (Hlab' : labels g' = zrange 0 n) by (apply (gsteps_labels st n); assumption).
        assert (Hnod : nodes m' = zrange 0 n) by (rewrite (labels_R _ _ HR'); assumption).
        assert (Hrot' : net_rot m' = None) by (rewrite Erot'; reflexivity).
        assert (Hnb' : forall v, 0 <= v < n -> in_neighbours g' v = now v).
        { intros v Hv. unfold g'. rewrite gsteps_nbrs, flock_sources by assumption. unfold now. rewrite watched_S. fold st. rewrite Hnb by assumption. apply nsteps_watch; [lia|]. intros i Hi. apply watched_range in Hi. assumption. }
        assert (Hmu' : forall i j, mult g' i j = if (0 <=? i) && (i <? j) && (j <? n) then streak visible move st0 i j (Datatypes.S k) else O).
        { intros i j. unfold g'. rewrite gsteps_mult by apply NoDup_flock_pairs. rewrite Hmu. cbn [streak]. fold st.
          destruct (in_dec eqd (i, j) (flock_pairs n)) as [Hp|Hp]; rewrite in_flock_pairs in Hp.
          - destruct (Z.leb_spec 0 i), (Z.ltb_spec i j), (Z.ltb_spec j n); try lia. reflexivity.
          - destruct (Z.leb_spec 0 i), (Z.ltb_spec i j), (Z.ltb_spec j n); try lia; reflexivity. }
        assert (Hie : forall v, 0 <= v < n -> exists inc, in_edges m' v = Ok inc /\ map fst inc = now v).
        { intros v Hv. rewrite (in_edges_R _ _ v HR'). assert (Hb : is_nodeb g' v = true) by (apply is_nodeb_true; change (In v (labels g')); rewrite Hlab'; apply in_zrange; assumption). rewrite Hb. eexists. split; [reflexivity|]. rewrite map_map. cbn [fst]. rewrite map_id. apply Hnb'. assumption. }
        assert (Hctx : forall v x, 0 <= v < n -> ctx_for (I:=I) W m' S (Z.of_nat k + 1) None (InStr "__timestep__") v x -> x_cur x = st v /\ x_nacts x = map st (now v)).
        { intros v x Hv Hx. split; [pose proof (cf_cur _ _ _ _ _ _ _ _ Hx) as E; rewrite (HV v Hv) in E; congruence|].
          pose proof (cf_nbrs _ _ _ _ _ _ _ _ Hx) as Hnx. unfold nbrs_of in Hnx. rewrite Hrot' in Hnx. destruct Hnx as (inc & Ei & El). destruct (Hie v Hv) as (inc' & Ei' & El'). assert (inc' = inc) by congruence. subst inc'.
          pose proof (cf_nacts _ _ _ _ _ _ _ _ Hx) as Hna. rewrite El, El' in Hna.
          assert (Hr : forall i, In i (now v) -> 0 <= i < n) by (intros i Hi; apply watched_range in Hi; lia).
          clear - Hna Hr HV. induction Hna as [|i a l l' Ha Hl IH]; [reflexivity|]. cbn [map]. rewrite (HV i) in Ha by (apply Hr; left; reflexivity). injection Ha as <-. f_equal. apply IH. intros y Hy. apply Hr. right. assumption. }
        exists m'. split; [|split; [|split; [|split; [|split; [|split]]]]].
        + unfold flock_topology_rule. change (given (flock_args visible fly) m) with (copy m).
          assert (El : Z.of_nat (length (nodes (copy m))) = n).
          { rewrite (labels_R _ _ (copy_R _ _ HR)), Hlab, length_zrange. lia. }
          rewrite El, Em. reflexivity.
        + assert (Hd : nodes m' <> []) by (rewrite Hnod, zrange_cons by lia; discriminate). intros E. apply Hd. unfold nodes. rewrite E. reflexivity.
        + rewrite Hnod. apply NoDup_zrange.
        + intros v Hv. rewrite Hnod in Hv. apply in_zrange in Hv. destruct (Hie v Hv) as (inc & Ei & El). exists inc, (now v). split; [assumption|]. split.
          * unfold nbrs_of. rewrite Hrot'. exists inc. split; [assumption|congruence].
          * intros i Hi. rewrite Hnod. apply in_zrange. apply watched_range in Hi. lia.
        + intros v Hv. rewrite Hnod in Hv. apply in_zrange in Hv. rewrite HV by assumption. eauto.
        + intros v x Hv Hx. rewrite Hnod in Hv. apply in_zrange in Hv. destruct (Hctx v x Hv Hx) as [E1 E2]. unfold flock_activity_rule. rewrite E1, E2. eexists. apply (Hfly k v); assumption.
        + intros S' _ [HK' HV']. split; [rewrite HK'; assumption|]. split.
          * intros v Hv. destruct (HV' v) as (x & a & a' & Hx & Eh & -> & Ed); [rewrite Hnod; apply in_zrange; assumption|].
            destruct (Hctx v x Hv Hx) as [E1 E2]. unfold flock_activity_rule in Eh. rewrite E1, E2 in Eh. pose proof (Hfly k v ltac:(lia) Hv) as Ef. cbv zeta in Ef. fold st in Ef. fold now in Ef. rewrite Ef in Eh. rewrite Ed, boid_S. fold st. fold now. congruence.
          * exists g'. split; [assumption|]. split; [assumption|]. split; [assumption|]. split; assumption.
    Qed.
  End Run.
End Flock.

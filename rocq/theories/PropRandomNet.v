(** Property theorem for the demos that grow random networks (C89): demos/randomly_growing_network, demos/random_attachment_model. *)
From Verif Require Import Py PyFacts ListFacts Network NetworkSpec NetworkProofs NetworkProofs2 NetworkProofs3 NetMult Topology Evolve EvolveSpec EvolveProofs TopoRun DemoNets.
Open Scope string_scope.
Open Scope list_scope.
Open Scope nat_scope.

(** a call of [evolve] with a topology rule that may depend on the timestep (through what it draws) and no activity rule;
    recording, compression and copying as by default *)
Record growing {L V A U I} (g : @args L V A U I) (F : Z -> network L V -> res (network L V)) : Prop := mkGrowing {
  gr_rule : g_rule g = None;
  gr_topo : g_topo g = Some (pure_topo (fun m _ t => F t m));
  gr_copy : g_copy g = true;
  gr_comp : g_comp g = false;
  gr_pnet : g_pnet g = true;
  gr_past : g_past g = [] }.

(** how many of the two directed edges that join [i] and [j] lead from [x] to [y] *)
Definition joins (x y : Z) (ij : Z * Z) : nat := (if (x =? fst ij)%Z && (y =? snd ij)%Z then 1 else 0) + (if (x =? snd ij)%Z && (y =? fst ij)%Z then 1 else 0).
(** the timesteps 1, ..., k *)
Definition steps (k : nat) : list Z := map Z.of_nat (seq 1 k).

Section Random.
  Context {V : Type}.
  Notation network := (network Z V).
  Notation graph := (graph Z V).

  Lemma steps_S k : steps (S k) = steps k ++ [(Z.of_nat k + 1)%Z].
  Proof. unfold steps. rewrite seq_S, map_app. cbn [map Nat.add]. do 2 f_equal. lia. Qed.

  Lemma hit_joins (x y i j : Z) : hit x y i j + hit x y j i = joins x y (i, j).
  Proof. unfold hit, joins. cbn [fst snd]. repeat match goal with |- context[eqb ?p ?q] => change (eqb p q) with (if Z.eq_dec p q then true else false) end.
    repeat match goal with |- context[Z.eq_dec ?p ?q] => replace (if Z.eq_dec p q then true else false) with (p =? q)%Z by (destruct (Z.eq_dec p q), (Z.eqb_spec p q); congruence) end. reflexivity.
  Qed.

  (** two edges in opposite directions *)
  Lemma join_R (n : network) g i j : R n g -> exists n', mthen (add_edge i j []) (add_edge j i []) n = (n', Ok tt) /\ R n' (spec_add_edge (spec_add_edge g i j []) j i []).
  Proof. intros HR. destruct (add_bidir_R n g i j HR) as (n' & E & R' & _). exists n'. split; assumption. Qed.
  Lemma join_mult (g : graph) i j x y : mult (spec_add_edge (spec_add_edge g i j []) j i []) x y = mult g x y + joins x y (i, j).
  Proof. rewrite !mult_add_edge. rewrite <- hit_joins. lia. Qed.
  Lemma join_edges (g : graph) i j : length (g_edges (spec_add_edge (spec_add_edge g i j []) j i [])) = length (g_edges g) + 2.
  Proof.
    assert (E : forall (h : graph) i j, g_edges (spec_add_edge h i j []) = g_edges h ++ [(i, j, [])]).
    { intros h p q. unfold spec_add_edge, ensure_node. cbn [g_edges]. f_equal. repeat match goal with |- context[if ?b then _ else _] => destruct b end; reflexivity. }
    rewrite !E, !app_length. cbn. lia.
  Qed.
  Lemma join_labels (g : graph) i j : In i (labels g) -> In j (labels g) -> labels (spec_add_edge (spec_add_edge g i j []) j i []) = labels g.
  Proof. intros Hi Hj. rewrite !labels_add_old; try assumption; [reflexivity|rewrite labels_add_old; assumption..]. Qed.

  Lemma new_node_R (n : network) g v : R n g -> ~ In v (labels g) -> exists n' g', add_node v [] n = (n', Ok tt) /\ R n' g' /\ labels g' = labels g ++ [v] /\ g_edges g' = g_edges g.
  Proof.
    intros HR Hv. destruct (add_node_R n g v [] HR eq_refl eq_refl) as (n' & E & R' & _). exists n', (spec_add_node g v []). split; [assumption|]. split; [assumption|].
    assert (Hb : ensure_node g v = mkG (g_nodes g ++ [(v, [])]) (g_edges g)).
    { unfold ensure_node, is_nodeb. destruct (in_dec eqd v (map fst (g_nodes g))); [contradiction|reflexivity]. }
    unfold labels, spec_add_node. rewrite Hb. cbn [g_nodes g_edges]. split; [|reflexivity].
    rewrite map_map, <- (map_app fst (g_nodes g) [(v, [])] : _ = map fst (g_nodes g) ++ [v]). apply map_ext. intros [k a]. cbn. destruct (eqd k v); reflexivity.
  Qed.

  Lemma edges_len (n : network) g : R n g -> length (edges n) = length (g_edges g).
  Proof. intros HR. apply Permutation_length, edges_R. assumption. Qed.

  Lemma len_nodes (n : network) : net_len n = length (nodes n).
  Proof. unfold net_len, nodes. symmetry. apply map_length. Qed.

  Lemma path_into (m : network) v p : connected m -> In p (nodes m) -> forall m' : network, (forall x, In x (nodes m') -> In x (nodes m) \/ x = v) ->
    (forall x y, links m x y <> 0 -> links m' x y <> 0) -> links m' v p <> 0 -> links m' p v <> 0 -> connected m'.
  Proof.
    intros Hc Hp m' Hn Hl H1 H2 x y Hx Hy.
    assert (K : forall z, In z (nodes m') -> path m' z p /\ path m' p z).
    { intros z Hz. destruct (Hn z Hz) as [Hz'| ->].
      - split; apply (path_more m m' _ _ Hl); apply Hc; assumption.
      - split; (econstructor; [eassumption|constructor]). }
    destruct (K x Hx) as [K1 _], (K y Hy) as [_ K2]. exact (path_trans m' x p y K1 K2).
  Qed.

  (** *** one node is added and attached *)
  Lemma grow_step (m : network) N p : reachable m -> nodes m = zrange 0 N -> (0 <= p < N)%Z ->
    exists m', grow_rule p (copy m) = Ok m' /\ reachable m' /\ nodes m' = zrange 0 (N + 1) /\ length (edges m') = length (edges m) + 2 /\
      (forall x y, links m' x y = links m x y + joins x y (N, p)) /\ (connected m -> connected m').
  Proof.
    intros Hr Hn Hp. destruct (reachable_R m Hr) as [g HR]. pose proof (copy_R m g HR) as HR'.
    assert (Hl : labels g = zrange 0 N) by (rewrite <- (labels_R m g HR); assumption).
    assert (Hnew : Z.of_nat (net_len (copy m)) = N) by (rewrite len_nodes; change (nodes (copy m)) with (nodes m); rewrite Hn, length_zrange; lia).
    destruct (new_node_R (copy m) g N HR') as (m1 & g1 & E1 & R1 & L1 & G1); [rewrite Hl, in_zrange; lia|].
    destruct (join_R m1 g1 N p R1) as (m2 & E2 & R2).
    assert (El : labels (spec_add_edge (spec_add_edge g1 N p []) p N []) = zrange 0 (N + 1)).
    { rewrite join_labels; rewrite ?L1, ?Hl.
      - rewrite (zrange_snoc 0 (N + 1)) by lia. replace (N + 1 - 1)%Z with N by lia. reflexivity.
      - apply in_or_app. right. left. reflexivity.
      - apply in_or_app. left. apply in_zrange. lia. }
    assert (Em : forall x y, mult g1 x y = mult g x y) by (intros x y; unfold mult, between; rewrite G1; reflexivity).
    exists m2. assert (Eg : grow_rule p (copy m) = Ok m2).
    { unfold grow_rule. cbv zeta. rewrite Hnew. rewrite (mthen_ok _ _ _ _ E1), E2. reflexivity. }
    assert (Hlk : forall x y, links m2 x y = links m x y + joins x y (N, p)) by (intros x y; rewrite (links_R m2 _ x y R2), join_mult, Em, (links_R m g x y HR); reflexivity).
    assert (Hn2 : nodes m2 = zrange 0 (N + 1)) by (rewrite (labels_R m2 _ R2); assumption).
    split; [assumption|]. split.
    { pose proof (keeps_mthen (V:=V) (add_node N []) (mthen (add_edge N p []) (add_edge p N [])) (keeps_op (OpAddNode N []))
        (keeps_mthen _ _ (keeps_op (OpAddEdge N p [])) (keeps_op (OpAddEdge p N []))) (copy m) (keeps_copy m Hr)) as K.
      rewrite (mthen_ok _ _ _ _ E1), E2 in K. exact K. }
    split; [assumption|]. split; [rewrite (edges_len m2 _ R2), join_edges, G1, (edges_len m g HR); reflexivity|]. split; [assumption|].
    intros Hc. apply (path_into m N p Hc); [rewrite Hn, in_zrange; lia| | |rewrite Hlk; unfold joins; cbn [fst snd]; rewrite !Z.eqb_refl; cbn; lia..].
    - intros x. rewrite Hn2, Hn, !in_zrange. lia.
    - intros x y Hx. rewrite Hlk. lia.
  Qed.

  (** *** one node is added, then possibly two nodes are joined *)
  Lemma callaway_step (m : network) N (pick : option (Z * Z)) : reachable m -> nodes m = zrange 0 N -> (0 <= N)%Z ->
    (forall c0 c1, pick = Some (c0, c1) -> (0 <= c0 <= N /\ 0 <= c1 <= N)%Z) ->
    exists m', callaway_rule pick (copy m) = Ok m' /\ reachable m' /\ nodes m' = zrange 0 (N + 1) /\
      length (edges m') = length (edges m) + (if pick then 2 else 0) /\
      (forall x y, links m' x y = links m x y + match pick with Some ij => joins x y ij | None => 0 end).
  Proof.
    intros Hr Hn HN Hp. destruct (reachable_R m Hr) as [g HR]. pose proof (copy_R m g HR) as HR'.
    assert (Hl : labels g = zrange 0 N) by (rewrite <- (labels_R m g HR); assumption).
    assert (Hnew : Z.of_nat (net_len (copy m)) = N) by (rewrite len_nodes; change (nodes (copy m)) with (nodes m); rewrite Hn, length_zrange; lia).
    destruct (new_node_R (copy m) g N HR') as (m1 & g1 & E1 & R1 & L1 & G1); [rewrite Hl, in_zrange; lia|].
    assert (L1' : labels g1 = zrange 0 (N + 1)).
    { rewrite L1, Hl, (zrange_snoc 0 (N + 1)) by lia. replace (N + 1 - 1)%Z with N by lia. reflexivity. }
    assert (Em : forall x y, mult g1 x y = mult g x y) by (intros x y; unfold mult, between; rewrite G1; reflexivity).
    unfold callaway_rule. cbv zeta. rewrite Hnew, (mthen_ok _ _ _ _ E1). destruct pick as [[c0 c1]|].
    - destruct (Hp c0 c1 eq_refl) as [H0 H1]. destruct (join_R m1 g1 c1 c0 R1) as (m2 & E2 & R2). rewrite E2. exists m2. split; [reflexivity|]. split; [|split; [|split]].
      + pose proof (keeps_mthen (V:=V) (add_node N []) (mthen (add_edge c1 c0 []) (add_edge c0 c1 [])) (keeps_op (OpAddNode N []))
          (keeps_mthen _ _ (keeps_op (OpAddEdge c1 c0 [])) (keeps_op (OpAddEdge c0 c1 []))) (copy m) (keeps_copy m Hr)) as K.
        rewrite (mthen_ok _ _ _ _ E1), E2 in K. exact K.
      + rewrite (labels_R m2 _ R2), join_labels; [assumption|rewrite L1', in_zrange; lia..].
      + rewrite (edges_len m2 _ R2), join_edges, G1, (edges_len m g HR). reflexivity.
      + intros x y. rewrite (links_R m2 _ x y R2), join_mult, Em, (links_R m g x y HR). unfold joins. cbn [fst snd]. lia.
    - exists m1. split; [reflexivity|]. split; [|split; [|split]].
      + pose proof (keeps_op (V:=V) (OpAddNode N []) (copy m) (keeps_copy m Hr)) as K. cbn [run_op] in K. rewrite E1 in K. exact K.
      + rewrite (labels_R m1 _ R1). assumption.
      + rewrite (edges_len m1 _ R1), G1, (edges_len m g HR). lia.
      + intros x y. rewrite (links_R m1 _ x y R1), Em, (links_R m g x y HR). lia.
  Qed.

  (** *** two nodes are joined unless they are joined already *)
  Lemma attach_step (m : network) c0 c1 : reachable m -> In c0 (nodes m) -> In c1 (nodes m) -> (forall x y, links m x y = links m y x) ->
    exists m', attachment_rule (c0, c1) (copy m) = Ok m' /\ reachable m' /\ nodes m' = nodes m /\
      (forall x y, links m' x y = links m x y + (if links m c0 c1 =? 0 then joins x y (c0, c1) else 0)).
  Proof.
    intros Hr H0 H1 Hs. destruct (reachable_R m Hr) as [g HR]. pose proof (copy_R m g HR) as HR'. unfold attachment_rule.
    rewrite !(has_edge_R (copy m) g _ _ HR'). pose proof (links_R m g c0 c1 HR) as E0. pose proof (links_R m g c1 c0 HR) as E1. pose proof (Hs c0 c1) as Es.
    destruct (Nat.eqb_spec (links m c0 c1) 0) as [Hz|Hz].
    - assert (B0 : between g c0 c1 = []) by (unfold mult in E0; destruct (between g c0 c1); [reflexivity|cbn in E0; lia]).
      assert (B1 : between g c1 c0 = []) by (unfold mult in E1; destruct (between g c1 c0); [reflexivity|cbn in E1; lia]).
      rewrite B0, B1. cbn [negb andb]. destruct (join_R (copy m) g c1 c0 HR') as (m2 & E2 & R2). rewrite E2. exists m2. split; [reflexivity|]. split; [|split].
      + pose proof (keeps_mthen (V:=V) _ _ (keeps_op (OpAddEdge c1 c0 [])) (keeps_op (OpAddEdge c0 c1 [])) (copy m) (keeps_copy m Hr)) as K. cbn [run_op] in K. rewrite E2 in K. exact K.
      + rewrite (labels_R m2 _ R2), (labels_R m g HR). rewrite (labels_R m g HR) in H0, H1. apply join_labels; assumption.
      + intros x y. rewrite (links_R m2 _ x y R2), join_mult, (links_R m g x y HR). unfold joins. cbn [fst snd]. lia.
    - assert (B1 : exists a l, between g c1 c0 = a :: l) by (unfold mult in E1; destruct (between g c1 c0) as [|a l]; [cbn in E1; lia|eauto]). destruct B1 as (a & l & B1). rewrite B1.
      cbn [negb andb]. exists (copy m). split; [reflexivity|]. split; [apply keeps_copy; assumption|]. split; [reflexivity|]. intros x y. change (links (copy m) x y) with (links m x y). lia.
  Qed.
End Random.

Lemma shown_some {L V} `{EqD L} {A BA BN} (W : env L V A BA BN) traj (ms : list (network L V)) :
  Forall2 (fun s m => state_network W s = Ok (shown_net m)) traj ms -> (forall m, In m ms -> nodes m <> []) -> Forall2 (fun s m => state_network W s = Ok (Some m)) traj ms.
Proof.
  intros Hf. induction Hf as [|s m traj ms Hsm _ IH]; intros Hall; constructor.
  - rewrite Hsm. unfold shown_net. specialize (Hall m (or_introl eq_refl)). destruct (nodes m); [congruence|reflexivity].
  - apply IH. intros m' Hm'. apply Hall. right. assumption.
Qed.
Lemma nodes_net_nodes {L V} `{EqD L} (m : network L V) : nodes m <> [] -> net_nodes m <> [].
Proof. intros Hx E. apply Hx. unfold nodes. rewrite E. reflexivity. Qed.

Section Runs.
  Context {V A U I BA BN : Type} `{EqD A} (W : env Z V A BA BN).
  Notation network := (network Z V).
  Notation args := (@args Z V A U I).

  (** C89, randomly_growing_network_demo1: whatever is drawn, the network at timestep t is the initial one together with one new
      node per timestep, attached in both directions to one older node; it stays connected. *)
  Theorem C89_growing_tree : forall fuel (g : args) u0 (n : network) initial T N (pick : Z -> Z),
    growing g (fun t => grow_rule (pick t)) -> (1 <= T)%Z -> Z.to_nat T <= fuel ->
    reachable n -> (1 <= N)%Z -> nodes n = zrange 0 N -> (forall t, (1 <= t < T)%Z -> (0 <= pick t < N + t - 1)%Z) ->
    exists traj ms, evolve W fuel u0 n initial (Some T) None g = Ok (u0, traj) /\ Z.of_nat (length ms) = T /\
      Forall2 (fun s m => state_network W s = Ok (Some m)) traj ms /\
      forall t m, nth_error ms t = Some m ->
        nodes m = zrange 0 (N + Z.of_nat t) /\ length (edges m) = length (edges n) + 2 * t /\ (connected n -> connected m) /\
        forall x y, links m x y = links n x y + list_sum (map (fun s => joins x y ((N + s - 1)%Z, pick s)) (steps t)).
  Proof.
    intros fuel g u0 n initial T N pick [Hru Hto Hcp Hco Hpn Hpa] HT Hfu Hr HN Hn Hpick.
    set (P := fun t (m : network) => reachable m /\ nodes m = zrange 0 (N + Z.of_nat t) /\ length (edges m) = length (edges n) + 2 * t /\ (connected n -> connected m) /\
        forall x y, links m x y = links n x y + list_sum (map (fun s => joins x y ((N + s - 1)%Z, pick s)) (steps t))).
    assert (Hne : forall t m, P t m -> nodes m <> []) by (intros t m (_ & E & _); rewrite E, zrange_cons by lia; discriminate).
    destruct (topo_run W g (fun m _ t => grow_rule (pick t) m) Hru Hto Hco Hpn Hpa fuel u0 n initial T P HT Hfu) as (traj & ms & E & Hl & Hf & H0 & HP & Hs).
    - unfold P. rewrite Z.add_0_r. split; [assumption|]. split; [assumption|]. split; [lia|]. split; [auto|]. intros x y. cbn. lia.
    - intros k m Hk (P1 & P2 & P3 & P4 & P5). unfold given. rewrite Hcp.
      destruct (grow_step m (N + Z.of_nat k) (pick (Z.of_nat k + 1)%Z) P1 P2) as (m' & E & Q1 & Q2 & Q3 & Q4 & Q5); [specialize (Hpick (Z.of_nat k + 1)%Z); lia|].
      assert (HP : P (S k) m').
      { unfold P. split; [assumption|]. split; [rewrite Q2; f_equal; lia|]. split; [lia|]. split; [auto|]. intros x y. rewrite Q4, P5, steps_S, map_app, list_sum_app. cbn [map list_sum fold_right].
        replace (N + (Z.of_nat k + 1) - 1)%Z with (N + Z.of_nat k)%Z by lia. lia. }
      exists m'. split; [auto|]. split; [apply nodes_net_nodes, (Hne _ _ HP)|assumption].
    - exists traj, ms. split; [assumption|]. split; [assumption|]. split; [|intros t m Hm; apply (HP t m Hm)].
      apply shown_some; [assumption|]. intros m Hm. apply In_nth_error in Hm. destruct Hm as [t Hm]. exact (Hne t m (HP t m Hm)).
  Qed.

  (** C89, randomly_growing_network_demo2: every timestep adds a node and joins the two nodes drawn, if any were drawn *)
  Theorem C89_callaway : forall fuel (g : args) u0 (n : network) initial T N (pick : Z -> option (Z * Z)),
    growing g (fun t => callaway_rule (pick t)) -> (1 <= T)%Z -> Z.to_nat T <= fuel ->
    reachable n -> (1 <= N)%Z -> nodes n = zrange 0 N -> (forall t c0 c1, (1 <= t < T)%Z -> pick t = Some (c0, c1) -> (0 <= c0 < N + t /\ 0 <= c1 < N + t)%Z) ->
    exists traj ms, evolve W fuel u0 n initial (Some T) None g = Ok (u0, traj) /\ Z.of_nat (length ms) = T /\
      Forall2 (fun s m => state_network W s = Ok (Some m)) traj ms /\
      forall t m, nth_error ms t = Some m ->
        nodes m = zrange 0 (N + Z.of_nat t) /\ length (edges m) = length (edges n) + 2 * length (filter (fun s => if pick s then true else false) (steps t)) /\
        forall x y, links m x y = links n x y + list_sum (map (fun s => match pick s with Some ij => joins x y ij | None => 0 end) (steps t)).
  Proof.
    intros fuel g u0 n initial T N pick [Hru Hto Hcp Hco Hpn Hpa] HT Hfu Hr HN Hn Hpick.
    set (P := fun t (m : network) => reachable m /\ nodes m = zrange 0 (N + Z.of_nat t) /\ length (edges m) = length (edges n) + 2 * length (filter (fun s => if pick s then true else false) (steps t)) /\
        forall x y, links m x y = links n x y + list_sum (map (fun s => match pick s with Some ij => joins x y ij | None => 0 end) (steps t))).
    assert (Hne : forall t m, P t m -> nodes m <> []) by (intros t m (_ & E & _); rewrite E, zrange_cons by lia; discriminate).
    destruct (topo_run W g (fun m _ t => callaway_rule (pick t) m) Hru Hto Hco Hpn Hpa fuel u0 n initial T P HT Hfu) as (traj & ms & E & Hl & Hf & H0 & HP & Hs).
    - unfold P. rewrite Z.add_0_r. split; [assumption|]. split; [assumption|]. split; [cbn; lia|]. intros x y. cbn. lia.
    - intros k m Hk (P1 & P2 & P3 & P5). unfold given. rewrite Hcp.
      destruct (callaway_step m (N + Z.of_nat k) (pick (Z.of_nat k + 1)%Z) P1 P2) as (m' & E & Q1 & Q2 & Q3 & Q4); [lia|intros c0 c1 Hc; specialize (Hpick (Z.of_nat k + 1)%Z c0 c1 ltac:(lia) Hc); lia|].
      assert (HP : P (S k) m').
      { unfold P. split; [assumption|]. split; [rewrite Q2; f_equal; lia|]. split.
        - rewrite Q3, P3, steps_S, filter_app, app_length. cbn [filter]. destruct (pick (Z.of_nat k + 1)%Z); cbn [length]; lia.
        - intros x y. rewrite Q4, P5, steps_S, map_app, list_sum_app. cbn [map list_sum fold_right]. lia. }
      exists m'. split; [auto|]. split; [apply nodes_net_nodes, (Hne _ _ HP)|assumption].
    - exists traj, ms. split; [assumption|]. split; [assumption|]. split; [|intros t m Hm; apply (HP t m Hm)].
      apply shown_some; [assumption|]. intros m Hm. apply In_nth_error in Hm. destruct Hm as [t Hm]. exact (Hne t m (HP t m Hm)).
  Qed.

  (** C89, random_attachment_model: started without edges, the network at timestep t is the simple undirected graph of the pairs drawn so far *)
  Theorem C89_attachment : forall fuel (g : args) u0 (n : network) initial T (pick : Z -> Z * Z),
    growing g (fun t => attachment_rule (pick t)) -> (1 <= T)%Z -> Z.to_nat T <= fuel ->
    reachable n -> nodes n <> [] -> edges n = [] ->
    (forall t, (1 <= t < T)%Z -> In (fst (pick t)) (nodes n) /\ In (snd (pick t)) (nodes n) /\ fst (pick t) <> snd (pick t)) ->
    exists traj ms, evolve W fuel u0 n initial (Some T) None g = Ok (u0, traj) /\ Z.of_nat (length ms) = T /\
      Forall2 (fun s m => state_network W s = Ok (Some m)) traj ms /\
      forall t m, nth_error ms t = Some m ->
        nodes m = nodes n /\
        forall x y, links m x y = if existsb (fun s => negb (joins x y (pick s) =? 0)) (steps t) then 1 else 0.
  Proof.
    intros fuel g u0 n initial T pick [Hru Hto Hcp Hco Hpn Hpa] HT Hfu Hr Hnn Hed Hpick.
    set (P := fun t (m : network) => reachable m /\ nodes m = nodes n /\ forall x y, links m x y = if existsb (fun s => negb (joins x y (pick s) =? 0)) (steps t) then 1 else 0).
    assert (Hne : forall t m, P t m -> nodes m <> []) by (intros t m (_ & E & _); rewrite E; assumption).
    assert (Jsym : forall x y ij, joins x y ij = joins y x ij).
    { intros x y [i j]. unfold joins. cbn [fst snd]. rewrite !(andb_comm (y =? _)%Z). lia. }
    destruct (topo_run W g (fun m _ t => attachment_rule (pick t) m) Hru Hto Hco Hpn Hpa fuel u0 n initial T P HT Hfu) as (traj & ms & E & Hl & Hf & H0 & HP & Hs).
    - unfold P. split; [assumption|]. split; [reflexivity|]. intros x y. unfold links. rewrite Hed. reflexivity.
    - intros k m Hk (P1 & P2 & P5). unfold given. rewrite Hcp. destruct (Hpick (Z.of_nat k + 1)%Z) as (D0 & D1 & D2); [lia|]. set (p := pick (Z.of_nat k + 1)%Z) in *.
      assert (Hsym : forall x y, links m x y = links m y x).
      { intros x y. rewrite !P5. assert (Ee : existsb (fun s => negb (joins x y (pick s) =? 0)) (steps k) = existsb (fun s => negb (joins y x (pick s) =? 0)) (steps k)); [|rewrite Ee; reflexivity].
        clear - Jsym. induction (steps k) as [|s l IH]; [reflexivity|]. cbn [existsb]. rewrite IH, Jsym. reflexivity. }
      destruct (attach_step m (fst p) (snd p) P1) as (m' & E & Q1 & Q2 & Q4); [rewrite P2; assumption..|assumption|]. rewrite <- surjective_pairing in *.
      assert (HP : P (S k) m').
      { unfold P. split; [assumption|]. split; [congruence|]. intros x y. rewrite Q4, steps_S, existsb_app. cbn [existsb]. rewrite orb_false_r. fold p.
        destruct (joins x y p =? 0) eqn:Ej; cbn [negb].
        - apply Nat.eqb_eq in Ej. rewrite Ej, orb_false_r, P5. destruct (links m (fst p) (snd p) =? 0); lia.
        - assert (Hxy : (x = fst p /\ y = snd p) \/ (x = snd p /\ y = fst p)).
          { apply Nat.eqb_neq in Ej. unfold joins in Ej. destruct (Z.eqb_spec x (fst p)), (Z.eqb_spec y (snd p)), (Z.eqb_spec x (snd p)), (Z.eqb_spec y (fst p)); cbn in Ej; auto; lia. }
          assert (Hl : links m x y = links m (fst p) (snd p)) by (destruct Hxy as [[-> ->]|[-> ->]]; [reflexivity|apply Hsym]).
          assert (Hj : joins x y p = 1).
          { unfold joins. destruct Hxy as [[-> ->]|[-> ->]]; rewrite !Z.eqb_refl; [destruct (Z.eqb_spec (fst p) (snd p))|destruct (Z.eqb_spec (snd p) (fst p))]; cbn; congruence. }
          rewrite Hl, Hj, orb_true_r. rewrite (P5 (fst p) (snd p)). destruct (existsb _ (steps k)); reflexivity. }
      exists m'. split; [auto|]. split; [apply nodes_net_nodes, (Hne _ _ HP)|assumption].
    - exists traj, ms. split; [assumption|]. split; [assumption|]. split; [|intros t m Hm; apply (HP t m Hm)].
      apply shown_some; [assumption|]. intros m Hm. apply In_nth_error in Hm. destruct Hm as [t Hm]. exact (Hne t m (HP t m Hm)).
  Qed.
End Runs.

(** ** Examples *)

(** the networks the three demos start from (randomly_growing_network_demo1.py:14, ..._demo2.py:26, random_attachment_model_demo.py:15) *)
Example C89_starts : reachable (fst (from_adjacency_matrix nzb [[1%Z]])) /\ nodes (fst (from_adjacency_matrix nzb [[1%Z]])) = zrange 0 1 /\ connected (fst (from_adjacency_matrix nzb [[1%Z]])) /\
  reachable (fst (disconnected (V:=Z) (DInt 1))) /\ nodes (fst (disconnected (V:=Z) (DInt 1))) = zrange 0 1 /\
  reachable (fst (disconnected (V:=Z) (DInt 5))) /\ nodes (fst (disconnected (V:=Z) (DInt 5))) <> [] /\ edges (fst (disconnected (V:=Z) (DInt 5))) = [].
Proof.
  split; [exists [OpAddEdge 0%Z 0%Z [("weight", 1%Z)]]; vm_compute; reflexivity|]. split; [reflexivity|]. split.
  - intros x y Hx Hy. change (In x [0%Z]) in Hx. change (In y [0%Z]) in Hy. destruct Hx as [<-|[]], Hy as [<-|[]]. constructor.
  - split; [apply init_network_reachable|]. split; [reflexivity|]. split; [apply init_network_reachable|]. split; [discriminate|reflexivity].
Qed.

(** In the second demo the same pair can be drawn again, which gives parallel edges; in the third it cannot. *)
Theorem C89_parallel_edges_refuted : exists (n m1 m2 : network Z Z), reachable n /\ edges n = [] /\
  callaway_rule (Some (0%Z, 1%Z)) n = Ok m1 /\ callaway_rule (Some (0%Z, 1%Z)) m1 = Ok m2 /\ links m2 0%Z 1%Z = 2.
Proof.
  exists (init_network 1). eexists. eexists. split; [apply init_network_reachable|]. split; [reflexivity|]. split; [vm_compute; reflexivity|]. split; vm_compute; reflexivity.
Qed.

Print Assumptions C89_growing_tree.
Print Assumptions C89_callaway.
Print Assumptions C89_attachment.
Print Assumptions C89_parallel_edges_refuted.

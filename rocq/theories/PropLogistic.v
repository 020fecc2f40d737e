(** Property theorems for demos/logistic_map (C97). *)
From Coq Require Import QArith Qpower Qabs Lqa.
From Verif Require Import Py PyFacts ListFacts Network Topology Evolve EvolveSpec EvolveProofs EvolveStatic CaSpec CaRun PropCa Fungal Continuous ContinuousProofs PropContinuous Maps FieldRun.
Open Scope string_scope.
Open Scope list_scope.
Open Scope Z_scope.

(** ** The network *)
Lemma add_loop (n : network Z Q) v (r : Q) : dget (net_nodes n) v = Some new_node ->
  exists n', add_edge v v [("growth_rate", r)] n = (n', Ok tt) /\ nodes n' = nodes n /\ net_rot n' = net_rot n /\
    dget (net_nodes n') v = Some (mkNode 1 1 [(v, [[("growth_rate", r)]])] [v] []) /\ forall w, w <> v -> dget (net_nodes n') w = dget (net_nodes n) w.
Proof.
  intros E. unfold add_edge. replace (kwargs_clash _ _) with false by reflexivity.
  unfold mthen, mbind, init_node, dmem. rewrite E. cbn [fst snd]. rewrite E.
  unfold increment_in_degree, increment_out_degree, add_outgoing, on_node. rewrite E. unfold set_nodes. cbn [net_nodes net_rot].
  rewrite !dget_dset_eq. cbn [net_nodes net_rot]. rewrite !dget_dset_eq. cbn [net_nodes net_rot]. rewrite !dget_dset_eq. cbn [net_nodes net_rot].
  eexists. split; [reflexivity|]. split; [|split; [reflexivity|]].
  - unfold nodes. cbn [net_nodes]. rewrite !dkeys_dset. unfold dmem. rewrite !dget_dset_eq, E. reflexivity.
  - cbn [net_nodes]. rewrite !dget_dset_eq. split; [unfold with_outg, with_out, with_in, with_inc, append_incoming, new_node; cbn [n_inc n_in n_out n_outg n_attr dget dset app]; reflexivity|].
    intros w Hw. rewrite !dget_dset_ne by congruence. reflexivity.
Qed.

Lemma add_loops (l : list Q) : forall k (n : network Z Q), (forall j, (k <= j < k + length l)%nat -> dget (net_nodes n) (Z.of_nat j) = Some new_node) ->
  exists n', mfor (combine (seq k (length l)) l) (fun ir => add_edge (Z.of_nat (fst ir)) (Z.of_nat (fst ir)) [("growth_rate", snd ir)]) n = (n', Ok tt) /\
    nodes n' = nodes n /\ net_rot n' = net_rot n /\
    (forall j r, nth_error l j = Some r -> dget (net_nodes n') (Z.of_nat (k + j)) = Some (mkNode 1 1 [(Z.of_nat (k + j), [[("growth_rate", r)]])] [Z.of_nat (k + j)] [])) /\
    forall j, (j < k)%nat -> dget (net_nodes n') (Z.of_nat j) = dget (net_nodes n) (Z.of_nat j).
Proof.
  induction l as [|r l IH]; intros k n Hn; [exists n; repeat split; try reflexivity; intros [|j] r E; discriminate|].
  cbn [length seq combine mfor fst snd]. destruct (add_loop n (Z.of_nat k) r (Hn k ltac:(cbn; lia))) as (n1 & E1 & Hnod & Hrot & Hk & Ho).
  unfold mthen, mbind. rewrite E1. destruct (IH (S k) n1) as (n2 & E2 & Hnod2 & Hrot2 & Hk2 & Ho2).
  - intros j Hj. rewrite Ho by lia. apply Hn. cbn [length]. lia.
  - exists n2. split; [exact E2|]. split; [congruence|]. split; [congruence|]. split.
    + intros [|j] r' E; cbn in E.
      * injection E as <-. rewrite Nat.add_0_r, Ho2 by lia. assumption.
      * replace (k + S j)%nat with (S k + j)%nat by lia. apply Hk2. assumption.
    + intros j Hj. rewrite Ho2 by lia. apply Ho. lia.
Qed.

Lemma init_network_node {V} m v : 0 <= v < m -> dget (net_nodes (init_network m : network Z V)) v = Some new_node.
Proof.
  intros Hv. unfold init_network. cbn [net_nodes]. apply (dget_table (fun _ => new_node)). apply in_zrange. assumption.
Qed.

(** C97: the network of the demos: one node for each growth rate, whose only edge is a loop that carries the rate *)
Theorem C97_network : forall rates : list Q, exists net, logistic_network rates = (net, Ok tt) /\ nodes net = zrange 0 (Z.of_nat (length rates)) /\ net_rot net = None /\
  forall i r, nth_error rates i = Some r -> in_edges net (Z.of_nat i) = Ok [(Z.of_nat i, [[("growth_rate", r)]])].
Proof.
  intros rates. unfold logistic_network, disconnected, enumerate. set (n0 := init_network _).
  destruct (add_loops rates 0 n0) as (n' & E & Hn & Hrot & Hk & _).
  - intros j Hj. apply init_network_node. lia.
  - exists n'. split; [assumption|]. split; [rewrite Hn; unfold nodes, n0, init_network, dkeys; cbn [net_nodes]; rewrite map_map; apply map_id|].
    split; [rewrite Hrot; reflexivity|]. intros i r Ei. unfold in_edges. pose proof (Hk i r Ei) as Ed. cbn [Nat.add] in Ed. rewrite Ed. reflexivity.
Qed.
Print Assumptions C97_network.

(** ** The map [x -> r x (1 - x)] *)
Section Orbit.
  Variables (r x0 : Q).
  Variable x : nat -> Q.
  Hypothesis x_0 : x 0%nat = x0.
  Hypothesis x_S : forall k, x (S k) = (r * x k * (1 - x k))%Q.

  Lemma quarter y : (y * (1 - y) <= 1 # 4)%Q.
  Proof. assert (Hq : (0 <= (y - (1 # 2)) * (y - (1 # 2)))%Q) by (destruct (Qlt_le_dec (y - (1 # 2)) 0); nra). lra. Qed.

  Lemma orbit_unit : (0 <= r <= 4)%Q -> (0 <= x0 <= 1)%Q -> forall k, (0 <= x k <= 1)%Q /\ (x (S k) <= r / 4)%Q.
  Proof.
    intros Hr Hx. assert (Hstep : forall k, (x (S k) <= r / 4)%Q).
    { intros k. rewrite x_S. pose proof (quarter (x k)) as Hq. assert (r * x k * (1 - x k) <= r * (1 # 4))%Q by (rewrite <- Qmult_assoc; rewrite !(Qmult_comm r); apply Qmult_le_compat_r; lra).
      unfold Qdiv. change (/ 4)%Q with (1 # 4)%Q. assumption. }
    assert (Hq4 : (r / 4 <= 1)%Q) by (unfold Qdiv; change (/ 4)%Q with (1 # 4)%Q; lra).
    induction k as [|k [IH _]]; (split; [|apply Hstep]); [rewrite x_0; assumption|].
    split; [|pose proof (Hstep k); lra]. rewrite x_S. apply Qmult_le_0_compat; [apply Qmult_le_0_compat|]; lra.
  Qed.

  Lemma orbit_dies : (0 <= r <= 1)%Q -> (0 <= x0 <= 1)%Q -> forall k, (x (S k) <= x k)%Q /\ (x k * inject_Z (Z.of_nat k + 1) <= 1)%Q.
  Proof.
    intros Hr Hx k. assert (Hu : forall k, (0 <= x k <= 1)%Q) by (intros j; apply (orbit_unit ltac:(lra) Hx j)).
    assert (Hle : forall k, (x (S k) <= x k * (1 - x k))%Q).
    { intros j. rewrite x_S. pose proof (Hu j) as Hj. assert (H0 : (0 <= x j * (1 - x j))%Q) by (apply Qmult_le_0_compat; lra).
      assert (H1 : (0 <= (1 - r) * (x j * (1 - x j)))%Q) by (apply Qmult_le_0_compat; lra). lra. }
    split; [pose proof (Hle k); pose proof (Hu k); nra|]. induction k as [|k IH]; [rewrite x_0; change (inject_Z (Z.of_nat 0 + 1)) with 1%Q; lra|].
    rewrite Nat2Z.inj_succ. unfold Z.succ. rewrite !inject_Z_plus in *. set (m := inject_Z (Z.of_nat k)) in *. change (inject_Z 1) with 1%Q in *.
    assert (Hm : (0 <= m)%Q) by (unfold m; change 0%Q with (inject_Z 0); rewrite <- Zle_Qle; lia).
    apply Qle_trans with (x k * (1 - x k) * (m + 1 + 1))%Q; [apply Qmult_le_compat_r; [apply Hle|lra]|].
    pose proof (Hu k) as [Hk0 _]. set (y := x k) in *. clearbody y m. clear - IH Hm Hk0.
    (* 1 - y (1 - y) (m + 2) = (1 - y)^2 + y (1 - (m+1) y) + ... *)
    assert (H1 : (0 <= y * (1 - y * (m + 1)))%Q) by (apply Qmult_le_0_compat; lra).
    assert (H2 : (0 <= (1 - y * (m + 1)) * (1 - y * (m + 1)))%Q) by (apply Qmult_le_0_compat; lra).
    destruct (Qlt_le_dec m 1) as [Hlt|Hge].
    - pose proof (quarter y). assert (y * (1 - y) * (m + 1 + 1) <= (1 # 4) * (m + 1 + 1))%Q by (apply Qmult_le_compat_r; lra). lra.
    - (* y (1 - y) increases up to 1/2 >= 1/(m+1) *)
      assert (H3 : (0 <= (1 - y * (m + 1)) * (m - y * (m + 1)))%Q) by (apply Qmult_le_0_compat; lra).
      assert (E : (((1 + m) * (1 + m)) * (1 - y * (1 - y) * (m + 1 + 1)) == 1 + (m + 2) * ((1 - y * (m + 1)) * (m - y * (m + 1))))%Q) by ring.
      destruct (Qlt_le_dec (1 - y * (1 - y) * (m + 1 + 1)) 0) as [Hn|Hp]; [exfalso|lra].
      assert (H4 : (0 <= (m + 2) * ((1 - y * (m + 1)) * (m - y * (m + 1))))%Q) by (apply Qmult_le_0_compat; lra).
      assert (H5 : ((1 + m) * (1 + m) * (1 - y * (1 - y) * (m + 1 + 1)) <= 0)%Q).
      { assert (0 <= (1 + m) * (1 + m))%Q by (apply Qmult_le_0_compat; lra). nra. }
      lra.
  Qed.

  Lemma orbit_geometric : (0 <= r)%Q -> (0 <= x0 <= 1)%Q -> (r <= 4)%Q -> forall k, (x k <= r ^ Z.of_nat k * x0)%Q.
  Proof.
    intros Hr Hx Hr4 k. assert (Hu : forall k, (0 <= x k <= 1)%Q) by (intros j; apply (orbit_unit ltac:(lra) Hx j)).
    induction k as [|k IH]; [rewrite x_0; change (r ^ Z.of_nat 0)%Q with 1%Q; lra|]. rewrite x_S, Nat2Z.inj_succ. unfold Z.succ. 
    assert (Ep : (r ^ (Z.of_nat k + 1) == r ^ Z.of_nat k * r)%Q).
    { destruct (Qeq_dec r 0) as [E|E]; [|rewrite Qpower_plus by assumption; reflexivity]. rewrite E. rewrite Qmult_0_r. apply Qpower_0. lia. }
    rewrite Ep. pose proof (Hu k) as Hk. assert (H0 : (r * x k * (1 - x k) <= r * x k)%Q) by (assert (0 <= r * x k)%Q by (apply Qmult_le_0_compat; lra); nra). 
    assert (H1 : (r * x k <= r * (r ^ Z.of_nat k * x0))%Q) by (rewrite !(Qmult_comm r); apply Qmult_le_compat_r; lra). lra.
  Qed.

  (** the equilibrium [1 - 1/r] and the distance to it *)
  Lemma orbit_gap : ~ (r == 0)%Q -> forall k, (x (S k) - (1 - 1 / r) == (1 - r * x k) * (x k - (1 - 1 / r)))%Q.
  Proof. intros Hr k. rewrite x_S. field. assumption. Qed.

  Lemma orbit_settles_above : (1 <= r <= 2)%Q -> (1 - 1 / r <= x0 <= 1 # 2)%Q -> forall k, (1 - 1 / r <= x k <= 1 # 2)%Q /\ (x k - (1 - 1 / r) <= (2 - r) ^ Z.of_nat k * (x0 - (1 - 1 / r)))%Q.
  Proof.
    intros Hr Hx. set (p := (1 - 1 / r)%Q) in *. assert (Hr0 : ~ (r == 0)%Q) by lra. assert (Erp : (r * p == r - 1)%Q) by (unfold p; field; assumption).
    induction k as [|k [IHb IH]]; [rewrite x_0; split; [assumption|change ((2 - r) ^ Z.of_nat 0)%Q with 1%Q; lra]|].
    pose proof (orbit_gap Hr0 k) as Hg. fold p in Hg. set (y := x k) in *. 
    assert (Hf : (0 <= 1 - r * y <= 2 - r)%Q) by (split; nra).
    assert (Hd : (0 <= y - p)%Q) by lra.
    assert (Hle : (x (S k) - p <= (2 - r) * (y - p))%Q) by (rewrite Hg; apply Qmult_le_compat_r; lra).
    assert (Hge : (0 <= x (S k) - p)%Q) by (rewrite Hg; apply Qmult_le_0_compat; lra).
    split.
    - split; [lra|]. rewrite x_S. fold y. pose proof (quarter y) as Hq. assert (0 <= y * (1 - y))%Q by (assert (0 <= p)%Q by nra; apply Qmult_le_0_compat; lra). nra.
    - rewrite Nat2Z.inj_succ. unfold Z.succ.
      assert (Ep : ((2 - r) ^ (Z.of_nat k + 1) == (2 - r) ^ Z.of_nat k * (2 - r))%Q).
      { destruct (Qeq_dec (2 - r) 0) as [E|E]; [|rewrite Qpower_plus by assumption; reflexivity]. rewrite E, Qmult_0_r. apply Qpower_0. lia. }
      rewrite Ep. assert (Hm : ((2 - r) * (y - p) <= (2 - r) * ((2 - r) ^ Z.of_nat k * (x0 - p)))%Q) by (rewrite !(Qmult_comm (2 - r)); apply Qmult_le_compat_r; lra). lra.
  Qed.

  Lemma Qabs_le_iff a b : (- b <= a <= b)%Q <-> (Qabs a <= b)%Q.
  Proof. rewrite Qabs_Qle_condition. reflexivity. Qed.

  Lemma orbit_settles_around : (2 <= r)%Q -> (r * r <= 8)%Q -> (1 # 2 <= x0 <= r / 4)%Q ->
    forall k, (1 # 2 <= x k <= r / 4)%Q /\ (Qabs (x k - (1 - 1 / r)) <= (r * r / 4 - 1) ^ Z.of_nat k * Qabs (x0 - (1 - 1 / r)))%Q.
  Proof.
    intros Hr Hr8 Hx. assert (Hr3 : (r < 3)%Q) by nra. assert (Hr0 : ~ (r == 0)%Q) by lra. set (p := (1 - 1 / r)%Q) in *.
    assert (E4 : forall z, (z / 4 == z * (1 # 4))%Q) by (intros z; unfold Qdiv; reflexivity).
    set (q := (r * r / 4 - 1)%Q). assert (Hq : (0 <= q <= 1)%Q) by (unfold q; rewrite E4; split; nra).
    induction k as [|k [IHb IH]]; [rewrite x_0; split; [assumption|change (q ^ Z.of_nat 0)%Q with 1%Q; lra]|].
    pose proof (orbit_gap Hr0 k) as Hg. fold p in Hg. set (y := x k) in *. rewrite E4 in IHb.
    assert (Hf : (- q <= 1 - r * y <= q)%Q) by (unfold q; rewrite E4; split; nra).
    split.
    - rewrite x_S. fold y. rewrite E4. pose proof (quarter y) as Hqy. split; [|nra].
      (* decreasing beyond 1/2: the least value is at r/4 *)
      assert (H1 : (0 <= (r * (1 # 4) - y) * (r * (1 # 4) + y - 1))%Q) by (apply Qmult_le_0_compat; lra).
      assert (H2 : ((r * (1 # 4)) * (1 - r * (1 # 4)) <= y * (1 - y))%Q) by lra.
      assert (H3 : (1 # 2 <= r * ((r * (1 # 4)) * (1 - r * (1 # 4))))%Q).
      { assert (E : (r * (r * (1 # 4) * (1 - r * (1 # 4))) - (1 # 2) == (1 # 16) * ((r - 2) * (4 + 2 * r - r * r)))%Q) by ring.
        assert (0 <= (r - 2) * (4 + 2 * r - r * r))%Q by (apply Qmult_le_0_compat; nra). lra. }
      assert (H4 : (r * (r * (1 # 4) * (1 - r * (1 # 4))) <= r * (y * (1 - y)))%Q) by (rewrite !(Qmult_comm r); apply Qmult_le_compat_r; lra). lra.
    - rewrite Hg, Qabs_Qmult, Nat2Z.inj_succ. unfold Z.succ.
      assert (Ep : (q ^ (Z.of_nat k + 1) == q ^ Z.of_nat k * q)%Q).
      { destruct (Qeq_dec q 0) as [E|E]; [|rewrite Qpower_plus by assumption; reflexivity]. rewrite E, Qmult_0_r. apply Qpower_0. lia. }
      rewrite Ep. apply Qabs_le_iff in Hf. pose proof (Qabs_nonneg (y - p)). pose proof (Qabs_nonneg (1 - r * y)).
      apply Qle_trans with (q * Qabs (y - p))%Q; [apply Qmult_le_compat_r; assumption|].
      assert (Hm : (q * Qabs (y - p) <= q * (q ^ Z.of_nat k * Qabs (x0 - p)))%Q) by (rewrite !(Qmult_comm q); apply Qmult_le_compat_r; lra). lra.
  Qed.

  (** a negative population runs away *)
  Lemma orbit_negative j : (0 <= r)%Q -> (x j < 0)%Q -> forall k, (x (j + k)%nat <= r ^ Z.of_nat k * x j)%Q.
  Proof.
    intros Hr Hx. induction k as [|k IH]; [rewrite Nat.add_0_r; change (r ^ Z.of_nat 0)%Q with 1%Q; lra|]. rewrite Nat.add_succ_r, x_S, Nat2Z.inj_succ. unfold Z.succ.
    assert (Ep : (r ^ (Z.of_nat k + 1) == r ^ Z.of_nat k * r)%Q).
    { destruct (Qeq_dec r 0) as [E|E]; [|rewrite Qpower_plus by assumption; reflexivity]. rewrite E, Qmult_0_r. apply Qpower_0. lia. }
    rewrite Ep. assert (Hp : (0 <= r ^ Z.of_nat k)%Q) by (apply Qpower_0_le || apply Qpower_pos; assumption). assert (Hneg : (x (j + k)%nat <= 0)%Q) by nra.
    assert (H1 : (r * x (j + k)%nat * (1 - x (j + k)%nat) <= r * x (j + k)%nat)%Q).
    { assert (H2 : (0 <= r * - x (j + k)%nat)%Q) by (apply Qmult_le_0_compat; lra). nra. }
    assert (H3 : (r * x (j + k)%nat <= r * (r ^ Z.of_nat k * x j))%Q) by (rewrite !(Qmult_comm r); apply Qmult_le_compat_r; lra). lra.
  Qed.
End Orbit.

(** ** The runs *)
Section Theorems.
  Context {U I BA BN : Type}.
  Notation env := (env Z Q Q BA BN).
  Notation ctx := (node_ctx Z Q Q I).
  Notation args := (@args Z Q Q U I).

  (** the initial conditions [c] give [m] nodes a population *)
  Definition populated (W : env) (m : Z) (c : cond Z Q) : Prop := Z.of_nat (length (to_dict W c)) = m /\ forall v, 0 <= v < m -> exists a, dget (to_dict W c) v = Some a.

  (** C97: every node follows the logistic map with its own growth rate, whatever the others do *)
  Theorem C97_step : forall (W : env) fuel (u0 : U) rates c T (g : args),
    static g (stateless logistic_rule) -> 1 <= T -> (Z.to_nat T <= fuel)%nat -> populated W (Z.of_nat (length rates)) c ->
    exists net hs, logistic_network rates = (net, Ok tt) /\ runs W fuel u0 net c T g hs /\ nth_error hs 0 = Some (to_dict W c) /\
      Forall (full (Z.of_nat (length rates))) hs /\
      forall k S S' i r, nth_error hs k = Some S -> nth_error hs (Datatypes.S k) = Some S' -> nth_error rates i = Some r ->
        val S' (Z.of_nat i) = (r * val S (Z.of_nat i) * (1 - val S (Z.of_nat i)))%Q.
  Proof.
    intros W fuel u0 rates c T g Hst HT Hf [Hlen Hc]. destruct (C97_network rates) as (net & E & Hnodes & Hrot & Hin). exists net. set (m := Z.of_nat (length rates)) in *.
    assert (Hnd : forall v, In v (nodes net) <-> 0 <= v < m) by (intros v; rewrite Hnodes; apply in_zrange).
    assert (Hat : forall v, 0 <= v < m -> exists i r, v = Z.of_nat i /\ nth_error rates i = Some r).
    { intros v Hv. exists (Z.to_nat v). destruct (nth_error rates (Z.to_nat v)) as [r|] eqn:Er; [exists r; split; [lia|reflexivity]|]. apply nth_error_None in Er. lia. }
    set (F := fun (v : Z) (s : Z -> Q) => (nth (Z.to_nat v) rates 0 * s v * (1 - s v))%Q).
    destruct (field_run W fuel u0 net c T g logistic_rule F (val (to_dict W c)) Hst) as (hs & Hrun & Hz & _ & Hk); try assumption.
    - rewrite Hnodes. apply NoDup_zrange.
    - assert (El : length (nodes net) = net_len net) by (unfold nodes, dkeys, net_len; apply map_length). rewrite <- El, Hnodes, length_zrange. lia.
    - intros v Hv. apply Hnd in Hv. destruct (Hat v Hv) as (i & r & -> & Er). exists [(Z.of_nat i, [[("growth_rate", r)]])], [Z.of_nat i]. split; [apply Hin; assumption|].
      split; [unfold nbrs_of; rewrite Hrot; eexists; split; [apply Hin; exact Er|reflexivity]|]. intros w [<-|[]]. apply Hnd. assumption.
    - intros v Hv. apply Hnd in Hv. destruct (Hc v Hv) as (a & Ea). unfold val. rewrite Ea. reflexivity.
    - intros S s t past v x Hs Hv Hx. assert (Hv' := proj1 (Hnd v) Hv). destruct (Hat v Hv') as (i & r & -> & Er). destruct Hx as [El _ _ _ _ Econn Ecur _ _]. rewrite (Hin i r Er) in Econn. injection Econn as Econn.
      rewrite (Hs _ Hv) in Ecur. injection Ecur as Ecur. unfold logistic_rule, edge_data. rewrite El, <- Econn, <- Ecur. cbn [dget]. destruct (eqd (Z.of_nat i) (Z.of_nat i)) as [_|Hne]; [|contradiction].
      cbn. unfold F. rewrite Nat2Z.id, (nth_error_nth _ _ 0%Q Er). reflexivity.
    - exists hs. split; [assumption|]. split; [assumption|]. split; [assumption|].
      assert (Hv : forall k S v, nth_error hs k = Some S -> 0 <= v < m -> dget S v = Some (field_state F k (val (to_dict W c)) v)) by (intros k S v Ek Hv; apply (Hk k S Ek), Hnd; assumption).
      split.
      + apply Forall_forall. intros S HS. apply In_nth_error in HS. destruct HS as [k Ek]. intros v Hvm. unfold val. rewrite (Hv k S v Ek Hvm). reflexivity.
      + intros k S S' i r Ek Ek' Er. assert (Hi : 0 <= Z.of_nat i < m) by (assert (i < length rates)%nat by (apply nth_error_Some; congruence); unfold m; lia).
        unfold val. rewrite (Hv k S _ Ek Hi), (Hv _ S' _ Ek' Hi). rewrite field_state_S. unfold F at 1. rewrite Nat2Z.id, (nth_error_nth _ _ 0%Q Er). reflexivity.
  Qed.

  (** an orbit through all time that agrees with the recorded states *)
  Lemma orbit_of r x0 : exists x : nat -> Q, x 0%nat = x0 /\ forall k, x (Datatypes.S k) = (r * x k * (1 - x k))%Q.
  Proof. exists (fun k => Nat.iter k (fun x => r * x * (1 - x))%Q x0). split; reflexivity. Qed.

  (** C97: what becomes of the population of node [i], growth rate [r], initial population [x0]; [p] is the equilibrium 1 - 1/r *)
  Theorem C97_logistic : forall (W : env) fuel (u0 : U) rates c T (g : args),
    static g (stateless logistic_rule) -> 1 <= T -> (Z.to_nat T <= fuel)%nat -> populated W (Z.of_nat (length rates)) c ->
    exists net hs, logistic_network rates = (net, Ok tt) /\ runs W fuel u0 net c T g hs /\
      forall i r x0, nth_error rates i = Some r -> dget (to_dict W c) (Z.of_nat i) = Some x0 -> forall k S, nth_error hs k = Some S ->
        exists x, dget S (Z.of_nat i) = Some x /\
        (let p := (1 - 1 / r)%Q in
         ((0 <= r <= 4)%Q -> (0 <= x0 <= 1)%Q -> (0 <= x <= 1)%Q /\ (x <= r ^ Z.of_nat k * x0)%Q) /\
         ((0 <= r <= 1)%Q -> (0 <= x0 <= 1)%Q -> (x * inject_Z (Z.of_nat k + 1) <= 1)%Q) /\
         ((1 <= r <= 2)%Q -> (p <= x0 <= 1 # 2)%Q -> (0 <= x - p <= (2 - r) ^ Z.of_nat k * (x0 - p))%Q) /\
         ((2 <= r)%Q -> (r * r <= 8)%Q -> (1 # 2 <= x0 <= r / 4)%Q -> (Qabs (x - p) <= (r * r / 4 - 1) ^ Z.of_nat k * Qabs (x0 - p))%Q) /\
         ((0 < r)%Q -> (x0 == p)%Q -> (x == p)%Q) /\
         ((4 < r)%Q -> (x0 == 1 # 2)%Q -> (2 <= k)%nat -> (x <= r ^ (Z.of_nat k - 2) * (r * (r / 4) * (1 - r / 4)) < 0)%Q)).
  Proof.
    intros W fuel u0 rates c T g Hst HT Hf Hc. destruct (C97_step W fuel u0 rates c T g Hst HT Hf Hc) as (net & hs & E & Hrun & Hz & Hfull & Hstep). exists net, hs.
    split; [assumption|]. split; [assumption|]. intros i r x0 Er Ex0 k S Ek.
    assert (Hi : 0 <= Z.of_nat i < Z.of_nat (length rates)) by (assert (i < length rates)%nat by (apply nth_error_Some; congruence); lia).
    destruct (orbit_of r x0) as (x & X0 & XS).
    assert (Hx : forall k S, nth_error hs k = Some S -> val S (Z.of_nat i) = x k).
    { apply (along hs (to_dict W c) (fun k S => val S (Z.of_nat i) = x k)); [assumption|unfold val; rewrite Ex0, X0; reflexivity|].
      intros j S1 S2 Ej Ej' IH. rewrite (Hstep j S1 S2 i r Ej Ej' Er), IH, XS. reflexivity. }
    exists (x k). split; [rewrite (full_nth _ _ _ _ Hfull Ek _ Hi); rewrite (Hx k S Ek); reflexivity|]. intros p.
    split; [intros Hr H0; split; [apply (orbit_unit r x0 x X0 XS Hr H0 k)|apply (orbit_geometric r x0 x X0 XS); [apply Hr|apply H0|apply Hr]]|].
    split; [intros Hr H0; apply (orbit_dies r x0 x X0 XS Hr H0 k)|].
    split; [intros Hr H0; destruct (orbit_settles_above r x0 x X0 XS Hr H0 k) as [[Ha _] Hb]; fold p in Ha, Hb; split; lra|].
    split; [intros Hr Hr8 H0; apply (orbit_settles_around r x0 x X0 XS Hr Hr8 H0 k)|].
    split.
    - intros Hr H0. clear Ek. induction k as [|k IH]; [rewrite X0; assumption|].
      pose proof (orbit_gap r x XS ltac:(lra) k) as Hg. fold p in Hg. rewrite IH in Hg. ring_simplify in Hg. lra.
    - intros Hr H0 H2. clear Ek. assert (E1 : (x 1%nat == r / 4)%Q) by (rewrite XS, X0, H0; field). assert (E2 : (x 2%nat == r * (r / 4) * (1 - r / 4))%Q) by (rewrite XS, E1; reflexivity).
      assert (Hn : (r * (r / 4) * (1 - r / 4) < 0)%Q).
      { assert (E4 : (r / 4 == r * (1 # 4))%Q) by (unfold Qdiv; reflexivity). rewrite E4. assert (0 < r * (r * (1 # 4)))%Q by nra. nra. }
      assert (Hp : (0 < r ^ (Z.of_nat k - 2))%Q) by (apply Qpower_0_lt; lra).
      split; [|nra]. pose proof (orbit_negative r x XS 2 ltac:(lra) ltac:(rewrite E2; exact Hn) (k - 2)) as Hk. replace (2 + (k - 2))%nat with k in Hk by lia.
      rewrite E2 in Hk. replace (Z.of_nat k - 2) with (Z.of_nat (k - 2)) by lia. exact Hk.
  Qed.
End Theorems.
Print Assumptions C97_step.
Print Assumptions C97_logistic.

(** ** Examples: logistic_map_demo.py *)
Definition Wl : env Z Q Q unit unit := mkEnv Z.of_nat Some (fun _ => 0%Q) (fun _ => Err Unmodelled) (fun _ => Err Unmodelled) (fun _ => Err Unmodelled) (fun _ => Err Unmodelled).
Definition largs : @args Z Q Q unit unit := mkArgs (Some (stateless logistic_rule)) None None [] ACTIVITIES_FIRST true false true false false None.
Definition demo_rates : list Q := [1 # 2; 1; 3 # 2; 2; 5 # 2; 3; 7 # 2]%Q.
Definition demo_start : cond Z Q := CList (repeat (1 # 2)%Q 7).

(** the hypotheses hold, and the clauses of the theorem apply to the seven nodes: rates 1/2 and 1 die out, 3/2 and 2 settle from
    above, 5/2 oscillates towards 3/5, all stay between 0 and 1 *)
Example C97_example :
  static largs (stateless logistic_rule) /\ populated Wl (Z.of_nat (length demo_rates)) demo_start /\
  exists net hs, logistic_network demo_rates = (net, Ok tt) /\ runs Wl 20 tt net demo_start 20 largs hs /\
    forall k S, nth_error hs k = Some S ->
      (forall v, 0 <= v < 7 -> exists x, dget S v = Some x /\ (0 <= x <= 1)%Q) /\
      (exists x, dget S 0 = Some x /\ (x <= (1 # 2) ^ Z.of_nat k * (1 # 2))%Q) /\
      (exists x, dget S 1 = Some x /\ (x * inject_Z (Z.of_nat k + 1) <= 1)%Q) /\
      (exists x, dget S 2 = Some x /\ (0 <= x - (1 # 3) <= (1 # 2) ^ Z.of_nat k * (1 # 6))%Q) /\
      (exists x, dget S 3 = Some x /\ (x == 1 # 2)%Q) /\
      (exists x, dget S 4 = Some x /\ (Qabs (x - (3 # 5)) <= (9 # 16) ^ Z.of_nat k * (1 # 10))%Q).
Proof.
  assert (Hst : static largs (stateless logistic_rule)) by (repeat split).
  assert (Hpop : populated Wl (Z.of_nat (length demo_rates)) demo_start).
  { split; [reflexivity|]. intros v Hv. cbn [length demo_rates] in Hv. assert (v = 0 \/ v = 1 \/ v = 2 \/ v = 3 \/ v = 4 \/ v = 5 \/ v = 6) as [->|[->|[->|[->|[->|[->| ->]]]]]] by lia; eexists; reflexivity. }
  split; [exact Hst|]. split; [exact Hpop|].
  destruct (C97_logistic Wl 20 tt demo_rates demo_start 20 largs Hst ltac:(lia) ltac:(lia) Hpop) as (net & hs & E & Hrun & H). exists net, hs. split; [exact E|]. split; [exact Hrun|].
  intros k S Ek. assert (Hn : forall i r, nth_error demo_rates i = Some r -> dget (to_dict Wl demo_start) (Z.of_nat i) = Some (1 # 2)%Q) by (intros i r Er; do 7 (destruct i as [|i]; [reflexivity|]); destruct i; discriminate).
  split; [|split; [|split; [|split; [|split]]]].
  - intros v Hv. destruct (nth_error demo_rates (Z.to_nat v)) as [r|] eqn:Er; [|apply nth_error_None in Er; cbn [length demo_rates] in Er; lia].
    destruct (H _ _ _ Er (Hn _ _ Er) k S Ek) as (x & Ex & Hx & _). exists x. rewrite Z2Nat.id in Ex by lia. split; [exact Ex|]. apply Hx; [|lra].
    clear - Er. apply nth_error_In in Er. cbn in Er. intuition subst; lra.
  - destruct (H 0%nat (1 # 2)%Q (1 # 2)%Q eq_refl eq_refl k S Ek) as (x & Ex & Hx & _). exists x. split; [exact Ex|]. apply Hx; lra.
  - destruct (H 1%nat (1)%Q (1 # 2)%Q eq_refl eq_refl k S Ek) as (x & Ex & _ & Hx & _). exists x. split; [exact Ex|]. apply Hx; lra.
  - destruct (H 2%nat (3 # 2)%Q (1 # 2)%Q eq_refl eq_refl k S Ek) as (x & Ex & _ & _ & Hx & _). exists x. split; [exact Ex|].
    assert (Ep : (1 - 1 / (3 # 2) == 1 # 3)%Q) by reflexivity. cbv zeta in Hx. rewrite Ep in Hx. specialize (Hx ltac:(lra) ltac:(lra)).
    assert (E2 : (2 - (3 # 2) == 1 # 2)%Q) by reflexivity. rewrite E2 in Hx. assert (E3 : ((1 # 2) - (1 # 3) == 1 # 6)%Q) by reflexivity. rewrite E3 in Hx. exact Hx.
  - destruct (H 3%nat (2)%Q (1 # 2)%Q eq_refl eq_refl k S Ek) as (x & Ex & _ & _ & _ & _ & Hx & _). exists x. split; [exact Ex|]. cbv zeta in Hx.
    assert (Ep : (1 - 1 / 2 == 1 # 2)%Q) by reflexivity. rewrite Ep in Hx. apply Hx; lra.
  - destruct (H 4%nat (5 # 2)%Q (1 # 2)%Q eq_refl eq_refl k S Ek) as (x & Ex & _ & _ & _ & Hx & _). exists x. split; [exact Ex|]. cbv zeta in Hx.
    assert (Ep : (1 - 1 / (5 # 2) == 3 # 5)%Q) by reflexivity. rewrite Ep in Hx. assert (E2 : ((5 # 2) * (5 # 2) / 4 - 1 == 9 # 16)%Q) by reflexivity. rewrite E2 in Hx.
    assert (E3 : (Qabs ((1 # 2) - (3 # 5)) == 1 # 10)%Q) by reflexivity. rewrite E3 in Hx. apply Hx; [lra|vm_compute; discriminate|]. assert (E4 : ((5 # 2) / 4 == 5 # 8)%Q) by reflexivity. rewrite E4. lra.
Qed.

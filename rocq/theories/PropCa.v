(** Property theorems for cellular automata on fixed networks (C80, C81). *)
From Verif Require Import Py PyFacts ListFacts Network Topology TopologySpec Evolve EvolveSpec EvolveProofs EvolveStatic CaSpec CaRun CaNets PropEvolve.
Open Scope string_scope.
Open Scope list_scope.
Open Scope Z_scope.

Section Theorems.
  Context {L V A U I BA BN : Type} `{EqD L} `{EqD A}.
  Notation env := (env L V A BA BN).
  Notation network := (network L V).
  Notation ctx := (node_ctx L V A I).
  Notation args := (@args L V A U I).

  (** C80: the states are the iterates of the textbook global map *)
  Theorem C80_global_map : forall (W : env) fuel (u0 : U) (n : network) (nb : L -> list L) c T (g : args) h f (P : A -> Prop) (s : L -> A),
    static g (stateless h) -> NoDup (nodes n) -> closed n -> (forall v, In v (nodes n) -> nbrs_of n v (nb v)) ->
    1 <= T -> (Z.to_nat T <= fuel)%nat -> length (to_dict W c) = net_len n ->
    (forall v, In v (nodes n) -> dget (to_dict W c) v = Some (s v) /\ P (s v)) ->
    (forall x : ctx, In (x_label x) (nodes n) -> P (x_cur x) -> Forall P (x_nacts x) -> length (x_nacts x) = length (nb (x_label x)) ->
       h x = Ok (f (x_label x) (x_cur x) (x_nacts x)) /\ P (f (x_label x) (x_cur x) (x_nacts x))) ->
    exists hs, runs W fuel u0 n c T g hs /\ nth_error hs 0 = Some (to_dict W c) /\
      forall k S v, nth_error hs k = Some S -> In v (nodes n) -> dget S v = Some (ca_state nb f k s v).
  Proof.
    intros W fuel u0 n nb c T g h f P s Hst Hnd Hcl Hnb HT Hf Hlen Hs Hh.
    destruct (ca_run W fuel u0 n nb c T g h f P s Hst Hnd HT Hf Hlen Hcl Hnb (fun v Hv => proj1 (Hs v Hv)) (fun v Hv => proj2 (Hs v Hv)) Hh) as (uf & traj & hs & E & El & Hshow & Hz & _ & Hk).
    exists hs. split; [exists uf, traj; auto|]. split; [assumption|]. intros k S v Ek Hv. apply (Hk k S Ek v Hv).
  Qed.

  (** the configuration an initial condition shows *)
  Lemma config_of (W : env) (n : network) c (P : A -> Prop) : nodes n <> [] -> (forall v, In v (nodes n) -> exists a, dget (to_dict W c) v = Some a /\ P a) ->
    exists s : L -> A, forall v, In v (nodes n) -> dget (to_dict W c) v = Some (s v) /\ P (s v).
  Proof.
    intros Hne Hc. destruct (nodes n) as [|v0 l] eqn:E; [congruence|]. destruct (Hc v0 (or_introl eq_refl)) as (a0 & _).
    exists (fun v => match dget (to_dict W c) v with Some a => a | None => a0 end). intros v Hv. destruct (Hc v Hv) as (a & Ea & Pa). rewrite Ea. auto.
  Qed.

  Lemma nb_of (n : network) : closed n -> exists nb : L -> list L, forall v, In v (nodes n) -> nbrs_of n v (nb v).
  Proof.
    intros Hcl. exists (fun v => match net_rot n with Some r => match dget r v with Some l => l | None => [] end | None => match in_edges n v with Ok inc => map fst inc | Err _ => [] end end).
    intros v Hv. destruct (Hcl v Hv) as (conn & l & Ei & Hl & _). unfold nbrs_of in *. destruct (net_rot n); [rewrite Hl; reflexivity|]. exists conn. rewrite Ei. auto.
  Qed.

  Lemma local_run (W : env) fuel (u0 : U) (n : network) nb c T (g : args) h (P : A -> Prop) s :
    static g (stateless h) -> NoDup (nodes n) -> closed n -> (forall v, In v (nodes n) -> nbrs_of n v (nb v)) -> 1 <= T -> (Z.to_nat T <= fuel)%nat -> length (to_dict W c) = net_len n ->
    (forall v, In v (nodes n) -> dget (to_dict W c) v = Some (s v) /\ P (s v)) -> computes nb (fun v => In v (nodes n)) P h (fun_of h) ->
    exists hs, runs W fuel u0 n c T g hs /\ nth_error hs 0 = Some (to_dict W c) /\ (forall k S, nth_error hs (Datatypes.S k) = Some S -> map fst S = nodes n) /\
      forall k S v, nth_error hs k = Some S -> In v (nodes n) -> dget S v = Some (ca_state nb (fun_of h) k s v) /\ P (ca_state nb (fun_of h) k s v).
  Proof.
    intros Hst Hnd Hcl Hnb HT1 Hf1 Hl1 Hs1 Hcomp.
    destruct (ca_run W fuel u0 n nb c T g h (fun_of h) P s Hst Hnd HT1 Hf1 Hl1 Hcl Hnb (fun v Hv => proj1 (Hs1 v Hv)) (fun v Hv => proj2 (Hs1 v Hv)) Hcomp) as (uf & traj & hs & E & El & Hshow & Hz & Hkeys & Hk).
    exists hs. split; [exists uf, traj; auto|]. split; [assumption|]. split; [assumption|]. intros k S v Ek Hv. split; [apply (Hk k S Ek v Hv)|].
    clear Ek S. revert v Hv. induction k as [|k IH]; intros v Hv; [apply Hs1; assumption|]. rewrite ca_state_S. unfold ca_next.
    apply (Hcomp (mkCtx v 0 [] [] (map (ca_state nb (fun_of h) k s) (nb v)) [] (ca_state nb (fun_of h) k s v) None None)); cbn [x_label x_cur x_nacts]; [assumption|apply IH; assumption| |apply map_length].
    apply Forall_forall. intros a Ha. apply in_map_iff in Ha. destruct Ha as (w & <- & Hw). apply IH. destruct (Hcl v Hv) as (conn & l & _ & Hl & Hi). apply Hi. rewrite <- (nbrs_fun n v _ _ (Hnb v Hv) Hl). assumption.
  Qed.

  (** a run can be cut anywhere: starting again from a recorded state gives the rest of the run *)
  Theorem C80_restart : forall (W : env) fuel (u0 u0' : U) (n : network) c T (g : args) h (P : A -> Prop),
    static g (stateless h) -> NoDup (nodes n) -> nodes n <> [] -> closed n -> 1 <= T -> (Z.to_nat T <= fuel)%nat -> length (to_dict W c) = net_len n ->
    (forall v, In v (nodes n) -> exists a, dget (to_dict W c) v = Some a /\ P a) ->
    local_rule h -> (forall v l, In v (nodes n) -> nbrs_of n v l -> safe_rule P (length l) h) ->
    exists hs, runs W fuel u0 n c T g hs /\
      forall k S c', nth_error hs k = Some S -> to_dict W c' = S -> runs W fuel u0' n c' (T - Z.of_nat k) g (skipn k hs).
  Proof.
    intros W fuel u0 u0' n c T g h P Hst Hnd Hne Hcl HT Hf Hlen Hc Hloc Hsafe.
    destruct (nb_of n Hcl) as [nb Hnb]. destruct (config_of W n c P Hne Hc) as [s Hs].
    assert (Hcomp : computes nb (fun v => In v (nodes n)) P h (fun_of h)) by (apply local_computes; [assumption|]; intros v Hv; eapply Hsafe; eauto).
    destruct (local_run W fuel u0 n nb c T g h P s Hst Hnd Hcl Hnb HT Hf Hlen Hs Hcomp) as (hs & Hrun & Hz & Hkeys & Hk). exists hs. split; [assumption|].
    assert (Elen : Z.of_nat (length hs) = T) by (destruct Hrun as (? & ? & _ & El & _); exact El).
    intros k S c' Ek Ec. assert (Hkl : (k < length hs)%nat) by (apply nth_error_Some; congruence).
    assert (Hl' : length (to_dict W c') = net_len n).
    { rewrite Ec. destruct k as [|k]; [rewrite Hz in Ek; injection Ek as <-; assumption|]. rewrite <- (map_length fst), (Hkeys k S Ek). unfold nodes, dkeys, net_len. apply map_length. }
    destruct (local_run W fuel u0' n nb c' (T - Z.of_nat k) g h P (ca_state nb (fun_of h) k s) Hst Hnd Hcl Hnb ltac:(lia) ltac:(lia) Hl') as (hs' & Hrun' & Hz' & Hkeys' & Hk'); [intros v Hv; rewrite Ec; apply (Hk k S v Ek Hv)|assumption|].
    assert (E : skipn k hs = hs'); [|rewrite E; assumption].
    assert (Elen' : Z.of_nat (length hs') = T - Z.of_nat k) by (destruct Hrun' as (? & ? & _ & El & _); exact El).
    apply nth_error_ext. intros i. rewrite skipn_nth. destruct i as [|i]; [rewrite Nat.add_0_r, Ek, Hz', Ec; reflexivity|].
    replace (k + Datatypes.S i)%nat with (Datatypes.S (k + i)) by lia.
    destruct (nth_error hs (Datatypes.S (k + i))) as [S1|] eqn:E1; destruct (nth_error hs' (Datatypes.S i)) as [S2|] eqn:E2.
    - f_equal. pose proof (Hkeys _ _ E1) as K1. pose proof (Hkeys' _ _ E2) as K2. apply dict_ext; [unfold dkeys; congruence|unfold dkeys; rewrite K1; assumption|].
      intros v. destruct (in_dec eqd v (nodes n)) as [Hv|Hv].
      + destruct (Hk _ _ v E1 Hv) as [G1 _]. destruct (Hk' _ _ v E2 Hv) as [G2 _]. rewrite G1, G2. f_equal. rewrite <- ca_state_add. f_equal. lia.
      + assert (G1 : dget S1 v = None) by (apply dget_none; unfold dkeys; rewrite K1; assumption). assert (G2 : dget S2 v = None) by (apply dget_none; unfold dkeys; rewrite K2; assumption). congruence.
    - apply nth_error_None in E2. assert (Datatypes.S (k + i) < length hs)%nat by (apply nth_error_Some; congruence). lia.
    - apply nth_error_None in E1. assert (Datatypes.S i < length hs')%nat by (apply nth_error_Some; congruence). lia.
    - reflexivity.
  Qed.

  (** information travels one neighbour link per timestep: what node [v] does at time [k] depends only on the initial
      activities of the nodes within [k] links *)
  Theorem C80_light_cone : forall (W : env) fuel (u0 u0' : U) (n : network) nb c c' T (g : args) h (P : A -> Prop),
    static g (stateless h) -> NoDup (nodes n) -> nodes n <> [] -> closed n -> (forall v, In v (nodes n) -> nbrs_of n v (nb v)) ->
    1 <= T -> (Z.to_nat T <= fuel)%nat -> length (to_dict W c) = net_len n -> length (to_dict W c') = net_len n ->
    (forall v, In v (nodes n) -> exists a, dget (to_dict W c) v = Some a /\ P a) ->
    (forall v, In v (nodes n) -> exists a, dget (to_dict W c') v = Some a /\ P a) ->
    local_rule h -> (forall v, In v (nodes n) -> safe_rule P (length (nb v)) h) ->
    exists hs hs', runs W fuel u0 n c T g hs /\ runs W fuel u0' n c' T g hs' /\
      forall k S S' v, nth_error hs k = Some S -> nth_error hs' k = Some S' -> In v (nodes n) ->
        (forall w, within nb k v w -> dget (to_dict W c) w = dget (to_dict W c') w) -> dget S v = dget S' v.
  Proof.
    intros W fuel u0 u0' n nb c c' T g h P Hst Hnd Hne Hcl Hnb HT Hf Hlen Hlen' Hc Hc' Hloc Hsafe.
    destruct (config_of W n c P Hne Hc) as [s Hs]. destruct (config_of W n c' P Hne Hc') as [s' Hs'].
    assert (Hcomp : computes nb (fun v => In v (nodes n)) P h (fun_of h)) by (apply local_computes; assumption).
    destruct (local_run W fuel u0 n nb c T g h P s Hst Hnd Hcl Hnb HT Hf Hlen Hs Hcomp) as (hs & Hrun & Hz & Hkeys & Hk).
    destruct (local_run W fuel u0' n nb c' T g h P s' Hst Hnd Hcl Hnb HT Hf Hlen' Hs' Hcomp) as (hs' & Hrun' & Hz' & Hkeys' & Hk').
    exists hs, hs'. split; [assumption|]. split; [assumption|]. intros k S S' v E E' Hv Hag.
    rewrite (proj1 (Hk k S v E Hv)), (proj1 (Hk' k S' v E' Hv)). f_equal. apply ca_light_cone. intros w Hw.
    assert (Hwn : In w (nodes n)).
    { clear - Hw Hv Hcl Hnb. induction Hw as [|k v u w Hu Hw IH]; [assumption|]. apply IH. destruct (Hcl v Hv) as (conn & l & _ & Hl & Hi). apply Hi. rewrite <- (nbrs_fun n v _ _ (Hnb v Hv) Hl). assumption. }
    pose proof (Hag w Hw) as Ew. rewrite (proj1 (Hs w Hwn)), (proj1 (Hs' w Hwn)) in Ew. congruence.
  Qed.

  (** C81: a relabelling that respects the neighbourhoods carries runs to runs *)
  Theorem C81_symmetry : forall (W : env) fuel (u0 u0' : U) (n : network) nb c c' T (g : args) h (P : A -> Prop) (pi : L -> L),
    static g (stateless h) -> NoDup (nodes n) -> nodes n <> [] -> closed n -> (forall v, In v (nodes n) -> nbrs_of n v (nb v)) ->
    1 <= T -> (Z.to_nat T <= fuel)%nat -> length (to_dict W c) = net_len n -> length (to_dict W c') = net_len n ->
    (forall v, In v (nodes n) -> exists a, dget (to_dict W c) v = Some a /\ P a) ->
    (forall v, In v (nodes n) -> In (pi v) (nodes n)) -> (forall v, In v (nodes n) -> dget (to_dict W c') v = dget (to_dict W c) (pi v)) ->
    (uniform_rule h /\ (forall v, In v (nodes n) -> nb (pi v) = map pi (nb v)) \/
     symmetric_rule h /\ (forall v, In v (nodes n) -> Permutation (nb (pi v)) (map pi (nb v)))) ->
    (forall v, In v (nodes n) -> safe_rule P (length (nb v)) h) ->
    exists hs hs', runs W fuel u0 n c T g hs /\ runs W fuel u0' n c' T g hs' /\
      forall k S S' v, nth_error hs k = Some S -> nth_error hs' k = Some S' -> In v (nodes n) -> dget S' v = dget S (pi v).
  Proof.
    intros W fuel u0 u0' n nb c c' T g h P pi Hst Hnd Hne Hcl Hnb HT Hf Hlen Hlen' Hc Hpi Hcc Hsym Hsafe.
    destruct (config_of W n c P Hne Hc) as [s Hs].
    assert (Hloc : local_rule h).
    { destruct Hsym as [[Hu _]|[Hu _]]; intros x y E1 E2 E3; [apply Hu; assumption|apply Hu; [assumption|rewrite E3; reflexivity]]. }
    assert (Hcomp : computes nb (fun v => In v (nodes n)) P h (fun_of h)) by (apply local_computes; assumption).
    destruct (local_run W fuel u0 n nb c T g h P s Hst Hnd Hcl Hnb HT Hf Hlen Hs Hcomp) as (hs & Hrun & Hz & Hkeys & Hk).
    assert (Hs' : forall v, In v (nodes n) -> dget (to_dict W c') v = Some (s (pi v)) /\ P (s (pi v))) by (intros v Hv; rewrite (Hcc v Hv); apply Hs, Hpi; assumption).
    destruct (local_run W fuel u0' n nb c' T g h P (fun v => s (pi v)) Hst Hnd Hcl Hnb HT Hf Hlen' Hs' Hcomp) as (hs' & Hrun' & Hz' & Hkeys' & Hk').
    exists hs, hs'. split; [assumption|]. split; [assumption|]. intros k S S' v E E' Hv.
    rewrite (proj1 (Hk k S _ E (Hpi v Hv))), (proj1 (Hk' k S' v E' Hv)). f_equal. apply (ca_map (fun v => In v (nodes n))); [|assumption| |assumption].
    - intros x w Hx Hw. destruct (Hcl x Hx) as (conn & l & _ & Hl & Hi). apply Hi. rewrite <- (nbrs_fun n x _ _ (Hnb x Hx) Hl). assumption.
    - intros x Hx a t. unfold fun_of. destruct Hsym as [[Hu Hn]|[Hu Hn]].
      + rewrite (Hn x Hx). rewrite (Hu _ (mkCtx x 0 [] [] (map t (map pi (nb x))) [] a None None)) by reflexivity. reflexivity.
      + rewrite (Hu _ (mkCtx x 0 [] [] (map t (map pi (nb x))) [] a None None)); [reflexivity|reflexivity|]. cbn [x_nacts]. apply Permutation_map, Hn. assumption.
  Qed.
End Theorems.
Print Assumptions C80_global_map.
Print Assumptions C80_restart.
Print Assumptions C80_light_cone.
Print Assumptions C81_symmetry.

(** ** rings and tori *)
Section Lattices.
  Context {A U I BA BN : Type} `{EqD A}.
  Notation env := (env Z Z A BA BN).
  Notation ctx := (node_ctx Z Z A I).
  Notation args := (@args Z Z A U I).

  (** the initial condition gives exactly the cells 0 .. m-1 an activity, satisfying [P] *)
  Definition config (W : env) (m : Z) (P : A -> Prop) c : Prop :=
    Z.of_nat (length (to_dict W c)) = m /\ forall v, 0 <= v < m -> exists a, dget (to_dict W c) v = Some a /\ P a.

  (** on a ring, radius [r]: at most [r] cells per timestep in either direction *)
  Theorem C80_ring_light_cone : forall (W : env) fuel (u0 u0' : U) n r c c' T (g : args) h (P : A -> Prop),
    3 <= n -> 0 <= r -> 2 * r + 1 <= n -> static g (stateless h) -> 1 <= T -> (Z.to_nat T <= fuel)%nat -> config W n P c -> config W n P c' ->
    local_rule h -> safe_rule P (Z.to_nat (2 * r + 1)) h ->
    exists net hs hs', cellular_automaton n r true = Ok net /\ runs W fuel u0 net c T g hs /\ runs W fuel u0' net c' T g hs' /\
      forall k S S' v, nth_error hs k = Some S -> nth_error hs' k = Some S' -> 0 <= v < n ->
        (forall w, 0 <= w < n -> ring_distance n v w <= r * Z.of_nat k -> dget (to_dict W c) w = dget (to_dict W c') w) -> dget S v = dget S' v.
  Proof.
    intros W fuel u0 u0' n r c c' T g h P Hn Hr H2r Hst HT Hf [Hl Hc] [Hl' Hc'] Hloc Hsafe.
    destruct (ring_lattice n r Hn Hr H2r) as (net & E & Hnd & Hnodes & Hcl & Hlen & Hnb & Hub). exists net.
    destruct (C80_light_cone W fuel u0 u0' net (ring_nb n r) c c' T g h P Hst Hnd) as (hs & hs' & H1 & H2 & Hk).
    - intros E0. apply (in_nil (a := 0)). rewrite <- E0. apply Hnodes. lia.
    - assumption.
    - intros v Hv. apply Hnb, Hnodes. assumption.
    - assumption.
    - assumption.
    - lia.
    - lia.
    - intros v Hv. apply Hc, Hnodes. assumption.
    - intros v Hv. apply Hc', Hnodes. assumption.
    - assumption.
    - intros v Hv. rewrite length_ring_nb by assumption. assumption.
    - exists hs, hs'. split; [assumption|]. split; [assumption|]. split; [assumption|]. intros k S S' v E1 E2 Hv Hag. apply (Hk k S S' v E1 E2); [apply Hnodes; assumption|].
      intros w Hw. destruct (ring_within n r k v w ltac:(lia) Hr Hv Hw). apply Hag; assumption.
  Qed.

  Theorem C81_ring_rotation : forall (W : env) fuel (u0 u0' : U) n r c c' T (g : args) h (P : A -> Prop) j,
    3 <= n -> 0 <= r -> 2 * r + 1 <= n -> static g (stateless h) -> 1 <= T -> (Z.to_nat T <= fuel)%nat -> config W n P c ->
    Z.of_nat (length (to_dict W c')) = n -> (forall v, 0 <= v < n -> dget (to_dict W c') v = dget (to_dict W c) ((v + j) mod n)) ->
    uniform_rule h -> safe_rule P (Z.to_nat (2 * r + 1)) h ->
    exists net hs hs', cellular_automaton n r true = Ok net /\ runs W fuel u0 net c T g hs /\ runs W fuel u0' net c' T g hs' /\
      forall k S S' v, nth_error hs k = Some S -> nth_error hs' k = Some S' -> 0 <= v < n -> dget S' v = dget S ((v + j) mod n).
  Proof.
    intros W fuel u0 u0' n r c c' T g h P j Hn Hr H2r Hst HT Hf [Hl Hc] Hl' Hc' Hu Hsafe.
    destruct (ring_lattice n r Hn Hr H2r) as (net & E & Hnd & Hnodes & Hcl & Hlen & Hnb & Hub). exists net.
    destruct (C81_symmetry W fuel u0 u0' net (ring_nb n r) c c' T g h P (fun v => (v + j) mod n) Hst Hnd) as (hs & hs' & H1 & H2 & Hk).
    - intros E0. apply (in_nil (a := 0)). rewrite <- E0. apply Hnodes. lia.
    - assumption.
    - intros v Hv. apply Hnb, Hnodes. assumption.
    - assumption.
    - assumption.
    - lia.
    - lia.
    - intros v Hv. apply Hc, Hnodes. assumption.
    - intros v Hv. apply Hnodes, Z.mod_pos_bound. lia.
    - intros v Hv. apply Hc', Hnodes. assumption.
    - left. split; [assumption|]. intros v Hv. apply ring_nb_shift. lia.
    - intros v Hv. rewrite length_ring_nb by assumption. assumption.
    - exists hs, hs'. split; [assumption|]. split; [assumption|]. split; [assumption|]. intros k S S' v E1 E2 Hv. apply (Hk k S S' v E1 E2). apply Hnodes. assumption.
  Qed.

  (** on a torus the neighbours come in an order that depends on the place (C13): translations are symmetries of the rules that do not
      look at the order *)
  Theorem C81_torus_translation : forall (W : env) fuel (u0 u0' : U) rows cols r nbh c c' T (g : args) h (P : A -> Prop) i j,
    0 < rows -> 0 < cols -> 9 <= rows * cols -> 0 <= r -> nbh = "Moore" \/ nbh = "von Neumann" ->
    static g (stateless h) -> 1 <= T -> (Z.to_nat T <= fuel)%nat -> config W (rows * cols) P c ->
    Z.of_nat (length (to_dict W c')) = rows * cols ->
    (forall a b, 0 <= a < rows -> 0 <= b < cols -> dget (to_dict W c') (a * cols + b) = dget (to_dict W c) ((a + i) mod rows * cols + (b + j) mod cols)) ->
    symmetric_rule h -> (forall m, safe_rule P m h) ->
    exists net hs hs', cellular_automaton2d rows cols r nbh true = Ok net /\ runs W fuel u0 net c T g hs /\ runs W fuel u0' net c' T g hs' /\
      forall k S S' a b, nth_error hs k = Some S -> nth_error hs' k = Some S' -> 0 <= a < rows -> 0 <= b < cols ->
        dget S' (a * cols + b) = dget S ((a + i) mod rows * cols + (b + j) mod cols).
  Proof.
    intros W fuel u0 u0' rows cols r nbh c c' T g h P i j Hrows Hcols Hn Hr Hnbh Hst HT Hf [Hl Hc] Hl' Hc' Hu Hsafe.
    destruct (torus_lattice rows cols r nbh Hrows Hcols Hn Hr Hnbh) as (net & f & E & (Hnd & Hnodes & Hcl & Hlen & Hnb & Hub) & Hndf & Hin). exists net.
    destruct (C81_symmetry W fuel u0 u0' net f c c' T g h P (torus_shift rows cols i j) Hst Hnd) as (hs & hs' & H1 & H2 & Hk).
    - intros E0. apply (in_nil (a := 0)). rewrite <- E0. apply Hnodes. lia.
    - assumption.
    - intros v Hv. apply Hnb, Hnodes. assumption.
    - assumption.
    - assumption.
    - lia.
    - lia.
    - intros v Hv. apply Hc, Hnodes. assumption.
    - intros v Hv. apply Hnodes, torus_shift_range; assumption.
    - intros v Hv. apply Hnodes in Hv. destruct (TopologyProofs.cell_surj rows cols v Hcols Hv) as (Ev & Ha & Hb). unfold torus_shift. rewrite Ev at 1. apply Hc'; assumption.
    - right. split; [assumption|]. intros v Hv. apply Hnodes in Hv. apply (torus_nb_shift rows cols (offset_of nbh r)); assumption.
    - intros v Hv. apply Hsafe.
    - exists hs, hs'. split; [assumption|]. split; [assumption|]. split; [assumption|]. intros k S S' a b E1 E2 Ha Hb.
      rewrite <- (torus_shift_cell rows cols i j a b) by lia. apply (Hk k S S' _ E1 E2). apply Hnodes. apply (TopologyProofs.cell_bound rows cols); assumption.
  Qed.
End Lattices.
Print Assumptions C80_ring_light_cone.
Print Assumptions C81_ring_rotation.
Print Assumptions C81_torus_translation.

(** the order matters: copying the first neighbour (the spatial upper left one, away from the border) does not commute with a translation of the torus *)
Definition first_rule (x : ctx0) : res Z := Ok (nth 0 (x_nacts x) 0).
Definition states_of (r : res (Z * list (state Z Z Z unit unit))) : list (dict Z Z) :=
  match r with Ok (_, traj) => map (fun st => match activities W0 st with Ok (Some d) => d | _ => [] end) traj | Err _ => [] end.
Definition g_first : args0 := base (Some (stateless first_rule)) None None [] SYNCHRONOUS false.
Definition torus44 : network Z Z := Eval vm_compute in ok_net (cellular_automaton2d 4 4 1 "Moore" true).
Definition ramp : list Z := [1; 2; 3; 4; 5; 6; 7; 8; 9; 10; 11; 12; 13; 14; 15; 16].
Definition ramp_shifted : list Z := [2; 3; 4; 1; 6; 7; 8; 5; 10; 11; 12; 9; 14; 15; 16; 13].
Theorem C81_torus_order_refuted : exists (W : env Z Z Z unit unit) fuel (u0 : Z) net c c' T (g : args0) h hs hs' S S' a b,
  cellular_automaton2d 4 4 1 "Moore" true = Ok net /\ static g (stateless h) /\ uniform_rule h /\ safe_rule (fun _ : Z => True) 9 h /\
  runs W fuel u0 net c T g hs /\ runs W fuel u0 net c' T g hs' /\
  (forall a b, 0 <= a < 4 -> 0 <= b < 4 -> dget (to_dict W c') (a * 4 + b) = dget (to_dict W c) ((a + 0) mod 4 * 4 + (b + 1) mod 4)) /\
  nth_error hs 1 = Some S /\ nth_error hs' 1 = Some S' /\ 0 <= a < 4 /\ 0 <= b < 4 /\
  dget S' (a * 4 + b) <> dget S ((a + 0) mod 4 * 4 + (b + 1) mod 4).
Proof.
  pose (h1 := states_of (evolve W0 2 0 torus44 (Some (CList ramp)) (Some 2) None g_first)).
  pose (h2 := states_of (evolve W0 2 0 torus44 (Some (CList ramp_shifted)) (Some 2) None g_first)). vm_compute in h1, h2.
  eexists W0, 2%nat, 0, torus44, (CList ramp), (CList ramp_shifted), 2, g_first, first_rule, h1, h2, _, _, 0, 0.
  split; [vm_compute; reflexivity|]. split; [repeat split|]. split; [intros x y _ E; unfold first_rule; rewrite E; reflexivity|].
  split; [intros x _ _ _; eexists; split; [reflexivity|trivial]|].
  split. { eexists. eexists. split; [vm_compute; reflexivity|]. split; [reflexivity|]. repeat (constructor; [vm_compute; reflexivity|]). constructor. }
  split. { eexists. eexists. split; [vm_compute; reflexivity|]. split; [reflexivity|]. repeat (constructor; [vm_compute; reflexivity|]). constructor. }
  split.
  { intros a b Ha Hb. assert (Ea : a = 0 \/ a = 1 \/ a = 2 \/ a = 3) by lia. assert (Eb : b = 0 \/ b = 1 \/ b = 2 \/ b = 3) by lia.
    destruct Ea as [->|[->|[->| ->]]], Eb as [->|[->|[->| ->]]]; vm_compute; reflexivity. }
  split; [reflexivity|]. split; [reflexivity|]. split; [lia|]. split; [lia|]. vm_compute. discriminate.
Qed.
Print Assumptions C81_torus_order_refuted.

Definition third_rule (x : ctx0) : res Z := Ok ((zsum (x_nacts x) + x_cur x) mod 3).
Example C80_C81_nonvacuous :
  static (base (Some (stateless third_rule)) None None [] SYNCHRONOUS false) (stateless third_rule) /\ local_rule third_rule /\ uniform_rule third_rule /\
  symmetric_rule third_rule /\ (forall m, safe_rule (fun a => 0 <= a < 3) m third_rule) /\ config W0 7 (fun a => 0 <= a < 3) (CList [0; 1; 2; 0; 0; 2; 0]) /\
  config W0 7 (fun a => 0 <= a < 3) (CList [0; 1; 2; 0; 1; 2; 0]) /\ config W0 16 (fun a => 0 <= a) (CList ramp) /\
  (forall v, 0 <= v < 7 -> dget (to_dict W0 (CList [2; 0; 0; 2; 0; 0; 1])) v = dget (to_dict W0 (CList [0; 1; 2; 0; 0; 2; 0])) ((v + 2) mod 7)).
Proof.
  split; [repeat split|]. split; [intros x y _ E1 E2; unfold third_rule; rewrite E1, E2; reflexivity|].
  split; [intros x y E1 E2; unfold third_rule; rewrite E1, E2; reflexivity|].
  split; [intros x y E1 E2; unfold third_rule; rewrite E1, (zsum_perm _ _ E2); reflexivity|].
  split; [intros m x _ _ _; eexists; split; [reflexivity|apply Z.mod_pos_bound; lia]|].
  assert (Hr : forall m (Q : Z -> Prop), (forall k, (k < m)%nat -> Q (Z.of_nat k)) -> forall v, 0 <= v < Z.of_nat m -> Q v) by (intros m Q Hq v Hv; rewrite <- (Z2Nat.id v) by lia; apply Hq; lia).
  split; [split; [reflexivity|apply (Hr 7%nat); intros k Hk; do 7 (destruct k as [|k]; [eexists; split; [vm_compute; reflexivity|lia]|]); lia]|].
  split; [split; [reflexivity|apply (Hr 7%nat); intros k Hk; do 7 (destruct k as [|k]; [eexists; split; [vm_compute; reflexivity|lia]|]); lia]|].
  split; [split; [reflexivity|apply (Hr 16%nat); intros k Hk; do 16 (destruct k as [|k]; [eexists; split; [vm_compute; reflexivity|lia]|]); lia]|].
  apply (Hr 7%nat). intros k Hk. do 7 (destruct k as [|k]; [vm_compute; reflexivity|]). lia.
Qed.

(** * The lattices as cellular automata: neighbourhoods as functions, symmetries, the light cone of a ring *)
From Verif Require Import Py PyFacts ListFacts Network Topology TopologySpec TopologyProofs TopologyProofs2 TopologyProofs3 TopologyProofs4.
From Verif Require Import Evolve EvolveSpec EvolveProofs EvolveStatic CaSpec CaRun.
Open Scope string_scope.
Open Scope list_scope.
Open Scope Z_scope.

(** a network on the cells 0 .. m-1 with the neighbourhoods [nb] *)
Definition lattice {V} (net : network Z V) (m : Z) (nb : Z -> list Z) : Prop :=
  NoDup (nodes net) /\ (forall v, In v (nodes net) <-> 0 <= v < m) /\ closed net /\ Z.of_nat (net_len net) = m /\
  (forall v, 0 <= v < m -> nbrs_of net v (nb v)) /\ forall v w, 0 <= v < m -> In w (nb v) -> 0 <= w < m.

Definition ring_nb (n r v : Z) : list Z := map (fun d => (v + d) mod n) (zrange (- r) (r + 1)).

Lemma len_of_nodes {V} (net : network Z V) m : 0 <= m -> NoDup (nodes net) -> (forall v, In v (nodes net) <-> 0 <= v < m) -> Z.of_nat (net_len net) = m.
Proof.
  intros Hm Hnd Hnodes. unfold net_len. rewrite <- (map_length fst). change (map fst (net_nodes net)) with (nodes net).
  assert (Hp : Permutation (nodes net) (zrange 0 m)) by (apply NoDup_Permutation; [assumption|apply NoDup_zrange|]; intros v; rewrite Hnodes, in_zrange; tauto).
  rewrite (Permutation_length Hp), length_zrange. lia.
Qed.

Lemma ring_lattice n r : 3 <= n -> 0 <= r -> 2 * r + 1 <= n -> exists net, cellular_automaton n r true = Ok net /\ lattice net n (ring_nb n r).
Proof.
  intros Hn Hr H2r. destruct (ca1d_ordered n r Hn ltac:(lia)) as (net & rs & E & Erot & _ & Hnd & Hnodes & Hv).
  destruct (ca1d_order n r Hn ltac:(lia) ltac:(lia)) as (net2 & rs2 & E2 & Erot2 & _ & Hv2).
  assert (net2 = net) by congruence. subst net2. assert (rs2 = rs) by congruence. subst rs2.
  assert (Hnb : forall v w, 0 <= v < n -> In w (ring_nb n r v) -> 0 <= w < n).
  { intros v w _ Hw. apply in_map_iff in Hw. destruct Hw as (d & <- & _). apply Z.mod_pos_bound. lia. }
  assert (Hof : forall v, 0 <= v < n -> nbrs_of net v (ring_nb n r v)) by (intros v Hvr; unfold nbrs_of; rewrite Erot; apply Hv2; assumption).
  exists net. split; [assumption|]. split; [assumption|]. split; [assumption|]. split; [|split; [apply len_of_nodes; [lia|assumption|assumption]|auto]].
  intros v Hin. apply Hnodes in Hin. destruct (Hv v Hin) as (T & l & inc & _ & Ei & _). exists inc, (ring_nb n r v). split; [assumption|]. split; [auto|].
  intros w Hw. apply Hnodes. eapply Hnb; eassumption.
Qed.

Lemma length_ring_nb n r v : 0 <= r -> length (ring_nb n r v) = Z.to_nat (2 * r + 1).
Proof. intros Hr. unfold ring_nb. rewrite map_length, length_zrange. f_equal. lia. Qed.

(** ** 2D *)
Definition offset_of (nb : string) (r dx dy : Z) : Prop :=
  if String.eqb nb "Moore" then moore_offset r dx dy else von_neumann_offset r dx dy.

Lemma torus_lattice rows cols r nb : 0 < rows -> 0 < cols -> 9 <= rows * cols -> 0 <= r -> nb = "Moore" \/ nb = "von Neumann" ->
  exists net f, cellular_automaton2d rows cols r nb true = Ok net /\ lattice net (rows * cols) f /\
    (forall v, 0 <= v < rows * cols -> NoDup (f v)) /\
    forall a b c d, 0 <= a < rows -> 0 <= b < cols -> 0 <= c < rows -> 0 <= d < cols ->
      (In (c * cols + d) (f (a * cols + b)) <-> torus_step rows cols (offset_of nb r) a b c d).
Proof.
  intros Hr Hc Hn Hrad Hnb.
  assert (Hcrit : exists crit, (nb = "von Neumann" /\ crit = crit_von_neumann \/ nb = "Moore" /\ crit = crit_moore \/ nb = "Hex" /\ crit = crit_hex) /\
    (forall a dx dy, crit_offset crit r a dx dy <-> offset_of nb r dx dy)).
  { destruct Hnb as [-> | ->]; [exists crit_moore|exists crit_von_neumann]; (split; [auto|]); intros; [apply moore_crit|apply von_neumann_crit]. }
  destruct Hcrit as (crit & Hcr & Hco).
  destruct (ca2d_ordered rows cols r nb crit Hr Hc Hn Hrad Hcr) as (net & rs & E & Erot & Ek & Hnd & Hnodes & Hv).
  set (f := fun v => match dget rs v with Some T => T | None => [] end).
  assert (Hf : forall v, 0 <= v < rows * cols -> exists T inc, dget rs v = Some T /\ f v = T /\ in_edges net v = Ok inc /\ NoDup T /\ (forall u, In u T -> 0 <= u < rows * cols) /\
    forall c d, 0 <= c < rows -> 0 <= d < cols -> (In (cell cols c d) T <-> torus_step rows cols (offset_of nb r) (v / cols) (v mod cols) c d)).
  { intros v Hvr. destruct (cell_surj rows cols v Hc Hvr) as (Ev & Ha & Hb). destruct (Hv _ _ Ha Hb) as (T & l & inc & E1 & E2 & E3 & Hasc & Hub & Hin & j & Hj & ET & En).
    rewrite <- Ev in E1, E2. exists T, inc. assert (Hp : Permutation T l) by (rewrite ET; apply rot_perm). split; [assumption|]. split; [unfold f; rewrite E1; reflexivity|]. split; [assumption|].
    split; [eapply Permutation_NoDup; [symmetry; exact Hp|apply asc_NoDup; assumption]|]. split; [intros u Hu; apply Hub; eapply Permutation_in; eassumption|].
    intros c d Hc' Hd. assert (Hsw : In (cell cols c d) T <-> In (cell cols c d) l) by (split; apply Permutation_in; [|symmetry]; assumption). rewrite Hsw, (Hin c d Hc' Hd).
    rewrite (torus_ext rows cols _ _ _ _ _ _ (Hco c)).
    assert (Hsym : forall dx dy, offset_of nb r dx dy -> offset_of nb r (- dx) (- dy)) by (intros dx dy; unfold offset_of, moore_offset, von_neumann_offset; destruct (String.eqb nb "Moore"); lia).
    split; apply torus_sym; assumption. }
  exists net, f. split; [assumption|]. split; [|split].
  - split; [assumption|]. split; [assumption|]. split; [|split; [apply len_of_nodes; [lia|assumption|assumption]|split]].
    + intros v Hin. apply Hnodes in Hin. destruct (Hf v Hin) as (T & inc & E1 & _ & E2 & _ & Hub & _). exists inc, T. split; [assumption|]. unfold nbrs_of. rewrite Erot. split; [assumption|].
      intros u Hu. apply Hnodes. auto.
    + intros v Hvr. destruct (Hf v Hvr) as (T & inc & E1 & E2 & _). unfold nbrs_of. rewrite Erot, E2. assumption.
    + intros v w Hvr Hw. destruct (Hf v Hvr) as (T & inc & _ & E2 & _ & _ & Hub & _). rewrite E2 in Hw. auto.
  - intros v Hvr. destruct (Hf v Hvr) as (T & inc & _ & E2 & _ & HT & _). rewrite E2. assumption.
  - intros a b c d Ha Hb Hc' Hd. destruct (Hf (a * cols + b) (cell_bound rows cols a b Ha Hb)) as (T & inc & _ & E2 & _ & _ & _ & Hin). rewrite E2.
    change (c * cols + d) with (cell cols c d). rewrite (Hin c d Hc' Hd).
    rewrite Z.div_add_l, Z.div_small, Z.add_0_r by lia. rewrite Z.add_comm, Z_mod_plus_full, Z.mod_small by lia. reflexivity.
Qed.

(** ** symmetries *)
Lemma ca_map {L A} (D : L -> Prop) nb (f : L -> A -> list A -> A) (pi : L -> L) (s : L -> A) k :
  (forall v w, D v -> In w (nb v) -> D w) -> (forall v, D v -> D (pi v)) ->
  (forall v, D v -> forall a t, f (pi v) a (map t (nb (pi v))) = f v a (map t (map pi (nb v)))) ->
  forall v, D v -> ca_state nb f k (fun w => s (pi w)) v = ca_state nb f k s (pi v).
Proof.
  intros HD Hpi Hf. induction k as [|k IH]; intros v Hv; [reflexivity|]. rewrite !ca_state_S. unfold ca_next at 1 2. rewrite Hf by assumption.
  rewrite (IH v Hv), map_map. f_equal. apply map_ext_in. intros w Hw. apply IH. eapply HD; eassumption.
Qed.

Lemma ring_nb_shift n r j v : 0 < n -> ring_nb n r ((v + j) mod n) = map (fun w => (w + j) mod n) (ring_nb n r v).
Proof.
  intros Hn. unfold ring_nb. rewrite map_map. apply map_ext. intros d. rewrite !Zplus_mod_idemp_l. f_equal. lia.
Qed.

Lemma zrange_opp_rev r : 0 <= r -> map Z.opp (zrange (- r) (r + 1)) = rev (zrange (- r) (r + 1)).
Proof.
  intros Hr. rewrite <- (Z2Nat.id r Hr). generalize (Z.to_nat r). clear. induction n as [|n IH]; [reflexivity|].
  assert (E : zrange (- Z.of_nat (S n)) (Z.of_nat (S n) + 1) = - Z.of_nat (S n) :: zrange (- Z.of_nat n) (Z.of_nat n + 1) ++ [Z.of_nat (S n)]).
  { rewrite zrange_cons by lia. f_equal. rewrite zrange_snoc by lia. f_equal; [|f_equal; lia]. f_equal; lia. }
  rewrite E. cbn [map rev]. rewrite map_app, IH, rev_app_distr. cbn [map rev app]. rewrite Z.opp_involutive. reflexivity.
Qed.

(** reading the ring from right to left *)
Lemma ring_nb_mirror n r v : 0 < n -> 0 <= r -> ring_nb n r (- v mod n) = map (fun w => - w mod n) (rev (ring_nb n r v)).
Proof.
  intros Hn Hr. unfold ring_nb at 2. rewrite <- map_rev, <- zrange_opp_rev, !map_map by assumption. unfold ring_nb. apply map_ext. intros d.
  rewrite Zplus_mod_idemp_l. rewrite <- (Z.sub_0_l ((v + - d) mod n)), Zminus_mod_idemp_r. f_equal. lia.
Qed.

(** ** the light cone of a ring *)
Lemma ring_distance_triangle n a b c : 0 < n -> ring_distance n a c <= ring_distance n a b + ring_distance n b c.
Proof.
  intros Hn. unfold ring_distance.
  assert (Hs : forall x y, (x + y) mod n = x mod n + y mod n \/ (x + y) mod n = x mod n + y mod n - n).
  { intros x y. rewrite Z.add_mod by lia. pose proof (Z.mod_pos_bound x n Hn). pose proof (Z.mod_pos_bound y n Hn).
    destruct (Z_lt_le_dec (x mod n + y mod n) n); [left; apply Z.mod_small; lia|right; symmetry; apply (Z.mod_unique _ _ 1); lia]. }
  assert (Ho : forall x, (- x) mod n = 0 /\ x mod n = 0 \/ (- x) mod n = n - x mod n).
  { intros x. destruct (Z.eq_dec (x mod n) 0) as [E|E]; [left; rewrite Z.mod_opp_l_z by lia; auto|right; apply Z.mod_opp_l_nz; lia]. }
  pose proof (Hs (b - a) (c - b)) as H1. replace (b - a + (c - b)) with (c - a) in H1 by lia.
  pose proof (Ho (c - a)) as O1. replace (- (c - a)) with (a - c) in O1 by lia.
  pose proof (Ho (b - a)) as O2. replace (- (b - a)) with (a - b) in O2 by lia.
  pose proof (Ho (c - b)) as O3. replace (- (c - b)) with (b - c) in O3 by lia.
  pose proof (Z.mod_pos_bound (c - a) n Hn). pose proof (Z.mod_pos_bound (a - c) n Hn). pose proof (Z.mod_pos_bound (b - a) n Hn). pose proof (Z.mod_pos_bound (a - b) n Hn).
  pose proof (Z.mod_pos_bound (c - b) n Hn). pose proof (Z.mod_pos_bound (b - c) n Hn). lia.
Qed.

Lemma ring_nb_distance n r v w : 0 < n -> In w (ring_nb n r v) -> ring_distance n v w <= r.
Proof.
  intros Hn Hw. apply in_map_iff in Hw. destruct Hw as (d & <- & Hd). apply in_zrange in Hd. unfold ring_distance.
  rewrite Zminus_mod_idemp_l, Zminus_mod_idemp_r. replace (v + d - v) with d by lia. replace (v - (v + d)) with (- d) by lia.
  destruct (Z_le_gt_dec 0 d).
  - pose proof (Z.mod_le d n ltac:(lia) Hn). lia.
  - pose proof (Z.mod_le (- d) n ltac:(lia) Hn). lia.
Qed.

Lemma ring_within n r k v w : 0 < n -> 0 <= r -> 0 <= v < n -> within (ring_nb n r) k v w -> ring_distance n v w <= r * Z.of_nat k /\ 0 <= w < n.
Proof.
  intros Hn Hr Hv Hw. induction Hw as [k v|k v u w Hu Hw IH].
  - unfold ring_distance. rewrite Z.sub_diag, Z.mod_0_l by lia. nia.
  - assert (Hur : 0 <= u < n) by (apply in_map_iff in Hu; destruct Hu as (d & <- & _); apply Z.mod_pos_bound; lia). destruct (IH Hur) as [Hd Hwr].
    pose proof (ring_distance_triangle n v u w Hn). pose proof (ring_nb_distance n r v u Hn Hu). nia.
Qed.

(** ** translations of a torus *)
Lemma NoDup_map_on {X Y} (f : X -> Y) l : (forall x y, In x l -> In y l -> f x = f y -> x = y) -> NoDup l -> NoDup (map f l).
Proof.
  induction l as [|x l IH]; intros Hi Hnd; [constructor|]. inversion Hnd as [|? ? Hn Hnd']; subst. cbn [map]. constructor; [|apply IH; [intros; apply Hi; auto with datatypes|assumption]].
  intros Hin. apply in_map_iff in Hin. destruct Hin as (y & E & Hy). apply Hn. rewrite (Hi x y); auto with datatypes.
Qed.

Definition torus_shift (rows cols i j v : Z) : Z := (v / cols + i) mod rows * cols + (v mod cols + j) mod cols.

Lemma torus_shift_range rows cols i j v : 0 < rows -> 0 < cols -> 0 <= torus_shift rows cols i j v < rows * cols.
Proof. intros Hr Hc. unfold torus_shift. apply (cell_bound rows cols); apply Z.mod_pos_bound; lia. Qed.
Lemma torus_shift_cell rows cols i j a b : 0 < cols -> 0 <= b < cols -> torus_shift rows cols i j (a * cols + b) = (a + i) mod rows * cols + (b + j) mod cols.
Proof. intros Hc Hb. unfold torus_shift. rewrite Z.div_add_l, Z.div_small, Z.add_0_r by lia. rewrite (Z.add_comm (a * cols)), Z_mod_plus_full, (Z.mod_small b) by lia. reflexivity. Qed.

Lemma mod_cancel n a b i : 0 < n -> 0 <= a < n -> 0 <= b < n -> (a + i) mod n = (b + i) mod n -> a = b.
Proof.
  intros Hn Ha Hb E. rewrite <- (Z.mod_small a n), <- (Z.mod_small b n) by lia. replace a with (a + i - i) by lia. replace b with (b + i - i) by lia.
  rewrite Zminus_mod, E, <- Zminus_mod. reflexivity.
Qed.

Lemma torus_shift_inj rows cols i j v w : 0 < rows -> 0 < cols -> 0 <= v < rows * cols -> 0 <= w < rows * cols ->
  torus_shift rows cols i j v = torus_shift rows cols i j w -> v = w.
Proof.
  intros Hr Hc Hv Hw. destruct (cell_surj rows cols v Hc Hv) as (Ev & Ha & Hb). destruct (cell_surj rows cols w Hc Hw) as (Ew & Ha' & Hb'). rewrite Ev, Ew. unfold cell.
  rewrite !torus_shift_cell by assumption. intros E. apply cell_inj in E; [|apply Z.mod_pos_bound; lia|apply Z.mod_pos_bound; lia]. destruct E as [E1 E2].
  apply mod_cancel in E1; [|lia|lia|lia]. apply mod_cancel in E2; [|lia|lia|lia]. congruence.
Qed.

Lemma torus_nb_shift rows cols P f i j v : 0 < rows -> 0 < cols ->
  (forall v, 0 <= v < rows * cols -> NoDup (f v)) -> (forall v w, 0 <= v < rows * cols -> In w (f v) -> 0 <= w < rows * cols) ->
  (forall a b c d, 0 <= a < rows -> 0 <= b < cols -> 0 <= c < rows -> 0 <= d < cols -> (In (c * cols + d) (f (a * cols + b)) <-> torus_step rows cols P a b c d)) ->
  0 <= v < rows * cols -> Permutation (f (torus_shift rows cols i j v)) (map (torus_shift rows cols i j) (f v)).
Proof.
  intros Hr Hc Hnd Hub Hin Hv. apply NoDup_Permutation.
  - apply Hnd, torus_shift_range; assumption.
  - apply NoDup_map_on; [|apply Hnd; assumption]. intros x y Hx Hy. apply torus_shift_inj; eauto.
  - intros u. destruct (cell_surj rows cols v Hc Hv) as (Ev & Ha & Hb). unfold cell in Ev. set (a := v / cols) in *. set (b := v mod cols) in *. clearbody a b. subst v.
    rewrite torus_shift_cell by assumption. rewrite in_map_iff. split.
    + intros Hu. assert (Hur : 0 <= u < rows * cols) by (eapply Hub; [|exact Hu]; apply (cell_bound rows cols); apply Z.mod_pos_bound; lia).
      destruct (cell_surj rows cols u Hc Hur) as (Eu & Hcu & Hdu). unfold cell in Eu. set (c := u / cols) in *. set (d := u mod cols) in *. clearbody c d. subst u.
      apply Hin in Hu; [|apply Z.mod_pos_bound; lia|apply Z.mod_pos_bound; lia|assumption|assumption]. destruct Hu as (dx & dy & Hp & -> & ->).
      exists ((a + dx) mod rows * cols + (b + dy) mod cols). split.
      * rewrite torus_shift_cell by (try apply Z.mod_pos_bound; lia). rewrite !Zplus_mod_idemp_l. f_equal; [f_equal|]; f_equal; lia.
      * apply Hin; [assumption|assumption|apply Z.mod_pos_bound; lia|apply Z.mod_pos_bound; lia|]. exists dx, dy. auto.
    + intros (w & <- & Hw). assert (Hwr := Hub _ _ Hv Hw). destruct (cell_surj rows cols w Hc Hwr) as (Ew & Hcw & Hdw). unfold cell in Ew. set (c := w / cols) in *. set (d := w mod cols) in *. clearbody c d. subst w.
      apply Hin in Hw; [|assumption|assumption|assumption|assumption]. destruct Hw as (dx & dy & Hp & -> & ->).
      rewrite torus_shift_cell by assumption. apply Hin; [apply Z.mod_pos_bound; lia|apply Z.mod_pos_bound; lia|apply Z.mod_pos_bound; lia|apply Z.mod_pos_bound; lia|].
      exists dx, dy. split; [assumption|]. rewrite !Zplus_mod_idemp_l. split; f_equal; lia.
Qed.

(** ** runs on a lattice *)
Lemma lattice_run {V A U I BA BN} `{EqD A} (W : env Z V A BA BN) fuel (u0 : U) (net : network Z V) m nb c T (g : @args Z V A U I) h (P : A -> Prop) (s : Z -> A) :
  lattice net m nb -> static g (stateless h) -> 1 <= T -> (Z.to_nat T <= fuel)%nat -> Z.of_nat (length (to_dict W c)) = m ->
  shows_cells (fun v => 0 <= v < m) (to_dict W c) s -> (forall v, 0 <= v < m -> P (s v)) ->
  local_rule h -> (forall v, 0 <= v < m -> safe_rule P (length (nb v)) h) ->
  exists hs, runs W fuel u0 net c T g hs /\ nth_error hs 0 = Some (to_dict W c) /\
    forall k S, nth_error hs k = Some S -> shows_cells (fun v => 0 <= v < m) S (ca_state nb (fun_of h) k s).
Proof.
  intros (Hnd & Hnodes & Hcl & Hlen & Hnb & Hub) Hst HT Hf Hl Hs HP Hloc Hsafe.
  destruct (ca_run W fuel u0 net nb c T g h (fun_of h) P s Hst Hnd HT Hf ltac:(lia) Hcl) as (uf & traj & hs & E & El & Hshow & Hz & _ & Hk).
  - intros v Hv. apply Hnb, Hnodes. assumption.
  - intros v Hv. apply Hs, Hnodes. assumption.
  - intros v Hv. apply HP, Hnodes. assumption.
  - apply local_computes; [assumption|]. intros v Hv. apply Hsafe, Hnodes. assumption.
  - exists hs. split; [exists uf, traj; auto|]. split; [assumption|]. intros k S Ek v Hv. apply (Hk k S Ek). apply Hnodes. assumption.
Qed.

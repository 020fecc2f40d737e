(** The activity rule is one step of the Hopfield-Tank equation *)
From Verif Require Import Py PyFacts ListFacts Network NetworkSpec NetworkProofs NetworkProofs2 Topology TopologySpec TopologyProofs3.
From Verif Require Import Evolve EvolveSpec EvolveProofs EvolveProofs2 EvolveStatic Lattice LatticeProofs HopfieldProofs HopfieldProofs2 TspSpec Tsp TspProofs.
From Coq Require Import Reals Lra Permutation.
Open Scope string_scope.
Open Scope list_scope.
Open Scope Z_scope.

(** ** the output *)
Lemma tanh_logistic x : tanh x = (1 - 2 / (exp (2 * x) + 1))%R.
Proof.
  unfold tanh, sinh, cosh. pose proof (exp_pos x). pose proof (exp_pos (- x)). pose proof (exp_pos (2 * x)).
  assert (E : exp (2 * x) = (exp x * exp x)%R) by (rewrite <- exp_plus; f_equal; lra). assert (Ei : exp (- x) = (/ exp x)%R) by apply exp_Ropp. rewrite E, Ei. field. split; [nra|lra].
Qed.

Lemma V_logistic h u : h_u0 h <> 0%R -> V_of h u = (1 / (1 + exp (- (2 * u / h_u0 h))))%R.
Proof.
  intros Hu. unfold V_of. rewrite tanh_logistic. replace (2 * (u / h_u0 h))%R with (2 * u / h_u0 h)%R by (field; assumption). set (y := (2 * u / h_u0 h)%R). rewrite exp_Ropp. pose proof (exp_pos y). field. lra.
Qed.

Lemma V_range h u : h_u0 h <> 0%R -> (0 < V_of h u < 1)%R.
Proof.
  intros Hu. rewrite V_logistic by assumption. pose proof (exp_pos (- (2 * u / h_u0 h))) as Hp. set (e := exp _) in *. clearbody e. split.
  - apply Rdiv_lt_0_compat; lra.
  - apply (Rmult_lt_reg_r (1 + e)); [lra|]. unfold Rdiv. rewrite Rmult_assoc, Rinv_l by lra. lra.
Qed.

Lemma V_increasing h u w : (0 < h_u0 h)%R -> (u < w <-> V_of h u < V_of h w)%R.
Proof.
  intros Hu. assert (Hlt : forall u w, (u < w -> V_of h u < V_of h w)%R).
  { clear u w. intros u w Hx. rewrite !V_logistic by lra. unfold Rdiv at 1 3. rewrite !Rmult_1_l. apply Rinv_lt_contravar.
    - pose proof (exp_pos (- (2 * u / h_u0 h))). pose proof (exp_pos (- (2 * w / h_u0 h))). nra.
    - apply Rplus_lt_compat_l, exp_increasing, Ropp_lt_contravar. unfold Rdiv. apply Rmult_lt_compat_r; [apply Rinv_0_lt_compat; assumption|lra]. }
  split; [apply Hlt|]. intros Hx. destruct (Rlt_le_dec u w) as [|Hle]; [assumption|]. destruct Hle as [Hle| ->]; [apply Hlt in Hle; lra|lra].
Qed.

Lemma V_argmax h row k : (0 < h_u0 h)%R -> is_argmax (map (V_of h) row) k <-> is_argmax row k.
Proof.
  intros Hu. assert (Hlt : forall a b, (V_of h a < V_of h b <-> a < b)%R) by (intros a b; symmetry; apply V_increasing; assumption).
  assert (Hle : forall a b, (V_of h a <= V_of h b <-> a <= b)%R). { intros a b. specialize (Hlt b a). destruct (Rlt_le_dec b a), (Rlt_le_dec (V_of h b) (V_of h a)); split; intros; try lra; tauto. }
  unfold is_argmax. split.
  - intros (v & Hk & Ev & Hv). rewrite nth_error_map in Ev. destruct (nth_error row (Z.to_nat k)) as [u|] eqn:E; [|discriminate]. cbn in Ev. injection Ev as <-. exists u. split; [assumption|]. split; [reflexivity|]. intros i x Ex.
    destruct (Hv i (V_of h x)) as [H1 H2]; [rewrite nth_error_map, Ex; reflexivity|]. rewrite <- Hle, <- Hlt. auto.
  - intros (u & Hk & Eu & Hx). exists (V_of h u). split; [assumption|]. split; [rewrite nth_error_map, Eu; reflexivity|]. intros i y Ey. rewrite nth_error_map in Ey. destruct (nth_error row i) as [x|] eqn:E; [|discriminate]. cbn in Ey. injection Ey as <-.
    destruct (Hx i x E) as [H1 H2]. rewrite Hle, Hlt. auto.
Qed.

(** ** the permutation matrix *)
Lemma nth_error_firstn_in {A} (l : list A) k i : (i < k)%nat -> nth_error (firstn k l) i = nth_error l i.
Proof. intros. apply nth_error_firstn_lt. assumption. Qed.

Lemma reshape_nth {A} k (l : list A) m : reshape k l = Some m -> length m = k /\ (forall row, In row m -> length row = k) /\
  forall r c, (r < k)%nat -> (c < k)%nat -> exists row x, nth_error m r = Some row /\ nth_error row c = Some x /\ nth_error l (r * k + c) = Some x.
Proof.
  unfold reshape. destruct (Nat.eqb_spec (length l) (k * k)) as [Hl|]; [|discriminate]. intros E. injection E as <-. split; [rewrite map_length, seq_length; reflexivity|]. split.
  - intros row Hr. apply in_map_iff in Hr. destruct Hr as (i & <- & Hi). apply in_seq in Hi. rewrite firstn_length, skipn_length, Hl. assert (i * k + k <= k * k)%nat by nia. lia.
  - intros r c Hr Hc. assert (Hrc : (r * k + c < length l)%nat) by (rewrite Hl; nia). destruct (nth_error l (r * k + c)) as [x|] eqn:Ex; [|apply nth_error_None in Ex; lia].
    exists (firstn k (skipn (r * k) l)), x. split; [rewrite nth_error_map; assert (Es : nth_error (seq 0 k) r = Some r) by (rewrite (nth_error_nth' _ 0%nat) by (rewrite seq_length; assumption); rewrite seq_nth by assumption; reflexivity); rewrite Es; reflexivity|].
    split; [|reflexivity]. rewrite nth_error_firstn_lt by assumption. rewrite nth_error_skipn. assumption.
Qed.

(** ** the rule *)
Lemma enumerate_nodes (s : Z -> R) N : 0 <= N -> enumerate (map s (zrange 0 N)) = map (fun k => (Z.to_nat k, s k)) (zrange 0 N).
Proof.
  intros HN. unfold enumerate. rewrite map_length, length_zrange, Z.sub_0_r. rewrite <- (Z2Nat.id N) at 2 3 by assumption. rewrite <- map_of_nat_seq, !map_map. rewrite combine_map_self. apply map_ext. intros k. rewrite Nat2Z.id. reflexivity.
Qed.

Lemma opposite_found (s : Z -> R) N k : 0 <= k < N -> get_opposite (map s (zrange 0 N)) (zrange 0 N) k = Ok (s k).
Proof.
  intros Hk. unfold get_opposite.
  assert (Hp : py_nth (map s (zrange 0 N)) k = Some (s k)).
  { rewrite (py_nth_at _ (s 0)) by (rewrite map_length, length_zrange; lia). rewrite map_nth. do 2 f_equal. apply nth_error_nth. rewrite nth_error_zrange by lia. f_equal. lia. }
  assert (Hg : forall a, 0 <= a <= k -> (fix go (i : Z) (l : list Z) {struct l} : res R := match l with [] => Err (Raise "could not find the opposite neighbour index") | n :: l => if n =? k then of_opt IndexError (py_nth (map s (zrange 0 N)) i) else go (i + 1) l end) a (zrange a N) = Ok (s k)).
  { intros a Ha. remember (Z.to_nat (k - a)) as m eqn:Em. revert a Ha Em. induction m as [|m IH]; intros a Ha Em.
    - assert (a = k) by lia. subst a. rewrite (zrange_cons k N) by lia. rewrite Z.eqb_refl, Hp. reflexivity.
    - rewrite (zrange_cons a N) by lia. destruct (Z.eqb_spec a k) as [-> |Hne]; [lia|]. apply IH; lia. }
  apply (Hg 0). lia.
Qed.

Lemma grid_sum n (f : Z -> R) : 0 <= n -> Rtotal (map f (zrange 0 (n * n))) = Rsum_upto n (fun i => Rsum_upto n (fun j => f (i * n + j))).
Proof.
  intros Hn. destruct (Z.eq_dec n 0) as [-> |]; [reflexivity|]. rewrite <- zrange_product by lia. rewrite Rtotal_flat. unfold Rsum_upto. f_equal. apply map_ext. intros i. rewrite map_map. reflexivity.
Qed.

Lemma Rsum_upto_ext n f g : (forall i, 0 <= i < n -> f i = g i) -> Rsum_upto n f = Rsum_upto n g.
Proof. intros Hx. apply Rtotal_ext. intros i Hi. apply in_zrange in Hi. auto. Qed.
Lemma Rsum_upto_one n k f : 0 <= k < n -> Rsum_upto n (fun x => if Z.eq_dec x k then f x else 0%R) = f k.
Proof. apply Rtotal_one. Qed.
Lemma Rsum_upto_zero n : Rsum_upto n (fun _ => 0%R) = 0%R.
Proof. apply Rtotal_zero. Qed.

Definition pull (d a b : R) : R := (d * (a + b))%R.

Section Rule.
  Context {I : Type}.
  Variables (points : list point) (h : hyper) (o : tsp).
  Notation n := (Z.of_nat (length points)).
  Notation N := (n * n).
  Notation V := (V_of h).
  Hypothesis Ho : tsp_init points h = Ok o.

  Lemma o_eq : o = mkTsp points h (get_distances_map (pairs points)) (get_node_label_map points) (get_coordinate_map (get_node_label_map points)) (get_adjacency_matrix (get_node_label_map points)).
  Proof. unfold tsp_init in Ho. rewrite get_distances_eq in Ho. cbn [rbind] in Ho. injection Ho as <-. reflexivity. Qed.

  Definition the_next (s : Z -> R) (v : Z) : R :=
    next n V (fun i j => euclid (pt points i) (pt points j)) (h_dt h) (h_A h) (h_B h) (h_C h) (h_D h) (h_n h) (fun r c => s (r * n + c)) (v / n) (v mod n).

  Lemma rule_next (s : Z -> R) v (x : node_ctx Z Z R I) : 2 <= n -> 0 <= v < N -> x_label x = v -> x_nbrs x = zrange 0 N -> x_nacts x = map s (zrange 0 N) -> x_cur x = s v ->
    activity_rule o x = Ok (the_next s v).
  Proof.
    intros Hn Hv El En Ea Ec. set (r := v / n). set (c := v mod n). assert (Hr : 0 <= r < n) by (split; [apply Z.div_pos; lia|apply Z.div_lt_upper_bound; lia]). assert (Hc : 0 <= c < n) by (apply Z.mod_pos_bound; lia).
    unfold activity_rule. rewrite o_eq. cbn [t_points t_hyper t_label t_coord t_dist]. rewrite El, En, Ea, Ec, (label_get points v Hv). fold r c. cbn [of_opt rbind]. rewrite enumerate_nodes by lia.
    set (fA := fun k => if (k / n =? r) && negb (k mod n =? c) then V (s k) else 0%R). set (fB := fun k => if (k mod n =? c) && negb (k / n =? r) then V (s k) else 0%R).
    set (fD := fun k => if k mod n =? (c - 1) mod n then pull (euclid (pt points (k / n)) (pt points r)) (V (s k)) (V (s (k / n * n + (c + 1) mod n))) else 0%R).
    match goal with |- context[rfold ?f _ _] => set (body := f) end.
    assert (Hg : forall l s0, incl l (zrange 0 N) -> rfold body (map (fun k => (Z.to_nat k, s k)) l) s0 =
      Ok (mkSums (s_A s0 + Rtotal (map fA l)) (s_B s0 + Rtotal (map fB l)) (s_C s0 + Rtotal (map (fun k => V (s k)) l)) (s_D s0 + Rtotal (map fD l)))).
    { induction l as [|k l IH]; intros s0 Hl; cbn [map rfold].
      - destruct s0 as [a b g d]. cbn. unfold Rtotal. cbn [fold_right]. rewrite !Rplus_0_r. reflexivity.
      - assert (Hk : 0 <= k < N) by (apply in_zrange, Hl; left; reflexivity). assert (Hkr : 0 <= k / n < n) by (split; [apply Z.div_pos; lia|apply Z.div_lt_upper_bound; lia]).
        assert (Eb : body s0 (Z.to_nat k, s k) = Ok (mkSums (s_A s0 + fA k) (s_B s0 + fB k) (s_C s0 + V (s k)) (s_D s0 + fD k))).
        { unfold body. rewrite Z2Nat.id by lia. rewrite (py_nth_at _ 0) by (rewrite length_zrange; lia). replace (nth (Z.to_nat k) (zrange 0 N) 0) with k by (symmetry; apply nth_error_nth; rewrite nth_error_zrange by lia; f_equal; lia). cbn [of_opt rbind].
          rewrite (label_get points k Hk). cbn [of_opt rbind]. unfold fA, fB, fD. destruct (k mod n =? (c - 1) mod n).
          - rewrite (coord_get points) by (try assumption; apply Z.mod_pos_bound; lia). cbn [of_opt rbind]. rewrite opposite_found by (pose proof (Z.mod_pos_bound (c + 1) n ltac:(lia)); nia). cbn [of_opt rbind]. rewrite distances_map_spec.
            replace ((2 <=? n) && ((0 <=? k / n) && (k / n <? n)) && ((0 <=? r) && (r <? n)))%bool with true by lia. cbn [of_opt rbind]. unfold pull. do 2 f_equal; try destruct (_ && _)%bool; try lra.
          - do 2 f_equal; try destruct (_ && _)%bool; lra. }
        rewrite Eb. cbn [rbind]. rewrite IH by (intros y Hy; apply Hl; right; assumption). cbn [s_A s_B s_C s_D]. unfold Rtotal. cbn [fold_right]. do 2 f_equal; lra. }
    rewrite Hg by apply incl_refl. cbn [rbind s_A s_B s_C s_D]. f_equal. rewrite !grid_sum by lia.
    assert (Hcell : forall i j, 0 <= j < n -> (i * n + j) / n = i /\ (i * n + j) mod n = j) by (intros; apply cell_divmod; assumption).
    assert (EA : Rsum_upto n (fun i => Rsum_upto n (fun j => fA (i * n + j))) = Rsum_upto n (fun j => if Z.eq_dec j c then 0%R else V (s (r * n + j)))).
    { rewrite (Rsum_upto_ext _ _ (fun i => if Z.eq_dec i r then Rsum_upto n (fun j => if Z.eq_dec j c then 0%R else V (s (i * n + j))) else 0%R)).
      - apply Rsum_upto_one. assumption.
      - intros i Hi. destruct (Z.eq_dec i r) as [-> |Hne].
        + apply Rsum_upto_ext. intros j Hj. unfold fA. destruct (Hcell r j Hj) as [-> ->]. rewrite Z.eqb_refl. destruct (Z.eqb_spec j c), (Z.eq_dec j c); try congruence; reflexivity.
        + rewrite <- (Rsum_upto_zero n). apply Rsum_upto_ext. intros j Hj. unfold fA. destruct (Hcell i j Hj) as [-> ->]. destruct (Z.eqb_spec i r); [contradiction|reflexivity]. }
    assert (EB : Rsum_upto n (fun i => Rsum_upto n (fun j => fB (i * n + j))) = Rsum_upto n (fun i => if Z.eq_dec i r then 0%R else V (s (i * n + c)))).
    { apply Rsum_upto_ext. intros i Hi. rewrite (Rsum_upto_ext _ _ (fun j => if Z.eq_dec j c then (if Z.eq_dec i r then 0%R else V (s (i * n + j))) else 0%R)).
      - apply (Rsum_upto_one n c (fun j => if Z.eq_dec i r then 0%R else V (s (i * n + j)))). assumption.
      - intros j Hj. unfold fB. destruct (Hcell i j Hj) as [-> ->]. destruct (Z.eqb_spec j c), (Z.eq_dec j c); try congruence; cbn [andb]; [|reflexivity]. destruct (Z.eqb_spec i r), (Z.eq_dec i r); try congruence; reflexivity. }
    assert (ED : Rsum_upto n (fun i => Rsum_upto n (fun j => fD (i * n + j))) = Rsum_upto n (fun y => pull (euclid (pt points r) (pt points y)) (V (s (y * n + (c + 1) mod n))) (V (s (y * n + (c - 1) mod n))))).
    { apply Rsum_upto_ext. intros i Hi. rewrite (Rsum_upto_ext _ _ (fun j => if Z.eq_dec j ((c - 1) mod n) then pull (euclid (pt points i) (pt points r)) (V (s (i * n + j))) (V (s (i * n + (c + 1) mod n))) else 0%R)).
      - rewrite (Rsum_upto_one n ((c - 1) mod n) (fun j => pull (euclid (pt points i) (pt points r)) (V (s (i * n + j))) (V (s (i * n + (c + 1) mod n))))) by (apply Z.mod_pos_bound; lia). rewrite (euclid_sym (pt points i)). unfold pull. ring.
      - intros j Hj. unfold fD. destruct (Hcell i j Hj) as [-> ->]. set (q := (c - 1) mod n); destruct (Z.eqb_spec j q), (Z.eq_dec j q); try congruence; reflexivity. }
    rewrite EA, EB, ED. unfold the_next, next, out, pull. fold r c. replace (s (r * n + c)) with (s v) by (f_equal; pose proof (Z.div_mod v n ltac:(lia)); subst r c; lia). set (SC := Rsum_upto n (fun i => Rsum_upto n (fun j => V (s (i * n + j))))). ring.
  Qed.

  (** with one point there is no distance *)
  Lemma rule_one_point (a : R) (x : node_ctx Z Z R I) : n = 1 -> x_label x = 0 -> x_nbrs x = [0] -> x_nacts x = [a] -> activity_rule o x = Err KeyError.
  Proof.
    intros Hn El En Ea. assert (H0 : 0 <= 0 < N) by (rewrite Hn; lia). unfold activity_rule. rewrite o_eq. cbn [t_points t_hyper t_label t_coord t_dist]. rewrite El, En, Ea, (label_get points 0 H0). rewrite Hn. cbn [of_opt rbind enumerate length seq combine rfold]. change (0 / 1) with 0. change (0 mod 1) with 0.
    change (py_nth [0] (Z.of_nat 0)) with (Some 0). cbn [of_opt rbind]. rewrite (label_get points 0 H0). rewrite Hn. cbn [of_opt rbind]. change (0 mod 1 =? (0 - 1) mod 1) with true. cbn iota. rewrite (coord_get points) by (rewrite Hn; change (0 / 1) with 0; change ((0 + 1) mod 1) with 0; lia). rewrite Hn. cbn [of_opt rbind].
    change (get_opposite [a] [0] (0 / 1 * 1 + (0 + 1) mod 1)) with (@Ok R a). cbn [of_opt rbind]. rewrite distances_map_spec. rewrite Hn. reflexivity.
  Qed.

  (** ** the network *)
  Lemma adj_mrep : mrep N (t_adj o) (fun _ _ => 1).
  Proof.
    rewrite o_eq. cbn [t_adj]. unfold get_adjacency_matrix. rewrite labels_eq, map_length, length_zrange, Z.sub_0_r. assert (HN : 0 <= N) by nia. split; [split|].
    - rewrite repeat_length. lia.
    - intros row Hr. apply repeat_spec in Hr. subst row. rewrite repeat_length. lia.
    - intros i j Hi Hj. unfold TopologySpec.at_. rewrite nth_error_repeat by lia. rewrite nth_error_repeat by lia. reflexivity.
  Qed.

  Variable net : network Z Z.
  Hypothesis Hnet : from_adjacency_matrix nzb (t_adj o) = (net, Ok tt).

  Lemma net_R : NetworkProofs.R net (graph_of (adj_edges nzb (t_adj o))) /\ net_rot net = None.
  Proof. destruct (from_adj_R nzb (t_adj o)) as (net' & E & HR & Hrot). rewrite Hnet in E. injection E as <-. auto. Qed.

  Lemma tsp_node v : In v (nodes net) <-> 0 <= v < N.
  Proof.
    destruct net_R as [HR Hrot]. rewrite (net_node N (fun _ _ => 1) (t_adj o) net adj_mrep HR v). split; [tauto|]. intros Hv. split; [assumption|]. exists v. split; [assumption|]. left. discriminate.
  Qed.
  Lemma tsp_nodup : NoDup (nodes net).
  Proof. destruct net_R as [HR Hrot]. apply (net_nodup (t_adj o) net HR). Qed.
  Lemma tsp_in v : 0 <= v < N -> in_edges net v = Ok (map (fun i => (i, [[("weight", 1)]])) (zrange 0 N)).
  Proof.
    intros Hv. destruct net_R as [HR Hrot]. rewrite (net_in_edges N (fun _ _ => 1) (t_adj o) net adj_mrep HR v) by (apply tsp_node; assumption). change (nzb 1) with true. rewrite filter_true by reflexivity. reflexivity.
  Qed.
  Lemma tsp_nbrs v l : 0 <= v < N -> nbrs_of net v l <-> l = zrange 0 N.
  Proof.
    intros Hv. destruct net_R as [HR Hrot]. unfold nbrs_of. rewrite Hrot, (tsp_in v Hv). split.
    - intros (inc & E & ->). injection E as <-. rewrite map_map. apply map_id.
    - intros ->. eexists. split; [reflexivity|]. rewrite map_map. symmetry. apply map_id.
  Qed.
  Lemma tsp_nodes_perm : Permutation (nodes net) (zrange 0 N).
  Proof. apply NoDup_Permutation; [apply tsp_nodup|apply NoDup_zrange|]. intros v. rewrite tsp_node, in_zrange. reflexivity. Qed.
  Lemma tsp_len : Z.of_nat (net_len net) = N.
  Proof. assert (E : length (nodes net) = length (zrange 0 N)) by apply Permutation_length, tsp_nodes_perm. rewrite length_zrange in E. unfold net_len, nodes in *. unfold dkeys in E. rewrite map_length in E. nia. Qed.

  Lemma tsp_closed : closed net.
  Proof.
    intros v Hv. apply tsp_node in Hv. eexists. exists (zrange 0 N). split; [apply tsp_in; assumption|]. split; [apply tsp_nbrs; [assumption|reflexivity]|]. intros w Hw. apply in_zrange in Hw. apply tsp_node. assumption.
  Qed.

  Definition value (S : dict Z R) (v : Z) : R := match dget S v with Some a => a | None => 0%R end.

  Context {BA BN U : Type}.
  Variable W : env Z Z R BA BN.

  Lemma ctx_parts S t past inp v (x : node_ctx Z Z R I) : 0 <= v < N -> ctx_for W net S t past inp v x -> covers net S ->
    x_label x = v /\ x_nbrs x = zrange 0 N /\ x_nacts x = map (value S) (zrange 0 N) /\ x_cur x = value S v.
  Proof.
    intros Hv [E1 _ _ E4 E5 _ E7 _ _] Hcov. apply tsp_nbrs in E4; [|assumption]. split; [assumption|]. split; [assumption|]. split; [|unfold value; rewrite E7; reflexivity]. rewrite E4 in E5. clear - E5. induction E5 as [|w a l l' Hw _ IH]; [reflexivity|]. cbn [map]. unfold value at 1. rewrite Hw. f_equal. assumption.
  Qed.

  Lemma tsp_run fuel (u0 : U) c T (g : @args Z Z R U I) : 2 <= n -> static g (stateless (activity_rule o)) -> 1 <= T -> (Z.to_nat T <= fuel)%nat ->
    Z.of_nat (length (to_dict W c)) = N -> (forall v, 0 <= v < N -> exists a, dget (to_dict W c) v = Some a) ->
    exists uf traj hs, evolve W fuel u0 net (Some c) (Some T) None g = Ok (uf, traj) /\ Z.of_nat (length hs) = T /\
      Forall2 (fun s S => activities W s = Ok (Some S)) traj hs /\ nth_error hs 0 = Some (to_dict W c) /\
      Forall (fun S => forall v, 0 <= v < N -> exists a, dget S v = Some a) hs /\
      forall k S S', nth_error hs k = Some S -> nth_error hs (Datatypes.S k) = Some S' -> forall v, 0 <= v < N -> dget S' v = Some (the_next (value S) v).
  Proof.
    intros Hn Hst HT Hf Hlen Hcov.
    assert (Hcov0 : covers net (to_dict W c)) by (intros v Hv; apply Hcov, tsp_node; assumption).
    assert (Hrule : forall S t past inp v (x : node_ctx Z Z R I), covers net S -> 0 <= v < N -> ctx_for W net S t past inp v x -> activity_rule o x = Ok (the_next (value S) v)).
    { intros S t past inp v x HcS Hv Hx. destruct (ctx_parts S t past inp v x Hv Hx HcS) as (E1 & E2 & E3 & E4). apply rule_next; assumption. }
    destruct (stateless_run W fuel u0 net c T g (activity_rule o) (Forall (covers net)) Hst tsp_nodup HT Hf) as (uf & traj & hs & E & Hl & Hs & Hc & Hz & Hsyn).
    - pose proof tsp_len. lia.
    - apply tsp_closed.
    - assumption.
    - constructor; [assumption|constructor].
    - intros hist S v x Hi Hv Hx. apply Forall_app in Hi. destruct Hi as [_ Hi]. apply Forall_inv in Hi. eexists. eapply Hrule; [exact Hi|apply (proj1 (tsp_node v)); assumption|exact Hx].
    - intros hist S S' Hi HcS' _. apply Forall_app. split; [assumption|constructor; [assumption|constructor]].
    - exists uf, traj, hs. split; [assumption|]. split; [assumption|].
      assert (Hne : forall S, In S hs -> S <> []). { intros S HS. rewrite Forall_forall in Hc. specialize (Hc S HS). intros ->. destruct (Hc 0) as [a Ea]; [apply tsp_node; nia|discriminate]. }
      split.
      { clear - Hs Hne. induction Hs as [|s S traj hs Es _ IH]; constructor; [|apply IH; intros; apply Hne; right; assumption]. rewrite Es. specialize (Hne S (or_introl eq_refl)). destruct S; [contradiction|reflexivity]. }
      split; [assumption|]. split; [eapply Forall_impl; [|exact Hc]; intros S HS v Hv; apply HS, tsp_node; assumption|].
      intros k S S' Ek Ek' v Hv. destruct (Hsyn k S S' Ek Ek') as [_ Hu]. destruct (Hu v (proj2 (tsp_node v) Hv)) as (x & a & a' & Hx & Ha & -> & Eg). rewrite Eg. f_equal. rewrite Forall_forall in Hc.
      rewrite (Hrule _ _ _ _ _ _ (Hc S (nth_error_In _ _ Ek)) Hv Hx) in Ha. congruence.
  Qed.

  Lemma tsp_run_one fuel (u0 : U) c T (g : @args Z Z R U I) a : n = 1 -> static g (stateless (activity_rule o)) -> 2 <= T -> (Z.to_nat T <= fuel)%nat ->
    to_dict W c = [(0, a)] -> evolve W fuel u0 net (Some c) (Some T) None g = Err KeyError.
  Proof.
    intros Hn Hst HT Hf Hc. assert (HN : N = 1) by (rewrite Hn; reflexivity). assert (Enodes : nodes net = [0]).
    { pose proof tsp_nodes_perm as Hp. rewrite HN in Hp. change (zrange 0 1) with [0] in Hp. symmetry in Hp. apply Permutation_length_1_inv in Hp. assumption. }
    apply (static_fail W fuel u0 net c T g (stateless (activity_rule o)) (fun hs _ => hs = [to_dict W c]) 1 KeyError Hst ltac:(lia) Hf).
    - pose proof tsp_len. rewrite Hc. cbn [length]. lia.
    - reflexivity.
    - intros mk tab hist S u _ Hx. lia.
    - intros mk tab hist S u Hh Hx. destruct hist as [|x0 hist]; [|cbn [length] in Hx; lia]. cbn [app] in Hh. injection Hh as ->. rewrite Hc.
      unfold do_activity_rule. rewrite Enodes. cbn [rfold]. assert (Hcov : covers net [(0, a)]) by (intros v Hv; rewrite Enodes in Hv; destruct Hv as [<-|[]]; exists a; reflexivity).
      destruct (node_context_total (I := I) W 1 [(0, a)] net (past_of W (g_past g) [[(0, a)]]) 0 tsp_closed Hcov) as (x & Ex & Hctx); [rewrite Enodes; left; reflexivity|].
      destruct (ctx_parts _ _ _ _ 0 x ltac:(lia) Hctx Hcov) as (E1 & E2 & E3 & _). rewrite HN in E2, E3. change (zrange 0 1) with [0] in E2, E3. cbn [map] in E3.
      unfold node_step. cbn [app] in *. rewrite Ex. cbn [rbind]. unfold apply_rule. destruct Hst as (_ & _ & _ & Hm & _). rewrite Hm. unfold stateless. rewrite (rule_one_point _ x Hn E1 E2 E3). reflexivity.
  Qed.
End Rule.

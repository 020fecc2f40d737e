(** * C63, C72: the Hopfield-Tank net for the travelling salesman problem *)
From Verif Require Import Py PyFacts ListFacts Network Topology Evolve EvolveSpec EvolveStatic Lattice LatticeProofs PropEvolve TspSpec Tsp TspProofs TspProofs2.
From Coq Require Import Reals Lra Permutation.
Open Scope string_scope.
Open Scope list_scope.
Open Scope Z_scope.

(** ** C63 *)

(** the constructor never fails; from two points on, every pair of points has its distance *)
Theorem C63_distances : forall points h, let n := Z.of_nat (length points) in exists o, tsp_init points h = Ok o /\
  (2 <= n -> forall i j, 0 <= i < n -> 0 <= j < n ->
     dget (t_dist o) (i, j) = Some (euclid (pt points i) (pt points j)) /\ dget (t_dist o) (i, j) = dget (t_dist o) (j, i) /\ dget (t_dist o) (i, i) = Some 0%R) /\
  (forall i j, ~ (0 <= i < n /\ 0 <= j < n) -> dget (t_dist o) (i, j) = None) /\
  (n < 2 -> forall ij, dget (t_dist o) ij = None).
Proof.
  intros points h n. assert (E : exists o, tsp_init points h = Ok o) by (unfold tsp_init; rewrite get_distances_eq; eexists; reflexivity). destruct E as [o E]. exists o. split; [assumption|].
  pose proof (o_eq points h o E) as Eo. rewrite Eo. cbn [t_dist]. split; [|split].
  - intros Hn i j Hi Hj. rewrite !distances_map_spec. fold n. replace ((2 <=? n) && ((0 <=? i) && (i <? n)) && ((0 <=? j) && (j <? n)))%bool with true by lia. replace ((2 <=? n) && ((0 <=? j) && (j <? n)) && ((0 <=? i) && (i <? n)))%bool with true by lia.
    replace ((2 <=? n) && ((0 <=? i) && (i <? n)) && ((0 <=? i) && (i <? n)))%bool with true by lia. split; [reflexivity|]. split; [rewrite euclid_sym; reflexivity|rewrite euclid_refl; reflexivity].
  - intros i j Hx. rewrite distances_map_spec. fold n. destruct ((2 <=? n) && ((0 <=? i) && (i <? n)) && ((0 <=? j) && (j <? n)))%bool eqn:Eb; [lia|reflexivity].
  - intros Hn [i j]. rewrite distances_map_spec. fold n. replace (2 <=? n) with false by lia. reflexivity.
Qed.

(** the graph joins u and v *)
Definition joins (G : ugraph) (u v : Z) : Prop := exists l, dget G u = Some l /\ In v l.

(** it succeeds exactly on a non-empty matrix with as many rows as points, a first row of that length, and rows whose first largest entries are at
    positions that form a permutation *)
Theorem C63_succeeds : forall points M, let n := Z.of_nat (length points) in
  (exists r, get_tour_graph points M = Ok r) <->
  0 < n /\ length M = length points /\ (exists row0, nth_error M 0 = Some row0 /\ length row0 = length points) /\ exists ps, Forall2 is_argmax M ps /\ Permutation ps (zrange 0 n).
Proof.
  intros points M n. split.
  - intros [r E]. apply (tour_graph_inv points M r E).
  - intros (Hn & HM & Hrow & ps & Hps & Hp). eexists. apply (tour_graph_run points M ps Hn HM Hps Hp Hrow).
Qed.

(** the tour visits point p at position k when row p is largest at k; it visits every point once; the graph joins exactly the points that follow each
    other on it; the length is its Euclidean length *)
Theorem C63_tour : forall points M G pos len, let n := Z.of_nat (length points) in get_tour_graph points M = Ok (G, pos, len) ->
  exists tour, Permutation tour (zrange 0 n) /\
    (forall k p, nth_error tour k = Some p <-> exists row, 0 <= p /\ nth_error M (Z.to_nat p) = Some row /\ is_argmax row (Z.of_nat k)) /\
    dkeys G = zrange 0 n /\ (forall u v, joins G u v <-> follows tour u v \/ follows tour v u) /\
    len = tour_length points tour /\
    (forall i, 0 <= i < n -> dget pos i = Some (pt points i)) /\ dkeys pos = zrange 0 n.
Proof.
  intros points M G pos len n E. destruct (tour_graph_inv points M _ E) as (Hn & HM & Hrow & ps & Hps & Hp). fold n in Hp.
  rewrite (tour_graph_run points M ps Hn HM Hps Hp Hrow) in E. injection E as EG Epos Elen. exists (tour_of points ps).
  split; [apply (tour_perm points ps Hp)|]. split; [apply (tour_position points M ps Hn HM Hps Hp)|].
  destruct (ug_of_spec (zrange 0 n) (tour_edges points ps) (NoDup_zrange _ _)) as (Hk & _ & Ha).
  { intros [u v] Hi. apply (in_tour_edges points M ps Hn HM Hp) in Hi. destruct Hi as (k & Hk & E1 & E2). cbn [fst snd]. split; eapply Permutation_in; try apply (tour_perm points ps Hp); eapply nth_error_In; eassumption. }
  fold n in EG. rewrite EG in Hk, Ha. split; [assumption|]. split; [intros u v; rewrite <- !(in_tour_edges points M ps Hn HM Hp); apply Ha|]. split; [congruence|].
  assert (Epos' : pos = map (fun k => (k, pt points k)) (zrange 0 n)).
  { rewrite <- Epos. unfold enumerate. subst n. rewrite <- HopfieldProofs2.map_of_nat_seq, map_map. unfold pt. clear. assert (Hg : forall l (pre : list point), map (fun ip => (Z.of_nat (fst ip), snd ip)) (combine (seq (length pre) (length l)) l) = map (fun k => (Z.of_nat k, nth (Z.to_nat (Z.of_nat k)) (pre ++ l) origin)) (seq (length pre) (length l))).
    { induction l as [|x l IH]; intros pre; [reflexivity|]. cbn [length seq combine map fst snd]. f_equal; [rewrite Nat2Z.id, app_nth2, Nat.sub_diag by lia; reflexivity|]. specialize (IH (pre ++ [x])). rewrite app_length in IH. cbn [length] in IH. rewrite Nat.add_1_r in IH. rewrite IH. apply map_ext. intros k. rewrite <- app_assoc. reflexivity. }
    apply (Hg points []). }
  rewrite Epos'. split; [intros i Hi; apply (dget_map_self (pt points)), in_zrange; assumption|]. unfold dkeys. rewrite map_map. apply map_id.
Qed.

(** two rows largest at the same position *)
Theorem C63_claimed_twice : forall points M row0 ps, length M = length points -> nth_error M 0 = Some row0 -> length row0 = length points ->
  Forall2 is_argmax M ps -> ~ NoDup ps -> get_tour_graph points M = Err (Raise "a point has already claimed a position in the tour").
Proof.
  intros points M row0 ps HM E0 Hr Hps Hn. rewrite tour_graph_eq, HM, Nat.eqb_refl. cbn [negb]. replace (py_nth M 0) with (Some row0) by (destruct M; [discriminate|exact (eq_sym E0)]). cbn [of_opt rbind]. rewrite Hr, Nat.eqb_refl. cbn [negb].
  unfold enumerate. rewrite (claim_dup M ps Hps 0 []); [reflexivity|constructor|assumption].
Qed.

(** the other ways to fail: the shape, no points at all, an empty row *)
Theorem C63_shape : forall points M, (length M <> length points -> get_tour_graph points M = Err AssertionError) /\
  (forall row0, length M = length points -> nth_error M 0 = Some row0 -> length row0 <> length points -> get_tour_graph points M = Err AssertionError) /\
  (points = [] -> M = [] -> get_tour_graph points M = Err IndexError).
Proof.
  intros points M. rewrite tour_graph_eq. split; [|split].
  - intros Hl. destruct (Nat.eqb_spec (length points) (length M)); [lia|reflexivity].
  - intros row0 Hl E0 Hr. rewrite Hl, Nat.eqb_refl. cbn [negb]. replace (py_nth M 0) with (Some row0) by (destruct M; [discriminate|exact (eq_sym E0)]). cbn [of_opt rbind]. destruct (Nat.eqb_spec (length points) (length row0)); [lia|reflexivity].
  - intros -> ->. reflexivity.
Qed.

(** ** C72 *)
Lemma py_nth_last {X} (l : list X) x : py_nth (l ++ [x]) (-1) = Some x.
Proof.
  unfold py_nth, py_index. rewrite app_length. cbn [length]. change (0 <=? -1) with false. cbn [andb]. destruct (Z.leb_spec (- Z.of_nat (length l + 1)) (-1)); [|lia]. change (-1 <? 0) with true. cbn [andb].
  replace (Z.to_nat (-1 + Z.of_nat (length l + 1))) with (length l) by lia. rewrite nth_error_app2, Nat.sub_diag by lia. reflexivity.
Qed.

(** the output of a unit is the logistic function of its input *)
Theorem C72_output : forall h u, h_u0 h <> 0%R -> V_of h u = (1 / (1 + exp (- (2 * u / h_u0 h))))%R /\ (0 < V_of h u < 1)%R /\
  ((0 < h_u0 h)%R -> forall w, (u < w <-> V_of h u < V_of h w)%R).
Proof. intros h u Hu. split; [apply V_logistic; assumption|]. split; [apply V_range; assumption|]. intros Hp w. apply V_increasing. assumption. Qed.

(** row r, column c of the matrix is the output of node r * n + c in the last timestep; the tour read from it depends on the inputs alone *)
Theorem C72_matrix : forall points h o acts last, tsp_init points h = Ok o ->
  (length last = length points * length points)%nat ->
  exists M, get_permutation_matrix o (acts ++ [last]) = Ok M /\ length M = length points /\
    (forall row, In row M -> length row = length points) /\
    (forall r c, (r < length points)%nat -> (c < length points)%nat -> exists row u, nth_error M r = Some row /\ nth_error last (r * length points + c) = Some u /\ nth_error row c = Some (V_of h u)) /\
    ((0 < h_u0 h)%R -> forall r row, nth_error M r = Some row -> forall k, is_argmax row k <-> is_argmax (firstn (length points) (skipn (r * length points) last)) k).
Proof.
  intros points h o acts last E Hl. pose proof (o_eq points h o E) as Eo. unfold get_permutation_matrix. rewrite Eo. cbn [t_points t_hyper].
  rewrite (py_nth_last acts last). cbn [of_opt rbind]. assert (Er : exists m, reshape (length points) last = Some m) by (unfold reshape; rewrite Hl, Nat.eqb_refl; eauto). destruct Er as [m Em]. rewrite Em. cbn [of_opt rbind].
  destruct (reshape_nth _ _ _ Em) as (Hm & Hrow & Hnth). eexists. split; [reflexivity|]. split; [rewrite map_length; assumption|]. split; [|split].
  - intros row Hr. apply in_map_iff in Hr. destruct Hr as (row' & <- & Hr). rewrite map_length. auto.
  - intros r c Hr Hc. destruct (Hnth r c Hr Hc) as (row & u & E1 & E2 & E3). exists (map (V_of h) row), u. rewrite !nth_error_map, E1, E2. auto.
  - intros Hu r row Hr k. rewrite nth_error_map in Hr. destruct (nth_error m r) as [row'|] eqn:E1; [|discriminate]. cbn in Hr. injection Hr as <-. rewrite V_argmax by assumption.
    unfold reshape in Em. rewrite Hl, Nat.eqb_refl in Em. injection Em as <-. rewrite nth_error_map in E1. destruct (nth_error (seq 0 (length points)) r) as [i|] eqn:Es; [|discriminate]. cbn in E1. injection E1 as <-.
    assert (Hrl : (r < length (seq 0 (length points)))%nat) by (apply nth_error_Some; congruence). rewrite seq_length in Hrl. rewrite (nth_error_nth' _ 0%nat) in Es by (rewrite seq_length; assumption). rewrite seq_nth in Es by assumption. injection Es as <-. reflexivity.
Qed.

Theorem C72_matrix_shape : forall points h o acts last, tsp_init points h = Ok o ->
  (length last <> length points * length points)%nat -> get_permutation_matrix o (acts ++ [last]) = Err ValueError /\ get_permutation_matrix o [] = Err IndexError.
Proof.
  intros points h o acts last E Hl. pose proof (o_eq points h o E) as Eo. unfold get_permutation_matrix. rewrite Eo. cbn [t_points t_hyper]. split; [|reflexivity].
  rewrite (py_nth_last acts last). cbn [of_opt rbind]. unfold reshape. destruct (Nat.eqb_spec (length last) (length points * length points)); [lia|reflexivity].
Qed.

(** the activity of node v *)
Definition input_of_unit (S : dict Z R) (v : Z) : R := match dget S v with Some a => a | None => 0%R end.

Section Runs.
  Context {BA BN I U : Type}.
  Variable W : env Z Z R BA BN.

  (** on the net of the adjacency matrix, each timestep is one Euler step of the Hopfield-Tank equation at every unit *)
  Theorem C72_step : forall points h o net fuel (u0 : U) c T (g : @args Z Z R U I), let n := Z.of_nat (length points) in
    2 <= n -> tsp_init points h = Ok o -> from_adjacency_matrix nzb (t_adj o) = (net, Ok tt) -> static g (stateless (activity_rule o)) ->
    1 <= T -> (Z.to_nat T <= fuel)%nat -> Z.of_nat (length (to_dict W c)) = n * n -> (forall v, 0 <= v < n * n -> exists a, dget (to_dict W c) v = Some a) ->
    exists uf traj hs, evolve W fuel u0 net (Some c) (Some T) None g = Ok (uf, traj) /\ Z.of_nat (length hs) = T /\
      Forall2 (fun s S => activities W s = Ok (Some S)) traj hs /\ nth_error hs 0 = Some (to_dict W c) /\
      forall k S S', nth_error hs k = Some S -> nth_error hs (Datatypes.S k) = Some S' -> forall r col, 0 <= r < n -> 0 <= col < n ->
        dget S' (r * n + col) = Some (next n (V_of h) (fun i j => euclid (pt points i) (pt points j)) (h_dt h) (h_A h) (h_B h) (h_C h) (h_D h) (h_n h)
                                        (fun i j => input_of_unit S (i * n + j)) r col).
  Proof.
    intros points h o net fuel u0 c T g n Hn Eo En Hst HT Hf Hl Hc.
    destruct (tsp_run points h o Eo net En W fuel u0 c T g Hn Hst HT Hf Hl Hc) as (uf & traj & hs & E & Hlen & Hs & Hz & _ & Hstep). exists uf, traj, hs. split; [assumption|]. split; [assumption|]. split; [assumption|]. split; [assumption|].
    intros k S S' Ek Ek' r col Hr Hcol. rewrite (Hstep k S S' Ek Ek' (r * n + col) ltac:(fold n; nia)). unfold the_next. fold n. destruct (cell_divmod n r col Hcol) as [-> ->]. reflexivity.
  Qed.

  (** with one point the distance map is empty, and the first timestep raises KeyError *)
  Theorem C72_one_point : forall p h o net fuel (u0 : U) c a T (g : @args Z Z R U I),
    tsp_init [p] h = Ok o -> from_adjacency_matrix nzb (t_adj o) = (net, Ok tt) -> static g (stateless (activity_rule o)) -> 2 <= T -> (Z.to_nat T <= fuel)%nat ->
    to_dict W c = [(0, a)] -> evolve W fuel u0 net (Some c) (Some T) None g = Err KeyError.
  Proof. intros p h o net fuel u0 c a T g Eo En Hst HT Hf Hc. apply (tsp_run_one [p] h o Eo net En W fuel u0 c T g a eq_refl Hst HT Hf Hc). Qed.
End Runs.

(** the constructor's matrix is fully connected, and always makes a network *)
Theorem C72_network : forall points h o, tsp_init points h = Ok o -> exists net, from_adjacency_matrix nzb (t_adj o) = (net, Ok tt) /\
  let N := Z.of_nat (length points) * Z.of_nat (length points) in
  NoDup (nodes net) /\ (forall v, In v (nodes net) <-> 0 <= v < N) /\ forall u v, 0 <= u < N -> 0 <= v < N -> has_edge net u v = true.
Proof.
  intros points h o Eo. destruct (TopologyProofs3.from_adj_R nzb (t_adj o)) as (net & En & _). exists net. split; [assumption|]. cbn zeta. split; [eapply tsp_nodup; eassumption|]. split; [eapply tsp_node; eassumption|].
  intros u v Hu Hv. pose proof (tsp_in points h o Eo net En v Hv) as Hin. unfold in_edges in Hin. unfold has_edge. destruct (dget (net_nodes net) v) as [nd|]; [|discriminate]. cbn [of_opt rbind] in Hin. injection Hin as ->. apply dmem_true. unfold dkeys. rewrite map_map. apply in_map_iff. exists u. split; [reflexivity|]. apply in_zrange. assumption.
Qed.

Print Assumptions C63_distances.
Print Assumptions C63_succeeds.
Print Assumptions C63_tour.
Print Assumptions C63_claimed_twice.
Print Assumptions C63_shape.
Print Assumptions C72_output.
Print Assumptions C72_matrix.
Print Assumptions C72_matrix_shape.
Print Assumptions C72_step.
Print Assumptions C72_one_point.
Print Assumptions C72_network.

(** ** Examples *)
Definition tri : list point := [(0%R, 0%R); (3%R, 0%R); (3%R, 4%R)].
Definition tri_matrix : list (list R) := [[0%R; 1%R; 0%R]; [0%R; 0%R; 1%R]; [1%R; 0%R; 1%R]].

(** a right-angled triangle with sides 3, 4, 5; the last row has its largest entry twice *)
Example C63_nonvacuous : Forall2 is_argmax tri_matrix [1; 2; 0] /\ Permutation [1; 2; 0] (zrange 0 3) /\ (exists r, get_tour_graph tri tri_matrix = Ok r) /\
  tour_length tri [2; 0; 1] = 12%R.
Proof.
  assert (Ha : Forall2 is_argmax tri_matrix [1; 2; 0]).
  { repeat constructor; exists 1%R; (split; [lia|]); (split; [reflexivity|]); intros [|[|[|i]]] x E; cbn in E; try (destruct i; discriminate); injection E as <-; (split; [lra|]); intros; try lra; lia. }
  assert (Hp : Permutation [1; 2; 0] (zrange 0 3)) by (apply (Permutation_app_comm [1; 2] [0])).
  split; [assumption|]. split; [assumption|]. split.
  - apply C63_succeeds. split; [cbn; lia|]. split; [reflexivity|]. split; [eexists; split; reflexivity|]. exists [1; 2; 0]. auto.
  - unfold tour_length, Rtotal. cbn [combine skipn firstn app map fold_right fst snd]. change (pt tri 2) with (3%R, 4%R). change (pt tri 0) with (0%R, 0%R). change (pt tri 1) with (3%R, 0%R). unfold euclid, Rsqr. cbn [fst snd].
    replace ((3 - 0) * (3 - 0) + (4 - 0) * (4 - 0))%R with (5 * 5)%R by lra. replace ((0 - 3) * (0 - 3) + (0 - 0) * (0 - 0))%R with (3 * 3)%R by lra. replace ((3 - 3) * (3 - 3) + (0 - 4) * (0 - 4))%R with (4 * 4)%R by lra. rewrite !sqrt_square by lra. lra.
Qed.

Example C63_claimed_nonvacuous : Forall2 is_argmax [[0%R; 1%R]; [1%R; 2%R]] [1; 1] /\ ~ NoDup [1; 1].
Proof.
  split; [|intros Hn; apply NoDup_cons_iff in Hn; destruct Hn as [Hn _]; apply Hn; left; reflexivity].
  repeat constructor; [exists 1%R|exists 2%R]; (split; [lia|]); (split; [reflexivity|]); intros [|[|i]] x E; cbn in E; try (destruct i; discriminate); injection E as <-; (split; [lra|]); intros; try lra; lia.
Qed.

Definition W_R : env Z Z R unit unit := mkEnv Z.of_nat Some (fun _ => 0) (fun _ => Err Unmodelled) (fun _ => Err Unmodelled) (fun _ => Err Unmodelled) (fun _ => Err Unmodelled).
Example C72_nonvacuous : forall h, exists o net, tsp_init tri h = Ok o /\ from_adjacency_matrix nzb (t_adj o) = (net, Ok tt) /\
  static (I := Z) (U := unit) (mkArgs (Some (stateless (activity_rule o))) None None [] ACTIVITIES_FIRST true false true true false None) (stateless (activity_rule o)) /\
  Z.of_nat (length (to_dict W_R (CList [0%R; 1%R; 2%R; 3%R; 4%R; 5%R; 6%R; 7%R; 8%R]))) = 3 * 3 /\
  forall v, 0 <= v < 3 * 3 -> exists a, dget (to_dict W_R (CList [0%R; 1%R; 2%R; 3%R; 4%R; 5%R; 6%R; 7%R; 8%R])) v = Some a.
Proof.
  intros h. destruct (C63_distances tri h) as (o & Eo & _). destruct (C72_network tri h o Eo) as (net & En & _). exists o, net. split; [assumption|]. split; [assumption|]. split; [unfold static; cbn; tauto|]. split; [reflexivity|].
  intros v Hv. apply dget_key_some. assert (Ek : dkeys (to_dict W_R (CList [0%R; 1%R; 2%R; 3%R; 4%R; 5%R; 6%R; 7%R; 8%R])) = zrange 0 9) by reflexivity. rewrite Ek. apply in_zrange. lia.
Qed.

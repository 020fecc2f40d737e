(** * C74, C76, C77, C78: the data of plots *)
From Verif Require Import Py PyFacts ListFacts Network NetworkSpec NetworkProofs NetworkProofs2 NetworkProofs3 LatticeSpec Lattice LatticeProofs Plot PlotProofs PropLattice.
Open Scope string_scope.
Open Scope list_scope.
Open Scope Z_scope.

(** ** C74 *)
(** the number of elements of [l] with value [i] *)
Definition how_many (i : Z) (l : list Z) : Z := Z.of_nat (length (filter (fun x => x =? i) l)).

Theorem C74_bars : forall (L V : Type) (EQ : EqD L) (net : network L V) (use_in use_out : bool), reachable net -> nodes net <> [] ->
  exists (deg : L -> Z) (m : Z) (bars : list (Z * Z)),
    (forall v, In v (nodes net) -> (if use_in then in_degree net v else if use_out then out_degree net v else degree net v) = Ok (deg v)) /\
    (exists v, In v (nodes net) /\ deg v = m) /\ (forall v, In v (nodes net) -> deg v <= m) /\
    degree_distribution net use_in use_out = Ok bars /\
    bars = map (fun i => (i, how_many i (map deg (nodes net)))) (zrange 1 (m + 1)) /\
    zsum (map snd bars) = Z.of_nat (length (filter (fun v => 1 <=? deg v) (nodes net))) /\
    zsum (map (fun b => fst b * snd b) bars) = (if use_in || use_out then 1 else 2) * Z.of_nat (length (edges net)).
Proof.
  intros L V EQ net ui uo Hr Hne. destruct (distribution_spec net ui uo Hr Hne) as (m & Hv & Hm & E). exists (deg_of net ui uo), m, (map (fun i => (i, num (Z.eqb i) (map (deg_of net ui uo) (nodes net)))) (zrange 1 (m + 1))).
  assert (Hdeg : forall v, In v (nodes net) -> 0 <= deg_of net ui uo v) by (intros v _; unfold deg_of; destruct ui; [lia|]; destruct uo; lia).
  split; [intros v Hin; exact (dd_degree_ok net ui uo v Hr Hin)|]. split; [assumption|]. split; [assumption|]. split; [assumption|]. split; [|split].
  - apply map_ext. intros i. f_equal. unfold num, how_many. do 2 f_equal. apply filter_ext. intros x. apply Z.eqb_sym.
  - rewrite map_map. cbn [snd]. rewrite num_sum by (intros x Hx; apply in_map_iff in Hx; destruct Hx as (v & <- & Hx); auto). unfold num. f_equal. clear Hv Hm Hdeg E Hne Hr.
    induction (nodes net) as [|v vs IH]; [reflexivity|]. cbn [map filter]. destruct (1 <=? deg_of net ui uo v); cbn [length]; rewrite IH; reflexivity.
  - rewrite map_map. cbn [fst snd]. rewrite num_weighted by (intros x Hx; apply in_map_iff in Hx; destruct Hx as (v & <- & Hx); auto). apply deg_total. assumption.
Qed.
Theorem C74_empty : forall (L V : Type) (EQ : EqD L) (net : network L V) (use_in use_out : bool), nodes net = [] -> degree_distribution net use_in use_out = Err ValueError.
Proof. intros L V EQ net ui uo E. unfold degree_distribution. rewrite E. reflexivity. Qed.

(** ** C76 *)
Lemma nth_repeat_any {A} (x d : A) n : forall i, (i < n)%nat -> nth i (repeat x n) d = x.
Proof. induction n as [|n IH]; intros [|i] Hi; cbn; try lia; [reflexivity|apply IH; lia]. Qed.
Theorem C76_frames_1d : forall a rest, let activities := a :: rest in
  exists frames, reshape_for_animation activities [Z.of_nat (length a)] = Ok frames /\ length frames = length activities /\
    forall i frame, nth_error frames i = Some frame -> length frame = length activities /\
      forall t row, nth_error activities t = Some row -> nth_error frame t = Some (if Nat.leb t i then row else repeat 0 (length a)).
Proof.
  intros a rest activities. exists (map (frame1 activities) (seq 0 (length activities))). split; [unfold reshape_for_animation, activities; rewrite Z.eqb_refl; reflexivity|]. split; [rewrite map_length, seq_length; reflexivity|].
  intros i frame Ef. assert (Hi : (i < length activities)%nat) by (rewrite <- (seq_length (length activities) 0), <- (map_length (frame1 activities)); apply nth_error_Some; congruence).
  rewrite nth_error_map in Ef. rewrite (nth_error_nth' (seq 0 (length activities)) O) in Ef by (rewrite seq_length; assumption). rewrite seq_nth in Ef by assumption. cbn [option_map Nat.add] in Ef. injection Ef as <-.
  unfold frame1. set (z := repeat 0 _). assert (Ez : z = repeat 0 (length a)) by reflexivity. clearbody z. subst z.
  assert (Hl : length (firstn (i + 1) activities) = (i + 1)%nat) by (rewrite firstn_length; lia). split; [rewrite app_length, repeat_length, Hl; lia|].
  intros t row Et. assert (Ht : (t < length activities)%nat) by (apply nth_error_Some; congruence). destruct (Nat.leb_spec t i).
  - rewrite nth_error_app1 by lia. rewrite nth_error_firstn_lt by lia. assumption.
  - rewrite nth_error_app2 by lia. rewrite Hl. rewrite (nth_error_nth' _ []) by (rewrite repeat_length; lia). f_equal. apply nth_repeat_any. lia.
Qed.

(** the value at row i, column j of frame t *)
Definition cell (frames : list (list (list Z))) (t i j : nat) : option Z :=
  match nth_error frames t with Some frame => match nth_error frame i with Some row => nth_error row j | None => None end | None => None end.

Theorem C76_frames_2d : forall activities r c, 0 <= r -> 0 <= c -> (forall row, In row activities -> Z.of_nat (length row) = r * c) ->
  exists frames, reshape_for_animation activities [r; c] = Ok frames /\ length frames = length activities /\
    (forall frame, In frame frames -> Z.of_nat (length frame) = r /\ forall row, In row frame -> Z.of_nat (length row) = c) /\
    forall t row i j, nth_error activities t = Some row -> Z.of_nat i < r -> Z.of_nat j < c -> cell frames t i j = nth_error row (i * Z.to_nat c + j).
Proof.
  intros activities r c Hr Hc Hrow. set (w := Z.to_nat (r * c)). assert (Hw : forall row, In row activities -> length row = w) by (intros row Hi; specialize (Hrow row Hi); unfold w; lia).
  assert (Hfr : forall t row, nth_error activities t = Some row -> nth_error (chunks (length activities) w (concat activities)) t = Some row).
  { intros t row Et. assert (Ht : (t < length activities)%nat) by (apply nth_error_Some; congruence). rewrite chunks_nth by assumption. rewrite (concat_row activities w t Hw Ht). assumption. }
  assert (Hin : forall row, In row (chunks (length activities) w (concat activities)) -> length row = w).
  { intros row Hi. apply In_nth_error in Hi. destruct Hi as [t Et]. assert (Ht : (t < length activities)%nat) by (rewrite <- (chunks_length (length activities) w (concat activities)); apply nth_error_Some; congruence).
    destruct (nth_error activities t) as [row'|] eqn:E'; [|apply nth_error_None in E'; lia]. rewrite (Hfr _ _ E') in Et. injection Et as <-. apply Hw. eapply nth_error_In. exact E'. }
  assert (Hwrc : w = (Z.to_nat r * Z.to_nat c)%nat) by (unfold w; apply Z2Nat.inj_mul; assumption).
  eexists. split; [|split; [|split]].
  - cbn [reshape_for_animation]. unfold np_reshape3. destruct (Z.ltb_spec r 0); [lia|]. destruct (Z.ltb_spec c 0); [lia|]. cbn [orb].
    assert (E1 : forallb (fun a => Nat.eqb (length a) (match activities with a :: _ => length a | [] => O end)) activities = true).
    { apply forallb_forall. intros row Hi. apply Nat.eqb_eq. destruct activities as [|a rest]; [destruct Hi|]. rewrite (Hw row Hi), (Hw a (or_introl eq_refl)). reflexivity. }
    rewrite E1. cbn [negb]. rewrite (concat_length activities w Hw). assert (E2 : Z.of_nat (length activities * w) =? Z.of_nat (length activities) * (r * c) = true) by (apply Z.eqb_eq; unfold w; nia).
    rewrite E2. cbn [negb]. reflexivity.
  - rewrite map_length, chunks_length. reflexivity.
  - fold w. intros frame Hi. apply in_map_iff in Hi. destruct Hi as (row & <- & Hi). rewrite chunks_length. split; [lia|]. intros line Hl. apply In_nth_error in Hl. destruct Hl as [i Ei].
    assert (Hii : (i < Z.to_nat r)%nat) by (rewrite <- (chunks_length (Z.to_nat r) (Z.to_nat c) row); apply nth_error_Some; congruence). rewrite chunks_nth in Ei by assumption. injection Ei as <-.
    rewrite firstn_length, skipn_length, (Hin row Hi). nia.
  - fold w. intros t row i j Et Hi Hj. unfold cell. rewrite nth_error_map, (Hfr _ _ Et). cbn [option_map]. rewrite chunks_nth by lia. rewrite nth_error_firstn_lt by lia. apply nth_error_skipn.
Qed.

Theorem C76_wrong_size : forall activities r c, 0 <= r -> 0 <= c -> (exists row, In row activities /\ Z.of_nat (length row) <> r * c) ->
  r * c <> 1 \/ (forall row row', In row activities -> In row' activities -> length row = length row') ->
  reshape_for_animation activities [r; c] = Err ValueError.
Proof.
  intros activities r c Hr Hc (row & Hrow & Hne) Hor. cbn [reshape_for_animation]. unfold np_reshape3. destruct (Z.ltb_spec r 0); [lia|]. destruct (Z.ltb_spec c 0); [lia|]. cbn [orb].
  destruct (forallb _ activities) eqn:Ef; cbn [negb].
  - rewrite forallb_forall in Ef. set (w := match activities with a :: _ => length a | [] => O end) in *.
    assert (Hw : forall x, In x activities -> length x = w) by (intros x Hx; apply Nat.eqb_eq, Ef; assumption). rewrite (concat_length activities w Hw).
    assert (Hpos : (0 < length activities)%nat) by (destruct activities; [destruct Hrow|cbn; lia]). rewrite (Hw row Hrow) in Hne.
    destruct (Z.eqb_spec (Z.of_nat (length activities * w)) (Z.of_nat (length activities) * (r * c))) as [E|]; [|reflexivity]. exfalso. rewrite Nat2Z.inj_mul in E. apply Z.mul_reg_l in E; [contradiction|lia].
  - destruct (Z.eqb_spec (r * c) 1) as [E|]; [|reflexivity]. destruct Hor as [Hx|Hx]; [contradiction|]. exfalso. enough (forallb (fun a => Nat.eqb (length a) (match activities with a0 :: _ => length a0 | [] => O end)) activities = true) by congruence.
    apply forallb_forall. intros x Hin. apply Nat.eqb_eq. destruct activities as [|a rest]; [destruct Hin|]. apply Hx; [assumption|left; reflexivity].
Qed.
Theorem C76_bad_shape : forall activities shape, length shape <> 1%nat -> length shape <> 2%nat -> reshape_for_animation activities shape = Err (Raise "shape must be a tuple of length 1 or 2").
Proof. intros activities [|a [|b [|c s]]] H1 H2; cbn in *; try reflexivity; congruence. Qed.
Theorem C76_bad_length : forall a rest n, n <> Z.of_nat (length a) -> reshape_for_animation (a :: rest) [n] = Err AssertionError.
Proof. intros a rest n Hn. cbn. destruct (Z.eqb_spec n (Z.of_nat (length a))); [contradiction|reflexivity]. Qed.
(** plotting with a one-dimensional shape is never possible; with a two-dimensional shape the last timestep is shown *)
Theorem C76_plot : forall activities,
  (forall n, exists e, plot_activities activities (Some [n]) = Err e) /\
  (forall r c last, 0 <= r -> 0 <= c -> (forall row, In row activities -> Z.of_nat (length row) = r * c) -> nth_error activities (length activities - 1) = Some last ->
    exists picture, plot_activities activities (Some [r; c]) = Ok picture /\ forall i j, Z.of_nat i < r -> Z.of_nat j < c ->
      match nth_error picture i with Some row => nth_error row j | None => None end = nth_error last (i * Z.to_nat c + j)).
Proof.
  intros activities. split.
  - intros n. unfold plot_activities. destruct activities as [|a rest]; [eexists; reflexivity|]. destruct (reshape_for_animation (a :: rest) [n]) as [f|e]; cbn [rbind]; eauto.
  - intros r c last Hr Hc Hrow El. destruct (C76_frames_2d activities r c Hr Hc Hrow) as (frames & E & Hlen & _ & Hcell). unfold plot_activities. destruct activities as [|a rest] eqn:Ea; [discriminate|]. rewrite <- Ea in *. rewrite E. cbn [rbind].
    assert (Hfl : (0 < length frames)%nat) by (rewrite Hlen, Ea; cbn; lia).
    assert (Er : nth_error (rev frames) 0 = nth_error frames (length activities - 1)).
    { rewrite <- Hlen. destruct (@exists_last _ frames) as (l & x & ->); [intros ->; cbn in Hfl; lia|]. rewrite rev_app_distr, app_length. cbn [rev app nth_error length]. rewrite nth_error_app2 by lia. replace (length l + 1 - 1 - length l)%nat with O by lia. reflexivity. }
    rewrite Er. destruct (nth_error frames (length activities - 1)) as [f|] eqn:Ef; [|apply nth_error_None in Ef; lia]. exists f. split; [reflexivity|]. intros i j Hi Hj. specialize (Hcell _ _ i j El Hi Hj). unfold cell in Hcell. rewrite Ef in Hcell. exact Hcell.
Qed.
Theorem C76_animation : forall T k, 0 < T -> shown T k = Z.of_nat k mod T /\ shown T (k + Z.to_nat T) = shown T k /\ 0 <= shown T k < T.
Proof.
  intros T k HT. rewrite !next_frame_shown by assumption. split; [reflexivity|]. split; [|apply Z.mod_pos_bound; assumption]. rewrite Nat2Z.inj_add, Z2Nat.id by lia. rewrite <- (Z.mul_1_l T) at 1. rewrite Z.mod_add by lia. reflexivity.
Qed.

(** ** C77 *)
Lemma enumerate_keys {A} (l : list A) : map fst (enumerate l) = seq 0 (length l).
Proof. unfold enumerate. generalize O. induction l as [|x l IH]; intros s; [reflexivity|]. cbn [length seq combine map fst]. rewrite IH. reflexivity. Qed.

Lemma grid_nth n_x n_y i j : 0 <= i < n_x -> 0 <= j < n_y -> nth_error (flat_map (fun i => map (fun j => (i, j)) (zrange 0 n_y)) (zrange 0 n_x)) (Z.to_nat (i * n_y + j)) = Some (i, j).
Proof.
  intros Hi Hj. assert (G : forall m a, 0 <= a -> 0 <= i - a < Z.of_nat m -> nth_error (flat_map (fun i => map (fun j => (i, j)) (zrange 0 n_y)) (map (fun k => a + Z.of_nat k) (seq 0 m))) (Z.to_nat ((i - a) * n_y + j)) = Some (i, j)).
  { induction m as [|m IH]; intros a Ha Hm; [lia|]. cbn [seq map flat_map]. rewrite Z.add_0_r. assert (Hl : length (map (fun j => (a, j)) (zrange 0 n_y)) = Z.to_nat n_y) by (rewrite map_length, length_zrange; f_equal; lia). destruct (Z.eq_dec i a) as [-> |Hne].
    - rewrite Z.sub_diag, Z.mul_0_l, Z.add_0_l. rewrite nth_error_app1 by lia. rewrite nth_error_map, nth_error_zrange by lia. cbn [option_map]. rewrite Z.add_0_l, Z2Nat.id by lia. reflexivity.
    - rewrite nth_error_app2 by (rewrite Hl; nia). rewrite Hl. rewrite <- seq_shift, map_map. specialize (IH (a + 1) ltac:(lia) ltac:(lia)).
      replace (Z.to_nat ((i - a) * n_y + j) - Z.to_nat n_y)%nat with (Z.to_nat ((i - (a + 1)) * n_y + j)) by nia.
      rewrite <- IH. do 2 f_equal. apply map_ext. intros k. lia. }
  specialize (G (Z.to_nat n_x) 0 ltac:(lia) ltac:(lia)). rewrite Z.sub_0_r in G. unfold zrange at 2. rewrite Z.sub_0_r. exact G.
Qed.
Lemma grid_length n_x n_y : 0 <= n_x -> 0 <= n_y -> length (flat_map (fun i => map (fun j => (i, j)) (zrange 0 n_y)) (zrange 0 n_x)) = Z.to_nat (n_x * n_y).
Proof.
  intros Hx Hy. assert (G : forall l, length (flat_map (fun i : Z => map (fun j => (i, j)) (zrange 0 n_y)) l) = (length l * Z.to_nat n_y)%nat).
  { induction l as [|x l IH]; [reflexivity|]. cbn [flat_map length]. rewrite app_length, IH, map_length, length_zrange. replace (n_y - 0) with n_y by lia. lia. }
  rewrite G, length_zrange. replace (n_x - 0) with n_x by lia. symmetry. apply Z2Nat.inj_mul; assumption.
Qed.

Theorem C77_positions : forall n_x n_y, 0 <= n_x -> 0 <= n_y ->
  dkeys (lattice_pos n_x n_y) = zrange 0 (n_x * n_y) /\
  (forall i j, 0 <= i < n_x -> 0 <= j < n_y -> dget (lattice_pos n_x n_y) (i * n_y + j) = Some (i, j)) /\
  (forall k p, dget (lattice_pos n_x n_y) k = Some p -> 0 <= fst p < n_x /\ 0 <= snd p < n_y /\ k = fst p * n_y + snd p).
Proof.
  intros n_x n_y Hx Hy. set (grid := flat_map (fun i => map (fun j => (i, j)) (zrange 0 n_y)) (zrange 0 n_x)).
  assert (Hk : dkeys (lattice_pos n_x n_y) = zrange 0 (n_x * n_y)).
  { unfold dkeys, lattice_pos. rewrite map_map. cbn [fst]. fold grid. rewrite <- (map_map fst Z.of_nat (enumerate grid)), enumerate_keys. unfold grid. rewrite grid_length by assumption. unfold zrange. rewrite Z.sub_0_r. apply map_ext. intros k. lia. }
  assert (Hnd : NoDup (dkeys (lattice_pos n_x n_y))) by (rewrite Hk; apply NoDup_zrange).
  assert (Hget : forall i j, 0 <= i < n_x -> 0 <= j < n_y -> dget (lattice_pos n_x n_y) (i * n_y + j) = Some (i, j)).
  { intros i j Hi Hj. apply dget_in; [assumption|]. unfold lattice_pos. apply in_map_iff. exists (Z.to_nat (i * n_y + j), (i, j)). cbn [fst snd]. split; [rewrite Z2Nat.id by nia; reflexivity|]. apply TopologyProofs3.in_enumerate. apply grid_nth; assumption. }
  split; [assumption|]. split; [assumption|]. intros k p Ep. assert (Hkin : In k (zrange 0 (n_x * n_y))) by (rewrite <- Hk; eapply dget_some_key; exact Ep). apply in_zrange in Hkin.
  assert (Hny : 0 < n_y) by nia. pose proof (Z.div_mod k n_y ltac:(lia)) as Hdm. pose proof (Z.mod_pos_bound k n_y Hny) as Hmb. assert (Hd : 0 <= k / n_y < n_x) by nia.
  specialize (Hget (k / n_y) (k mod n_y) Hd Hmb). replace (k / n_y * n_y + k mod n_y) with k in Hget by lia. rewrite Hget in Ep. injection Ep as <-. cbn [fst snd]. lia.
Qed.

Lemma adjacent2 a b u v : 0 < a -> 0 < b -> 0 <= u < a * b -> 0 <= v < a * b ->
  adjacent false [a; b] u v <-> Z.abs (u mod a - v mod a) + Z.abs (u / a - v / a) = 1.
Proof.
  intros Ha Hb Hu Hv. assert (Hdu : 0 <= u / a < b) by (split; [apply Z.div_pos; lia|apply Z.div_lt_upper_bound; lia]). assert (Hdv : 0 <= v / a < b) by (split; [apply Z.div_pos; lia|apply Z.div_lt_upper_bound; lia]).
  assert (Ec : forall x, 0 <= x / a < b -> coords [a; b] x = [x mod a; x / a]) by (intros x Hx; cbn [coords]; rewrite (Z.mod_small (x / a) b Hx); reflexivity).
  unfold adjacent. rewrite (Ec u Hdu), (Ec v Hdv). split.
  - intros (i & d & p & q & Ei & Ep & Eq & Hj & Ho). unfold joined in Hj. destruct i as [|[|i]]; [| |destruct i; discriminate].
    + injection Ep as <-. injection Eq as <-. specialize (Ho 1%nat ltac:(lia)). injection Ho as Ho. intuition (lia || discriminate).
    + injection Ep as <-. injection Eq as <-. specialize (Ho 0%nat ltac:(lia)). injection Ho as Ho. intuition (lia || discriminate).
  - intros Hs. destruct (Z.eq_dec (u mod a) (v mod a)) as [E|Hne].
    + exists 1%nat, b, (u / a), (v / a). repeat (split; [reflexivity|]). split; [unfold joined; lia|]. intros [|[|j]] Hj; [cbn; congruence|congruence|reflexivity].
    + exists 0%nat, a, (u mod a), (v mod a). repeat (split; [reflexivity|]). split; [unfold joined; lia|]. intros [|[|j]] Hj; [congruence|cbn; f_equal; lia|reflexivity].
Qed.

(** the nodes of lattice((n_y, n_x)) that are joined are those drawn at distance 1 *)
Theorem C77_lattice_drawing : forall (V : Type) n_x n_y, 0 < n_x -> 0 < n_y ->
  exists net : network Z V, lattice [n_y; n_x] false false 0 = Ok net /\
    forall (u v : Z) (p q : Z * Z), dget (lattice_pos n_x n_y) u = Some p -> dget (lattice_pos n_x n_y) v = Some q ->
      (Z.abs (fst p - fst q) + Z.abs (snd p - snd q) = 1 -> edge net u v = Ok [[]] /\ edge net v u = Ok [[]]) /\
      (Z.abs (fst p - fst q) + Z.abs (snd p - snd q) <> 1 -> edge net u v = Err KeyError).
Proof.
  intros V n_x n_y Hx Hy. destruct (C68_lattice V [n_y; n_x] false false 0 ltac:(discriminate) ltac:(repeat constructor; assumption)) as (net & E & _ & _ & _ & _ & Hedge).
  destruct (C68_self_loops V [n_y; n_x] false false 0 ltac:(discriminate) ltac:(repeat constructor; assumption)) as (net' & E' & _ & Hself). rewrite E in E'. injection E' as <-.
  exists net. split; [assumption|]. intros u v p q Ep Eq. destruct (C77_positions n_x n_y ltac:(lia) ltac:(lia)) as (_ & _ & Hpos). apply Hpos in Ep, Eq. destruct p as [i j], q as [i' j']. cbn [fst snd] in *. destruct Ep as (Hi & Hj & ->), Eq as (Hi' & Hj' & ->).
  assert (Hvol : volume [n_y; n_x] = n_y * n_x) by (cbn; lia). rewrite Hvol in *. 
  assert (Hdm : forall a b, 0 <= b < n_y -> (a * n_y + b) / n_y = a /\ (a * n_y + b) mod n_y = b).
  { intros a b Hb. split; [symmetry; apply Z.div_unique with (r := b); lia|symmetry; apply Z.mod_unique with (q := a); lia]. }
  assert (Hadj : adjacent false [n_y; n_x] (i * n_y + j - 0) (i' * n_y + j' - 0) <-> Z.abs (i - i') + Z.abs (j - j') = 1).
  { rewrite !Z.sub_0_r. rewrite adjacent2 by nia. destruct (Hdm i j Hj) as [-> ->], (Hdm i' j' Hj') as [-> ->]. lia. }
  specialize (Hedge (i * n_y + j) (i' * n_y + j') ltac:(nia) ltac:(nia)). rewrite Hadj in Hedge. split.
  - intros Hs. apply Hedge; [|assumption]. intros Heq. assert (i = i') by nia. assert (j = j') by nia. lia.
  - intros Hs. destruct (Z.eq_dec (i * n_y + j) (i' * n_y + j')) as [-> |Hne]; [apply Hself; [auto|nia]|]. apply Hedge; assumption.
Qed.
(** with the dimensions in the other order, joined nodes are drawn apart *)
Theorem C77_transposed : forall (V : Type) n_x n_y, 2 <= n_x -> 2 <= n_y -> n_x <> n_y ->
  exists (net : network Z V) (u v : Z) (p q : Z * Z), lattice [n_x; n_y] false false 0 = Ok net /\ edge net u v = Ok [[]] /\ dget (lattice_pos n_x n_y) u = Some p /\ dget (lattice_pos n_x n_y) v = Some q /\ Z.abs (fst p - fst q) + Z.abs (snd p - snd q) <> 1.
Proof.
  intros V n_x n_y Hx Hy Hne. destruct (C77_lattice_drawing V n_y n_x ltac:(lia) ltac:(lia)) as (net & E & Hd).
  destruct (C77_positions n_y n_x ltac:(lia) ltac:(lia)) as (_ & Hg & _). destruct (C77_positions n_x n_y ltac:(lia) ltac:(lia)) as (_ & Hg' & _).
  pose proof (Hg 0 0 ltac:(lia) ltac:(lia)) as P0. pose proof (Hg 1 0 ltac:(lia) ltac:(lia)) as P1. pose proof (Hg' 0 0 ltac:(lia) ltac:(lia)) as Q0.
  replace (0 * n_x + 0) with 0 in P0 by lia. replace (1 * n_x + 0) with n_x in P1 by lia. replace (0 * n_y + 0) with 0 in Q0 by lia.
  pose proof (Z.div_mod n_x n_y ltac:(lia)) as Hdm. pose proof (Z.mod_pos_bound n_x n_y ltac:(lia)) as Hmb.
  assert (Hdiv : 0 <= n_x / n_y < n_x) by (split; [apply Z.div_pos; lia|apply Z.div_lt; lia]). pose proof (Hg' (n_x / n_y) (n_x mod n_y) Hdiv Hmb) as Q1. replace (n_x / n_y * n_y + n_x mod n_y) with n_x in Q1 by lia.
  exists net, 0, n_x, (0, 0), (n_x / n_y, n_x mod n_y). split; [assumption|]. split; [apply (proj1 (Hd 0 n_x _ _ P0 P1)); reflexivity|]. split; [assumption|]. split; [assumption|]. cbn [fst snd]. intros Hs.
  assert (Hc : n_x / n_y = 0 /\ n_x mod n_y = 1 \/ n_x / n_y = 1 /\ n_x mod n_y = 0) by lia. destruct Hc as [[E1 E2]|[E1 E2]]; rewrite E1, E2 in Hdm; lia.
Qed.

(** the consecutive pairs of a relation *)
Fixpoint successive {L} (r : list L) : list (L * L) :=
  match r with
  | x :: ((y :: _) as r') => (x, y) :: successive r'
  | _ => []
  end.

Lemma config_add_in {L} `{EqD L} (l : list L) v x : In x (config_add_node l v) <-> x = v \/ In x l.
Proof.
  unfold config_add_node. destruct (existsb (eqb v) l) eqn:E.
  - apply existsb_exists in E. destruct E as (y & Hy & Ey). apply eqb_eq in Ey. subst y. split; [auto|]. intros [-> |Hx]; assumption.
  - rewrite in_app_iff. cbn [In]. intuition congruence.
Qed.
Lemma config_add_nodup {L} `{EqD L} (l : list L) v : NoDup l -> NoDup (config_add_node l v).
Proof.
  intros Hl. unfold config_add_node. destruct (existsb (eqb v) l) eqn:E; [assumption|]. apply LatticeProofs.NoDup_snoc; [assumption|]. intros Hv. enough (existsb (eqb v) l = true) by congruence. apply existsb_exists. exists v. split; [assumption|apply eqb_refl].
Qed.

Lemma config_relation {L} `{EqD L} (relation : list L) : forall pre suf nodes edges, relation = pre ++ suf -> NoDup nodes ->
  exists nodes', fold_left (fun g inode => let '(nodes, edges) := g in let '(i, node) := inode in let nodes := config_add_node nodes node in
      match nth_error relation (i + 1) with
      | Some to_node => (config_add_node (config_add_node nodes node) to_node, edges ++ [(node, to_node)])
      | None => (nodes, edges)
      end) (combine (seq (length pre) (length suf)) suf) (nodes, edges) = (nodes', edges ++ successive suf) /\ NoDup nodes' /\ forall x, In x nodes' <-> In x nodes \/ In x suf.
Proof.
  intros pre suf. revert pre. induction suf as [|v suf IH]; intros pre nodes edges E Hn.
  - exists nodes. cbn. rewrite app_nil_r. split; [reflexivity|]. split; [assumption|tauto].
  - cbn [length seq combine fold_left]. assert (En : nth_error relation (length pre + 1) = hd_error suf).
    { rewrite E. rewrite nth_error_app2 by lia. replace (length pre + 1 - length pre)%nat with 1%nat by lia. destruct suf; reflexivity. }
    rewrite En. assert (E' : relation = (pre ++ [v]) ++ suf) by (rewrite <- app_assoc; exact E). assert (El : S (length pre) = length (pre ++ [v])) by (rewrite app_length; cbn; lia). rewrite El.
    destruct suf as [|w suf].
    + cbn [hd_error length seq combine fold_left successive]. exists (config_add_node nodes v). rewrite app_nil_r. split; [reflexivity|]. split; [apply config_add_nodup; assumption|]. intros x. rewrite config_add_in. cbn [In]. intuition congruence.
    + cbn [hd_error]. destruct (IH (pre ++ [v]) (config_add_node (config_add_node (config_add_node nodes v) v) w) (edges ++ [(v, w)]) E' ltac:(repeat apply config_add_nodup; assumption)) as (nodes' & Ef & Hnd & Hin).
      exists nodes'. split; [refine (eq_trans Ef _); rewrite <- app_assoc; reflexivity|]. split; [assumption|]. intros x. rewrite Hin, !config_add_in. cbn [In]. intuition congruence.
Qed.

Theorem C77_configuration : forall (L : Type) (EQ : EqD L) (config : list (list L)), let (nodes, edges) := configuration_to_nx config in
  NoDup nodes /\ (forall v, In v nodes <-> exists relation, In relation config /\ In v relation) /\ edges = flat_map successive config.
Proof.
  intros L EQ config. unfold configuration_to_nx. set (step := fun g relation => _).
  assert (G : forall config nodes edges, NoDup nodes -> exists nodes', fold_left step config (nodes, edges) = (nodes', edges ++ flat_map successive config) /\ NoDup nodes' /\
    forall v, In v nodes' <-> In v nodes \/ exists relation, In relation config /\ In v relation).
  { clear config. induction config as [|r config IH]; intros nodes edges Hn.
    - exists nodes. cbn. rewrite app_nil_r. split; [reflexivity|]. split; [assumption|]. intros v. split; [auto|]. intros [Hv|(r & [] & _)]; assumption.
    - cbn [fold_left flat_map]. destruct (config_relation r [] r nodes edges eq_refl Hn) as (n1 & E1 & Hn1 & Hi1). unfold step at 2. unfold enumerate. cbn [length] in E1. rewrite E1.
      destruct (IH n1 (edges ++ successive r) Hn1) as (n2 & E2 & Hn2 & Hi2). exists n2. rewrite E2. split; [rewrite app_assoc; reflexivity|]. split; [assumption|]. intros v. rewrite Hi2, Hi1. cbn [In]. split.
      + intros [[Hv|Hv]|(r' & Hr' & Hv)]; [auto|right; exists r; auto|right; exists r'; auto].
      + intros [Hv|(r' & [<-|Hr'] & Hv)]; [auto|auto|right; exists r'; auto]. }
  destruct (G config [] [] ltac:(constructor)) as (nodes & -> & Hn & Hi). split; [assumption|]. split; [|reflexivity]. intros v. rewrite Hi. cbn. intuition.
Qed.

(** the m-th loop at a node has size 15 + 5 m; other edges have none *)
Theorem C77_loops : forall (L : Type) (EQ : EqD L) (edges : list (L * L)) k e, nth_error edges k = Some e ->
  nth_error (html_edges edges) k = Some (e, if eqb (fst e) (snd e) then Some (15 + 5 * Z.of_nat (length (filter (eqb e) (firstn (k + 1) edges)))) else None) /\ length (html_edges edges) = length edges.
Proof.
  intros L EQ edges. unfold html_edges. set (step := fun st e => _).
  assert (G : forall es done refs out, (forall e, eqb (fst e) (snd e) = true -> match dget refs e with Some m => m | None => 0 end = Z.of_nat (length (filter (eqb e) done))) -> length out = length done ->
    let out' := snd (fold_left step es (refs, out)) in length out' = length (done ++ es) /\ (forall k, (k < length done)%nat -> nth_error out' k = nth_error out k) /\
    forall k e, nth_error es k = Some e -> nth_error out' (length done + k) = Some (e, if eqb (fst e) (snd e) then Some (15 + 5 * Z.of_nat (length (filter (eqb e) (done ++ firstn (k + 1) es)))) else None)).
  { induction es as [|e es IH]; intros done refs out Hrefs Hlen; cbn [fold_left].
    - cbn [snd]. rewrite app_nil_r. split; [assumption|]. split; [auto|]. intros k e Hk. destruct k; discriminate.
    - set (entry := (e, if eqb (fst e) (snd e) then Some (15 + 5 * Z.of_nat (length (filter (eqb e) (done ++ [e])))) else None)).
      assert (Hcount : forall x, length (filter (eqb x) (done ++ [e])) = (length (filter (eqb x) done) + (if eqb x e then 1 else 0))%nat) by (intros x; rewrite filter_app, app_length; cbn [filter]; destruct (eqb x e); reflexivity).
      assert (Hst : exists refs', step (refs, out) e = (refs', out ++ [entry]) /\ forall x, eqb (fst x) (snd x) = true -> match dget refs' x with Some m => m | None => 0 end = Z.of_nat (length (filter (eqb x) (done ++ [e])))).
      { unfold step, entry. destruct (eqb (fst e) (snd e)) eqn:El.
        - rewrite (Hrefs e El). rewrite (Hcount e), eqb_refl. replace (15 + (Z.of_nat (length (filter (eqb e) done)) + 1) * 5) with (15 + 5 * Z.of_nat (length (filter (eqb e) done) + 1)) by lia. eexists. split; [reflexivity|]. intros x Hx. rewrite dget_dset, Hcount. destruct (eqd x e) as [-> |Hne]; [rewrite eqb_refl; lia|]. rewrite (proj2 (eqb_false x e) Hne). rewrite (Hrefs x Hx). lia.
        - eexists. split; [reflexivity|]. intros x Hx. rewrite Hcount. destruct (eqb x e) eqn:Exe; [apply eqb_eq in Exe; congruence|]. rewrite (Hrefs x Hx). lia. }
      destruct Hst as (refs' & -> & Hrefs'). specialize (IH (done ++ [e]) refs' (out ++ [entry]) Hrefs' ltac:(rewrite !app_length; cbn; lia)). cbv zeta in *. destruct IH as (IH1 & IH2 & IH3). rewrite <- app_assoc in IH1. cbn [app] in IH1.
      assert (Hld : length (done ++ [e]) = S (length done)) by (rewrite app_length; cbn; lia). rewrite Hld in IH2, IH3. split; [assumption|]. split.
      + intros k Hk. rewrite IH2 by lia. apply nth_error_app1. lia.
      + intros [|k] x Hx.
        * cbn in Hx. injection Hx as <-. rewrite Nat.add_0_r, IH2 by lia. rewrite nth_error_app2 by lia. rewrite Hlen, Nat.sub_diag. reflexivity.
        * cbn in Hx. specialize (IH3 k x Hx). replace (length done + S k)%nat with (S (length done) + k)%nat by lia. rewrite IH3. cbn [Nat.add firstn]. rewrite <- app_assoc. reflexivity. }
  intros k e Hk. destruct (G edges [] [] [] ltac:(intros; reflexivity) eq_refl) as (H1 & _ & H3). split; [exact (H3 k e Hk)|exact H1].
Qed.

(** ** C78 *)
(** the last [k] elements *)
Definition last_n {A} (k : nat) (l : list A) : list A := skipn (length l - k) l.

Lemma last_slice_spec {A} (a : list A) T : 1 <= T -> last_slice a T = last_n (Z.to_nat T) a.
Proof. intros HT. unfold last_slice, last_n. destruct (Z.ltb_spec (- T) 0); [|lia]. f_equal. lia. Qed.

Theorem C78_poincare : forall (A : Type) (a : list A) T,
  (T <= 1 -> poincare_pairs a T = Ok []) /\
  (1 <= T <= Z.of_nat (length a) -> poincare_pairs a T = Ok (successive (last_n (Z.to_nat T) a))) /\
  (2 <= T -> Z.of_nat (length a) < T -> poincare_pairs a T = Err IndexError).
Proof.
  intros A a T. unfold poincare_pairs.
  assert (Hok : forall l : list A, rmap (fun t => x <- of_opt IndexError (nth_error l (Z.to_nat t)) ;; y <- of_opt IndexError (nth_error l (Z.to_nat (t + 1))) ;; Ok (x, y)) (zrange 0 (Z.of_nat (length l) - 1)) = Ok (successive l)).
  { intros l. assert (G : forall suf pre, l = pre ++ suf -> rmap (fun t => x <- of_opt IndexError (nth_error l (Z.to_nat t)) ;; y <- of_opt IndexError (nth_error l (Z.to_nat (t + 1))) ;; Ok (x, y)) (zrange (Z.of_nat (length pre)) (Z.of_nat (length l) - 1)) = Ok (successive suf)).
    { induction suf as [|x suf IH]; intros pre E.
      - rewrite zrange_nil by (rewrite E, app_nil_r; lia). reflexivity.
      - destruct suf as [|y suf].
        + rewrite zrange_nil by (rewrite E, app_length; cbn; lia). reflexivity.
        + rewrite zrange_cons by (rewrite E, app_length; cbn; lia). cbn [rmap]. rewrite Nat2Z.id. replace (Z.to_nat (Z.of_nat (length pre) + 1)) with (length pre + 1)%nat by lia.
          assert (E1 : nth_error l (length pre) = Some x) by (rewrite E, nth_error_app2, Nat.sub_diag by lia; reflexivity).
          assert (E2 : nth_error l (length pre + 1) = Some y) by (rewrite E, nth_error_app2 by lia; replace (length pre + 1 - length pre)%nat with 1%nat by lia; reflexivity).
          rewrite E1, E2. cbn [of_opt rbind]. specialize (IH (pre ++ [x]) ltac:(rewrite <- app_assoc; exact E)). rewrite app_length in IH. cbn [length] in IH. rewrite Nat2Z.inj_add in IH. change (Z.of_nat 1) with 1 in IH. rewrite IH. reflexivity. }
    exact (G l [] eq_refl). }
  split; [|split].
  - intros HT. rewrite zrange_nil by lia. reflexivity.
  - intros HT. rewrite last_slice_spec by lia. rewrite <- (Hok (last_n (Z.to_nat T) a)). f_equal. f_equal. unfold last_n. rewrite skipn_length. lia.
  - intros HT Hlen. rewrite last_slice_spec by lia. unfold last_n. replace (length a - Z.to_nat T)%nat with O by lia. cbn [skipn].
    set (f := fun t => _). assert (Hf : forall t e, f t = Err e -> e = IndexError).
    { intros t e. unfold f. destruct (nth_error a (Z.to_nat t)); cbn [of_opt rbind]; [|congruence]. destruct (nth_error a (Z.to_nat (t + 1))); cbn [of_opt rbind]; congruence. }
    assert (Hlast : f (T - 2) = Err IndexError).
    { unfold f. destruct (nth_error a (Z.to_nat (T - 2))); cbn [of_opt rbind]; [|reflexivity]. rewrite (proj2 (nth_error_None _ _)) by lia. reflexivity. }
    assert (G : forall l, (forall t, In t l -> True) -> In (T - 2) l -> rmap f l = Err IndexError).
    { induction l as [|t l IH]; intros _ Hi; [destruct Hi|]. cbn [rmap]. destruct (f t) as [p|e] eqn:Et; cbn [rbind]; [|f_equal; eapply Hf; exact Et]. destruct Hi as [-> |Hi]; [congruence|]. rewrite IH by auto. reflexivity. }
    apply G; [auto|]. apply in_zrange. lia.
Qed.

Theorem C78_bifurcation : forall (X : Type) (x : list X) trajectories T, length x = length trajectories ->
  let points := bifurcation_points x trajectories T in
  map fst points = x /\ length points = length trajectories /\
  forall k p trajectory, nth_error points k = Some p -> nth_error trajectories k = Some trajectory ->
    asc (snd p) /\ (1 <= T -> forall v, In v (snd p) <-> In v (last_n (Z.to_nat T) trajectory)) /\ (T = 0 -> forall v, In v (snd p) <-> In v trajectory).
Proof.
  intros X x trajectories T Hlen points. unfold points, bifurcation_points. split; [|split].
  - clear points. revert trajectories Hlen. induction x as [|a x IH]; intros [|t ts] Hl; try discriminate; [reflexivity|]. cbn. f_equal. apply IH. cbn in Hl. congruence.
  - rewrite combine_length, map_length, Hlen. lia.
  - clear points. revert trajectories Hlen. induction x as [|a x IH]; intros [|t ts] Hl k p tr Ep Et; try discriminate; [destruct k; discriminate|].
    destruct k as [|k]; [|eapply (IH ts); [cbn in Hl; congruence|exact Ep|exact Et]]. cbn in Ep, Et. injection Ep as <-. injection Et as <-. cbn [snd]. split; [apply np_unique_asc|]. split.
    + intros HT v. rewrite np_unique_in, last_slice_spec by lia. reflexivity.
    + intros -> v. rewrite np_unique_in. unfold last_slice. cbn. destruct t; [reflexivity|]. rewrite Z.min_l by lia. reflexivity.
Qed.
(** more timesteps than there are: everything *)
Theorem C78_whole : forall (A : Type) k (l : list A), (length l <= k)%nat -> last_n k l = l.
Proof. intros A k l Hk. unfold last_n. replace (length l - k)%nat with O by lia. reflexivity. Qed.

(** ** Examples *)
Definition ex_net : network Z Z := fst (mfor [(0, 1); (0, 2); (1, 2)] (fun e => add_edge (fst e) (snd e) []) (fst (add_node 7 [] empty_network))).
Example C74_nonvacuous : reachable ex_net /\ nodes ex_net <> [] /\ degree_distribution ex_net false false = Ok [(1, 0); (2, 3)] /\ degree_distribution ex_net true true = Ok [(1, 1); (2, 1)] /\ degree_distribution ex_net false true = Ok [(1, 1); (2, 1)].
Proof.
  split; [|split; [discriminate|split; [|split]; vm_compute; reflexivity]]. exists [OpAddNode 7 []; OpAddEdge 0 1 []; OpAddEdge 0 2 []; OpAddEdge 1 2 []]. vm_compute. reflexivity.
Qed.
Example C76_nonvacuous : reshape_for_animation [[1; 2]; [3; 4]; [5; 6]] [2] = Ok [[[1; 2]; [0; 0]; [0; 0]]; [[1; 2]; [3; 4]; [0; 0]]; [[1; 2]; [3; 4]; [5; 6]]] /\
  reshape_for_animation [[1; 2; 3; 4; 5; 6]; [7; 8; 9; 10; 11; 12]] [2; 3] = Ok [[[1; 2; 3]; [4; 5; 6]]; [[7; 8; 9]; [10; 11; 12]]] /\
  plot_activities [[1; 2; 3; 4; 5; 6]; [7; 8; 9; 10; 11; 12]] (Some [2; 3]) = Ok [[7; 8; 9]; [10; 11; 12]] /\ reshape_for_animation [[1; 2]; [3; 4]] [2; 2] = Err ValueError.
Proof. repeat split. Qed.
Example C77_nonvacuous : lattice_pos 2 3 = [(0, (0, 0)); (1, (0, 1)); (2, (0, 2)); (3, (1, 0)); (4, (1, 1)); (5, (1, 2))] /\
  configuration_to_nx [[1; 2; 1]; [3]; [1; 2]] = ([1; 2; 3], [(1, 2); (2, 1); (1, 2)]) /\ html_edges [(1, 1); (1, 2); (1, 1); (2, 2)] = [((1, 1), Some 20); ((1, 2), None); ((1, 1), Some 25); ((2, 2), Some 20)].
Proof. split; [reflexivity|]. split; vm_compute; reflexivity. Qed.
Example C78_nonvacuous : poincare_pairs [1; 2; 3; 4] 3 = Ok [(2, 3); (3, 4)] /\ poincare_pairs [1; 2] 3 = Err IndexError /\ bifurcation_points [10; 20] [[1; 3; 2; 3]; [5; 4]] 3 = [(10, [2; 3]); (20, [4; 5])] /\ bifurcation_points [10] [[1; 3; 2; 3]] 0 = [(10, [1; 2; 3])].
Proof. repeat split. Qed.

Print Assumptions C74_bars.
Print Assumptions C74_empty.
Print Assumptions C76_frames_1d.
Print Assumptions C76_frames_2d.
Print Assumptions C76_wrong_size.
Print Assumptions C76_bad_shape.
Print Assumptions C76_bad_length.
Print Assumptions C76_plot.
Print Assumptions C76_animation.
Print Assumptions C77_positions.
Print Assumptions C77_lattice_drawing.
Print Assumptions C77_transposed.
Print Assumptions C77_configuration.
Print Assumptions C77_loops.
Print Assumptions C78_poincare.
Print Assumptions C78_bifurcation.
Print Assumptions C78_whole.

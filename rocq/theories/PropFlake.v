(** * C121: the hexagonal automaton demo draws a snowflake *)
From Verif Require Import Py PyFacts ListFacts Network Topology TopologySpec TopologyProofs Evolve EvolveSpec EvolveProofs EvolveStatic CaSpec CaRun CaNets Utils PropUtils HopfieldSpec HopfieldProofs HopfieldProofs2 FredkinProofs SandpileProofs.
From Verif Require Import FlakeSpec FlakeProofs HexDemo FlakeTorus.
Open Scope string_scope.
Open Scope list_scope.
Open Scope Z_scope.

(** ** the snowflake on the plane *)
(** live cells stay alive; a dead cell that has two live cells around it stays dead; nothing is alive outside the hexagon of radius t *)
Theorem C121_growth : forall t q r,
  (flake t q r = true -> forall n, (t <= n)%nat -> flake n q r = true) /\
  (flake t q r = false -> 2 <= alive_around (flake t) q r -> forall n, (t <= n)%nat -> flake n q r = false) /\
  (flake t q r = true -> in_hexagon (Z.of_nat t) q r).
Proof.
  intros t q r. split; [|split; [|apply flake_cone]].
  - intros H n Hn. replace n with (n - t + t)%nat by lia. apply snow_grows. exact H.
  - intros H H2 n Hn. replace n with (n - t + t)%nat by lia. apply dead_for_ever; assumption.
Qed.
Print Assumptions C121_growth.

(** it has the symmetries of the hexagon *)
Theorem C121_symmetry : forall t p, flake t (fst (turn p)) (snd (turn p)) = flake t (fst p) (snd p) /\ flake t (fst (mirror p)) (snd (mirror p)) = flake t (fst p) (snd p).
Proof. intros t [q r]. split; [apply flake_turn|apply flake_mirror]. Qed.
Print Assumptions C121_symmetry.

Lemma turns t n p : flake t (fst (Nat.iter n turn p)) (snd (Nat.iter n turn p)) = flake t (fst p) (snd p).
Proof. induction n as [|n IH]; [reflexivity|]. change (Nat.iter (S n) turn p) with (turn (Nat.iter n turn p)). rewrite (proj1 (C121_symmetry t _)). exact IH. Qed.

(** the boundary of the hexagon is six copies of a side *)
Lemma six_sides (t : nat) q r : on_hexagon (Z.of_nat t) q r -> exists n i, (i <= t)%nat /\ Nat.iter n turn (Z.of_nat (t - i), Z.of_nat i) = (q, r).
Proof.
  intros [Hin Hout]. unfold in_hexagon in *.
  assert (Hs : (q + r = Z.of_nat t /\ 0 <= q /\ 0 <= r) \/ (r = Z.of_nat t /\ q <= 0 /\ 0 <= q + r) \/ (q = - Z.of_nat t /\ 0 <= r /\ q + r <= 0) \/
    (q + r = - Z.of_nat t /\ q <= 0 /\ r <= 0) \/ (r = - Z.of_nat t /\ 0 <= q /\ q + r <= 0) \/ (q = Z.of_nat t /\ r <= 0 /\ 0 <= q + r)) by lia.
  destruct Hs as [H|[H|[H|[H|[H|H]]]]].
  - exists 0%nat, (Z.to_nat r). split; [lia|]. cbn. f_equal; lia.
  - exists 1%nat, (Z.to_nat (- q)). split; [lia|]. unfold turn. cbn [Nat.iter nat_rect fst snd]. f_equal; lia.
  - exists 2%nat, (Z.to_nat (- q - r)). split; [lia|]. unfold turn. cbn [Nat.iter nat_rect fst snd]. f_equal; lia.
  - exists 3%nat, (Z.to_nat (- r)). split; [lia|]. unfold turn. cbn [Nat.iter nat_rect fst snd]. f_equal; lia.
  - exists 4%nat, (Z.to_nat q). split; [lia|]. unfold turn. cbn [Nat.iter nat_rect fst snd]. f_equal; lia.
  - exists 5%nat, (Z.to_nat (q + r)). split; [lia|]. unfold turn. cbn [Nat.iter nat_rect fst snd]. f_equal; lia.
Qed.

(** each of the six sides of the hexagon of radius t shows row t of Pascal's triangle modulo 2, from corner to corner *)
Theorem C121_pascal : forall t n i, (i <= t)%nat ->
  let p := Nat.iter n turn (Z.of_nat (t - i), Z.of_nat i) in flake t (fst p) (snd p) = Z.odd (binom t i).
Proof. intros t n i Hi p. unfold p. rewrite turns. cbn [fst snd]. apply frontier. exact Hi. Qed.
Print Assumptions C121_pascal.

(** at time 2^k - 1 the whole boundary is alive; at time 2^k the six corners of the boundary and nothing else on it *)
Theorem C121_powers : forall k q r,
  (on_hexagon (Z.of_nat (2 ^ k - 1)) q r -> flake (2 ^ k - 1) q r = true) /\
  (on_hexagon (Z.of_nat (2 ^ k)) q r -> (flake (2 ^ k) q r = true <-> q = 0 \/ r = 0 \/ q + r = 0)).
Proof.
  intros k q r. assert (Hp : (0 < 2 ^ k)%nat) by (apply Nat.neq_0_lt_0, Nat.pow_nonzero; lia). split.
  - intros H. destruct (six_sides _ q r H) as (n & i & Hi & E). pose proof (C121_pascal _ n i Hi) as F. cbv zeta in F. rewrite E in F. cbn [fst snd] in F. rewrite F. apply full_row. exact Hi.
  - intros H. destruct (six_sides _ q r H) as (n & i & Hi & E). pose proof (C121_pascal _ n i Hi) as F. cbv zeta in F. rewrite E in F. cbn [fst snd] in F. rewrite F.
    assert (Hc : (fst (Nat.iter n turn (Z.of_nat (2 ^ k - i), Z.of_nat i)) = 0 \/ snd (Nat.iter n turn (Z.of_nat (2 ^ k - i), Z.of_nat i)) = 0 \/
      fst (Nat.iter n turn (Z.of_nat (2 ^ k - i), Z.of_nat i)) + snd (Nat.iter n turn (Z.of_nat (2 ^ k - i), Z.of_nat i)) = 0) <-> i = 0%nat \/ i = (2 ^ k)%nat).
    { clear E F. set (p0 := (Z.of_nat (2 ^ k - i), Z.of_nat i)). transitivity (fst p0 = 0 \/ snd p0 = 0 \/ fst p0 + snd p0 = 0); [|unfold p0; cbn [fst snd]; lia].
      clearbody p0. induction n as [|n IH]; [reflexivity|]. rewrite <- IH. change (Nat.iter (S n) turn p0) with (turn (Nat.iter n turn p0)). destruct (Nat.iter n turn p0) as [x y]. cbn [turn fst snd]. lia. }
    rewrite E in Hc. cbn [fst snd] in Hc. rewrite Hc. destruct (Nat.eq_dec i 0) as [->|H0]; [rewrite binom_0; cbn; tauto|]. destruct (Nat.eq_dec i (2 ^ k)) as [->|H1]; [rewrite binom_diag; cbn; tauto|].
    rewrite (ends_pow k i) by lia. split; [discriminate|lia].
Qed.
Print Assumptions C121_powers.

Example C121_powers_example : on_hexagon (Z.of_nat (2 ^ 2)) 4 (-2) /\ flake 4 4 (-2) = false /\ on_hexagon (Z.of_nat (2 ^ 2)) 4 (-4) /\ flake 4 4 (-4) = true /\ on_hexagon (Z.of_nat (2 ^ 2 - 1)) 3 (-2) /\ flake 3 3 (-2) = true.
Proof. change (Z.of_nat (2 ^ 2)) with 4. change (Z.of_nat (2 ^ 2 - 1)) with 3. unfold on_hexagon, in_hexagon. repeat split; lia || (vm_compute; reflexivity). Qed.

(** ** the grid *)
Definition hex_grid (rows cols : Z) : Prop := 4 <= rows /\ 3 <= cols /\ Z.even rows = true.

(** every cell of the grid has a place on the plane, and places on the plane are the same cell when they differ by turns around the torus *)
Theorem C121_grid : forall rows cols, hex_grid rows cols ->
  (forall q r, 0 <= place rows cols q r < rows * cols) /\ (forall v, 0 <= v < rows * cols -> exists q r, place rows cols q r = v) /\
  (forall q r q' r', place rows cols q r = place rows cols q' r' <-> copies rows cols (q' - q) (r' - r) = true) /\
  place rows cols 0 0 = rows / 2 * cols + cols / 2.
Proof.
  intros rows cols (Hr & Hc & He). split; [intros; apply place_bound; lia|]. split; [intros; apply place_surj; lia|]. split.
  - intros q r q' r'. rewrite place_same by assumption. unfold copies. rewrite andb_true_iff, !Z.eqb_eq.
    assert (Er : rows = 2 * (rows / 2)) by (rewrite Zeven_mod in He; apply Zeq_bool_eq in He; pose proof (Z.div_mod rows 2 ltac:(lia)); lia). split.
    + intros (m & k & -> & ->). replace (r + k * rows - r) with (0 + k * rows) by lia. rewrite Z_mod_plus_full. split; [apply Z.mod_0_l; lia|].
      replace (0 + k * rows) with (0 + k * (rows / 2) * 2) by nia. rewrite Z.div_add by lia. replace (q + m * cols - k * (rows / 2) - q + (0 / 2 + k * (rows / 2))) with (0 + m * cols) by (rewrite Zdiv_0_l; lia). rewrite Z_mod_plus_full. apply Z.mod_0_l. lia.
    + intros [E1 E2]. apply Z.mod_divide in E1, E2; [|lia|lia]. destruct E1 as [k E1]. destruct E2 as [m E2]. exists m, k. split; [lia|]. rewrite E1 in E2. replace (k * rows) with (0 + k * (rows / 2) * 2) in E2 by nia. rewrite Z.div_add, Zdiv_0_l in E2 by lia. lia.
  - unfold place. rewrite !Z.add_0_r, Z.sub_diag, Z.add_0_r. assert (0 <= rows / 2 < rows) by (split; [apply Z.div_pos|apply Z.div_lt]; lia). assert (0 <= cols / 2 < cols) by (split; [apply Z.div_pos|apply Z.div_lt]; lia). rewrite !Z.mod_small by lia. reflexivity.
Qed.
Print Assumptions C121_grid.

(** a copy other than the centre itself is far away *)
Lemma copies_far rows cols q r n : hex_grid rows cols -> n < rows -> n < cols -> in_hexagon n q r -> copies rows cols q r = seed q r.
Proof.
  intros (Hr & Hc & He) Hn Hm Hin. unfold copies, seed. unfold in_hexagon in Hin. destruct (Z.eqb_spec (r mod rows) 0) as [E|E]; cbn [andb].
  - apply Z.mod_divide in E; [|lia]. destruct E as [k E]. assert (k = 0) by nia. subst k. rewrite Z.mul_0_l in E. subst r. rewrite Zdiv_0_l, Z.add_0_r, andb_true_r.
    destruct (Z.eqb_spec (q mod cols) 0) as [F|F]; destruct (Z.eqb_spec q 0) as [->|G]; try reflexivity.
    + apply Z.mod_divide in F; [|lia]. destruct F as [m F]. assert (m = 0) by nia. subst m. lia.
    + exfalso. apply F. apply Z.mod_0_l. lia.
  - destruct (Z.eqb_spec r 0) as [->|G]; [exfalso; apply E; apply Z.mod_0_l; lia|]. rewrite andb_false_r. reflexivity.
Qed.

(** until the copies meet, each is the snowflake *)
Lemma copies_flake rows cols (k : nat) q r : hex_grid rows cols -> 2 * Z.of_nat k < rows -> 2 * Z.of_nat k < cols -> in_hexagon (Z.of_nat k) q r -> snow (copies rows cols) k q r = flake k q r.
Proof.
  intros Hg Hr Hc Hin. apply snow_sees. intros x y Hxy. apply (copies_far rows cols x y (2 * Z.of_nat k)); [assumption|lia|lia|]. unfold in_hexagon in *. lia.
Qed.

(** ** a grid whose cells only ever switch on comes to rest *)
Lemma snow_shift s dx dy t : (forall x y, s (x + dx) (y + dy) = s x y) -> forall q r, snow s t (q + dx) (r + dy) = snow s t q r.
Proof.
  intros H. induction t as [|t IH]; intros q r; [apply H|]. rewrite !snow_S, IH. f_equal. f_equal. unfold alive_around. f_equal. apply map_ext. intros d. rewrite <- (IH (q + fst d) (r + snd d)).
  replace (q + dx + fst d) with (q + fst d + dx) by lia. replace (r + dy + snd d) with (r + snd d + dy) by lia. reflexivity.
Qed.

Lemma indicators (h : Z -> bool) l : 0 <= zsum (map (fun v => if h v then 1 else 0) l) <= Z.of_nat (length l).
Proof. induction l as [|v l IH]; [cbn; lia|]. cbn [map length]. rewrite zsum_cons. destruct (h v); lia. Qed.

Lemma settle (m : Z) (g : nat -> Z -> bool) : 0 <= m -> (forall k v, g k v = true -> g (S k) v = true) ->
  (forall k, (forall v, 0 <= v < m -> g (S k) v = g k v) -> forall v, 0 <= v < m -> g (S (S k)) v = g (S k) v) ->
  forall k n, m <= Z.of_nat k -> m <= Z.of_nat n -> forall v, 0 <= v < m -> g k v = g n v.
Proof.
  intros Hm Hmono Hdet. set (cnt := fun k => zsum (map (fun v => if g k v then 1 else 0) (zrange 0 m))).
  assert (Hcase : forall l k, (forall v, In v l -> g (S k) v = g k v) \/ zsum (map (fun v => if g k v then 1 else 0) l) + 1 <= zsum (map (fun v => if g (S k) v then 1 else 0) l)).
  { assert (Hle : forall k l, zsum (map (fun v => if g k v then 1 else 0) l) <= zsum (map (fun v => if g (S k) v then 1 else 0) l)).
    { intros k l. induction l as [|v l IH]; [cbn; lia|]. cbn [map]. rewrite !zsum_cons. specialize (Hmono k v). destruct (g k v); [rewrite Hmono by reflexivity|destruct (g (S k) v)]; lia. }
    intros l k. induction l as [|v l IH]; [left; intros v []|]. cbn [map]. rewrite !zsum_cons. pose proof (Hmono k v) as Hv. pose proof (Hle k l) as Hl. destruct IH as [IH|IH].
    - destruct (g k v) eqn:E1, (g (S k) v) eqn:E2; try (discriminate (Hv eq_refl)).
      + left. intros w [Ew|Hw]; [subst w; rewrite E1, E2; reflexivity|apply IH; exact Hw].
      + right. lia.
      + left. intros w [Ew|Hw]; [subst w; rewrite E1, E2; reflexivity|apply IH; exact Hw].
    - right. destruct (g k v); [rewrite Hv by reflexivity|destruct (g (S k) v)]; lia. }
  assert (Hub : forall k, 0 <= cnt k <= m).
  { intros k. unfold cnt. pose proof (indicators (g k) (zrange 0 m)) as B. rewrite length_zrange in B. lia. }
  assert (Hfix : forall k, (exists j, (j < k)%nat /\ forall v, 0 <= v < m -> g (S j) v = g j v) \/ Z.of_nat k <= cnt k).
  { induction k as [|k IH]; [right; apply Hub|]. destruct IH as [(j & Hj & E)|IH]; [left; exists j; split; [lia|exact E]|]. destruct (Hcase (zrange 0 m) k) as [E|E].
    - left. exists k. split; [lia|]. intros v Hv. apply E, in_zrange. lia.
    - right. unfold cnt in *. lia. }
  assert (Hrest : exists j, Z.of_nat j <= m /\ forall v, 0 <= v < m -> g (S j) v = g j v).
  { destruct (Hfix (S (Z.to_nat m))) as [(j & Hj & E)|E]; [exists j; split; [lia|exact E]|]. pose proof (Hub (S (Z.to_nat m))). lia. }
  destruct Hrest as (j & Hj & E).
  assert (Hall : forall i v, 0 <= v < m -> g (i + j)%nat v = g j v).
  { assert (Hst : forall i v, 0 <= v < m -> g (S (i + j)) v = g (i + j)%nat v) by (induction i as [|i IH]; [exact E|]; intros v Hv; apply (Hdet (i + j)%nat); assumption).
    induction i as [|i IH]; intros v Hv; [reflexivity|]. cbn [Nat.add]. rewrite Hst by assumption. auto. }
  intros k n Hk Hn v Hv. replace k with (k - j + j)%nat by lia. replace n with (n - j + j)%nat by lia. rewrite !Hall by assumption. reflexivity.
Qed.

Lemma copies_shift rows cols dx dy : hex_grid rows cols -> copies rows cols dx dy = true -> forall x y, copies rows cols (x + dx) (y + dy) = copies rows cols x y.
Proof.
  intros Hg Hd x y. destruct (C121_grid rows cols Hg) as (_ & _ & Hs & _). assert (E : place rows cols x y = place rows cols (x + dx) (y + dy)) by (apply Hs; replace (x + dx - x) with dx by lia; replace (y + dy - y) with dy by lia; exact Hd).
  pose proof (Hs 0 0 x y) as H1. pose proof (Hs 0 0 (x + dx) (y + dy)) as H2. rewrite !Z.sub_0_r in H1, H2. rewrite E in H1. destruct (copies rows cols (x + dx) (y + dy)), (copies rows cols x y); try reflexivity; exfalso.
  - assert (false = true) by tauto. discriminate.
  - assert (false = true) by tauto. discriminate.
Qed.

Lemma snow_place rows cols t q r q' r' : hex_grid rows cols -> place rows cols q r = place rows cols q' r' -> snow (copies rows cols) t q r = snow (copies rows cols) t q' r'.
Proof.
  intros Hg E. apply (C121_grid rows cols Hg) in E. rewrite <- (snow_shift (copies rows cols) (q' - q) (r' - r) t (copies_shift rows cols _ _ Hg E) q r). f_equal; lia.
Qed.

Lemma snow_settles rows cols k n q r : hex_grid rows cols -> rows * cols <= Z.of_nat k -> rows * cols <= Z.of_nat n -> snow (copies rows cols) k q r = snow (copies rows cols) n q r.
Proof.
  intros Hg Hk Hn. pose proof Hg as (Hr & Hc & _). destruct (C121_grid rows cols Hg) as (Hb & Hsur & _).
  set (qq := fun v => v mod cols - cols / 2 - ((v / cols + 1) / 2 - (rows / 2 + 1) / 2)). set (rr := fun v => v / cols - rows / 2).
  assert (Hinv : forall v, 0 <= v < rows * cols -> place rows cols (qq v) (rr v) = v).
  { intros v Hv. destruct (cell_surj rows cols v ltac:(lia) Hv) as (Ev & Ha & Hbb). unfold cell in Ev. unfold place, qq, rr. replace (rows / 2 + (v / cols - rows / 2)) with (v / cols) by lia. rewrite (Z.mod_small (v / cols)) by lia.
    match goal with |- _ + ?x mod cols = _ => replace x with (v mod cols) by lia end. rewrite Z.mod_mod by lia. congruence. }
  assert (Hloc : forall t q r, snow (copies rows cols) t q r = snow (copies rows cols) t (qq (place rows cols q r)) (rr (place rows cols q r))) by (intros; apply snow_place; [assumption|]; rewrite Hinv by apply Hb; reflexivity).
  rewrite (Hloc k), (Hloc n). apply (settle (rows * cols) (fun t v => snow (copies rows cols) t (qq v) (rr v))); try assumption; try nia; [| |apply Hb].
  - intros t v E. rewrite snow_S, E. reflexivity.
  - intros t E v Hv. assert (Eall : forall q r, snow (copies rows cols) (S t) q r = snow (copies rows cols) t q r) by (intros; rewrite (Hloc (S t)), (Hloc t); apply E, Hb).
    rewrite (snow_S _ (S t)). rewrite (around_ext _ (snow (copies rows cols) t)) by (intros; apply Eall). rewrite snow_S. destruct (snow (copies rows cols) t (qq v) (rr v)); [reflexivity|]. cbn [orb]. destruct (_ =? 1); reflexivity.
Qed.

(** ** the script *)
Section Demo.
  Context {U I BA BN : Type} (W : env Z Z Z BA BN).
  Hypothesis Hlab : forall i, e_lab W i = Z.of_nat i.

  (** [hs] are the activities of the states in the trajectory of the script *)
  Definition hex_history (rows cols T : Z) (hs : list (dict Z Z)) : Prop :=
    exists fuel (u0 : U) traj, 1 <= T /\ (Z.to_nat T <= fuel)%nat /\ hexagonal_ca_demo (I := I) W fuel u0 rows cols T = Ok traj /\ Forall2 (fun s S => activities W s = Ok (Some S)) traj hs.

  Lemma hex_run rows cols T fuel (u0 : U) : hex_grid rows cols -> 1 <= T -> (Z.to_nat T <= fuel)%nat ->
    exists traj hs, hexagonal_ca_demo (I := I) W fuel u0 rows cols T = Ok traj /\ Z.of_nat (length hs) = T /\ Forall2 (fun s S => activities W s = Ok (Some S)) traj hs /\
      forall k S, nth_error hs k = Some S -> forall q r, dget S (place rows cols q r) = Some (if snow (copies rows cols) k q r then 1 else 0).
  Proof.
    intros Hg HT Hf. pose proof Hg as (Hr & Hc & He). pose proof (C121_grid rows cols Hg) as (Hpb & Hps & Hsame & Hz0).
    destruct (hex_lattice rows cols ltac:(lia) ltac:(lia) ltac:(nia) He) as (net & f & En & (Hnd & Hnodes & Hcl & Hlen & Hnb & Hub) & Hfd & Hfin).
    destruct (C64_init_simple2d rows cols 1 ltac:(lia) ltac:(lia)) as (init & Ei & Hil & Hin). unfold hexagonal_ca_demo. rewrite En, Ei. cbn [rbind].
    assert (Hdict : forall v, 0 <= v < rows * cols -> dget (to_dict W (CList init)) v = Some (at0 init v)) by (intros v Hv; cbn [to_dict]; apply (dget_listed (e_lab W)); [exact Hlab|lia]).
    assert (Hcell : forall q r, at0 init (place rows cols q r) = if copies rows cols q r then 1 else 0).
    { intros q r. pose proof (Hpb q r) as Hv. destruct (cell_surj rows cols _ ltac:(lia) Hv) as (Ev & Ha & Hb). unfold cell in Ev. set (v := place rows cols q r) in *.
      pose proof (Hin _ _ Ha Hb) as Hn. rewrite <- Ev in Hn. unfold at0. rewrite (nth_error_nth _ _ _ Hn).
      assert (Hiff : copies rows cols q r = true <-> v = rows / 2 * cols + cols / 2).
      { rewrite <- Hz0. specialize (Hsame 0 0 q r). rewrite !Z.sub_0_r in Hsame. rewrite <- Hsame. unfold v. split; congruence. }
      assert (Hd : 0 <= cols / 2 < cols) by (split; [apply Z.div_pos|apply Z.div_lt]; lia).
      destruct (Z.eqb_spec (v / cols) (rows / 2)), (Z.eqb_spec (v mod cols) (cols / 2)), (copies rows cols q r) eqn:Ec; cbn [andb]; try reflexivity; exfalso.
      - assert (false = true) by (apply Hiff; congruence). discriminate.
      - assert (v = rows / 2 * cols + cols / 2) by (apply Hiff; reflexivity). nia.
      - assert (v = rows / 2 * cols + cols / 2) by (apply Hiff; reflexivity). nia.
      - assert (v = rows / 2 * cols + cols / 2) by (apply Hiff; reflexivity). nia. }
    assert (Hbits : forall v, 0 <= v < rows * cols -> at0 init v = 0 \/ at0 init v = 1) by (intros v Hv; destruct (Hps v Hv) as (q & r & <-); rewrite Hcell; destruct (copies rows cols q r); auto).
    destruct (ca_run W fuel u0 net f (CList init) T (hex_args (I := I)) hex_rule born (fun _ => True) (at0 init)) as (uf & traj & hs & E & Hl & Hsh & _ & Hkeys & Hs).
    - repeat split.
    - exact Hnd.
    - exact HT.
    - exact Hf.
    - cbn [to_dict]. unfold enumerate. rewrite map_length, combine_length, seq_length. lia.
    - exact Hcl.
    - intros v Hv. apply Hnb, Hnodes, Hv.
    - intros v Hv. apply Hdict, Hnodes, Hv.
    - intros; exact Logic.I.
    - intros x _ _ _ _. split; [reflexivity|exact Logic.I].
    - exists traj, hs. rewrite E. cbn [rbind]. split; [reflexivity|]. split; [assumption|]. split.
      + clear - Hsh Hs Hr Hc Hnodes. assert (Hne : forall k S, nth_error hs k = Some S -> S <> []).
        { intros k S Ek ->. specialize (Hs k [] Ek 0). rewrite Hnodes in Hs. specialize (Hs ltac:(nia)). discriminate. }
        clear Hs. induction Hsh as [|s S traj hs Es Hf IH]; [constructor|]. constructor; [|apply IH; intros k S' Ek; apply (Hne (Datatypes.S k)); assumption].
        rewrite Es. specialize (Hne 0%nat S eq_refl). destruct S; [contradiction|reflexivity].
      + intros k S Ek q r. rewrite (Hs k S Ek (place rows cols q r)) by (apply Hnodes, Hpb). f_equal.
        rewrite (grid_snow rows cols Hr Hc He f Hfd Hub Hfin (at0 init) Hbits). rewrite (snow_sees _ (copies rows cols)); [reflexivity|]. intros x y _. rewrite Hcell. destruct (copies rows cols x y); reflexivity.
  Qed.

  Theorem C121_runs : forall rows cols T, hex_grid rows cols -> 1 <= T -> U -> exists hs, hex_history rows cols T hs.
  Proof. intros rows cols T Hg HT u0. destruct (hex_run rows cols T (Z.to_nat T) u0 Hg HT (le_n _)) as (traj & hs & E & _ & Hs & _). exists hs, (Z.to_nat T), u0, traj. auto. Qed.

  (** the states are those of the automaton on the plane, started from all the copies of the centre cell *)
  Theorem C121_unrolled : forall rows cols T hs, hex_grid rows cols -> hex_history rows cols T hs -> Z.of_nat (length hs) = T /\
    forall k S, nth_error hs k = Some S -> forall q r, dget S (place rows cols q r) = Some (if snow (copies rows cols) k q r then 1 else 0).
  Proof.
    intros rows cols T hs Hg (fuel & u0 & traj & HT & Hf & E & Hs). destruct (hex_run rows cols T fuel u0 Hg HT Hf) as (traj' & hs' & E' & Hlen & Hs' & H). assert (traj' = traj) by congruence. subst traj'.
    assert (hs' = hs) by (clear - Hs Hs'; revert hs' Hs'; induction Hs as [|s S traj hs Es _ IH]; intros hs' Hs'; inversion Hs'; subst; [reflexivity|]; f_equal; [congruence|auto]).
    subst hs'. auto.
  Qed.

  (** while 2k is less than the sides of the grid, the k-th state shows the snowflake around the centre cell, and nothing else *)
  Theorem C121_script : forall rows cols T hs k S, hex_grid rows cols -> hex_history rows cols T hs -> nth_error hs k = Some S -> 2 * Z.of_nat k < rows -> 2 * Z.of_nat k < cols ->
    (forall q r, in_hexagon (Z.of_nat k) q r -> dget S (place rows cols q r) = Some (if flake k q r then 1 else 0)) /\
    (forall v, 0 <= v < rows * cols -> (forall q r, in_hexagon (Z.of_nat k) q r -> place rows cols q r <> v) -> dget S v = Some 0).
  Proof.
    intros rows cols T hs k S Hg Hh Ek Hr Hc. destruct (C121_unrolled rows cols T hs Hg Hh) as [_ Hs]. pose proof (C121_grid rows cols Hg) as (Hpb & Hps & Hsame & _). split.
    - intros q r Hin. rewrite (Hs k S Ek q r), (copies_flake rows cols k q r Hg Hr Hc Hin). reflexivity.
    - intros v Hv Hno. destruct (Hps v Hv) as (q & r & <-). rewrite (Hs k S Ek q r). rewrite (snow_sees (copies rows cols) (fun _ _ => false) k q r), snow_nothing; [reflexivity|].
      intros x y Hxy. destruct (copies rows cols x y) eqn:Ec; [|reflexivity]. exfalso. apply (Hno (q - x) (r - y)); [unfold in_hexagon in *; lia|].
      apply Hsame. replace (q - (q - x)) with x by lia. replace (r - (r - y)) with y by lia. exact Ec.
  Qed.

  (** a cell that is on stays on *)
  Theorem C121_stays : forall rows cols T hs k n S S' v, hex_grid rows cols -> hex_history rows cols T hs -> nth_error hs k = Some S -> nth_error hs n = Some S' -> (k <= n)%nat ->
    dget S v = Some 1 -> 0 <= v < rows * cols -> dget S' v = Some 1.
  Proof.
    intros rows cols T hs k n S S' v Hg Hh Ek En Hkn H1 Hv. destruct (C121_unrolled rows cols T hs Hg Hh) as [_ Hs]. pose proof (C121_grid rows cols Hg) as (_ & Hps & _). destruct (Hps v Hv) as (q & r & <-).
    rewrite (Hs k S Ek) in H1. rewrite (Hs n S' En). destruct (snow (copies rows cols) k q r) eqn:E; [|discriminate]. replace n with (n - k + k)%nat by lia. rewrite snow_grows by assumption. reflexivity.
  Qed.

  (** from state rows * cols on, all states are the same *)
  Theorem C121_settles : forall rows cols T hs k n S S' v, hex_grid rows cols -> hex_history rows cols T hs -> nth_error hs k = Some S -> nth_error hs n = Some S' ->
    rows * cols <= Z.of_nat k -> rows * cols <= Z.of_nat n -> 0 <= v < rows * cols -> dget S' v = dget S v.
  Proof.
    intros rows cols T hs k n S S' v Hg Hh Ek En Hk Hn Hv. destruct (C121_unrolled rows cols T hs Hg Hh) as [_ Hs]. pose proof (C121_grid rows cols Hg) as (_ & Hps & _). destruct (Hps v Hv) as (q & r & <-).
    rewrite (Hs k S Ek), (Hs n S' En), (snow_settles rows cols k n q r Hg Hk Hn). reflexivity.
  Qed.

  (** where the tips of the snowflake meet on a square grid of 2m columns, the cell stays off for ever, though the snowflake on the plane is there at time m: the state m is the first that is not the snowflake *)
  Theorem C121_meet : forall rows cols T hs m k S, hex_grid rows cols -> hex_history rows cols T hs -> cols = 2 * Z.of_nat m -> cols <= rows ->
    nth_error hs k = Some S -> dget S (place rows cols (Z.of_nat m) 0) = Some 0 /\ flake m (Z.of_nat m) 0 = true.
  Proof.
    intros rows cols T hs m k S Hg Hh Em Hle Ek. pose proof Hg as (Hr & Hc & He). destruct (C121_unrolled rows cols T hs Hg Hh) as [_ Hs]. split.
    2: { pose proof (frontier m 0 ltac:(lia)) as F. rewrite Nat.sub_0_r, binom_0 in F. exact F. }
    rewrite (Hs k S Ek). destruct m as [|m]; [lia|].
    assert (Htip : forall t, flake t (Z.of_nat t) 0 = true) by (intros t; pose proof (frontier t 0 ltac:(lia)) as F; rewrite Nat.sub_0_r, binom_0 in F; exact F).
    assert (Htip' : forall t, flake t (- Z.of_nat t) 0 = true) by (intros t; rewrite <- (Htip t); pose proof (turns t 3 (Z.of_nat t, 0)) as F; unfold turn in F; cbn [Nat.iter nat_rect fst snd] in F; rewrite <- F; f_equal; lia).
    assert (Hper : forall q r, snow (copies rows cols) m q r = snow (copies rows cols) m (q - cols) r).
    { assert (Hp : forall t q r, snow (copies rows cols) t q r = snow (copies rows cols) t (q - cols) r).
      { induction t as [|t IH]; intros q r.
        - cbn [snow]. unfold copies. f_equal. f_equal. replace (q + r / 2) with (q - cols + r / 2 + 1 * cols) by lia. apply Z_mod_plus_full.
        - rewrite !snow_S, <- IH. f_equal. f_equal. rewrite !around. rewrite (IH (q + 1) r), (IH q (r + 1)), (IH (q - 1) (r + 1)), (IH (q - 1) r), (IH q (r - 1)), (IH (q + 1) (r - 1)).
          replace (q - cols + 1) with (q + 1 - cols) by lia. replace (q - cols - 1) with (q - 1 - cols) by lia. reflexivity. }
      apply Hp. }
    assert (Hdead : snow (copies rows cols) m (Z.of_nat (Datatypes.S m)) 0 = false).
    { rewrite (snow_sees (copies rows cols) (fun _ _ => false)); [apply snow_nothing|]. intros x y Hxy. unfold copies. unfold in_hexagon in Hxy.
      destruct (Z.eqb_spec (y mod rows) 0) as [E|E]; [|reflexivity]. apply Z.mod_divide in E; [|lia]. destruct E as [c E]. assert (c = 0) by nia. subst c. rewrite Z.mul_0_l in E. subst y. rewrite Zdiv_0_l, Z.add_0_r. cbn [andb].
      apply Z.eqb_neq. intros E. apply Z.mod_divide in E; [|lia]. destruct E as [c E]. assert (c = 0 \/ c <= -1 \/ 1 <= c) by lia. nia. }
    assert (Htwo : 2 <= alive_around (snow (copies rows cols) m) (Z.of_nat (Datatypes.S m)) 0).
    { rewrite around. assert (E1 : snow (copies rows cols) m (Z.of_nat (Datatypes.S m) - 1) 0 = true).
      { replace (Z.of_nat (Datatypes.S m) - 1) with (Z.of_nat m) by lia. rewrite (copies_flake rows cols m) by (assumption || lia || (unfold in_hexagon; lia)). apply Htip. }
      assert (E2 : snow (copies rows cols) m (Z.of_nat (Datatypes.S m) + 1) 0 = true).
      { rewrite Hper. replace (Z.of_nat (Datatypes.S m) + 1 - cols) with (- Z.of_nat m) by lia. rewrite (copies_flake rows cols m) by (assumption || lia || (unfold in_hexagon; lia)). apply Htip'. }
      rewrite E1, E2. repeat match goal with |- context [if ?b then 1 else 0] => destruct b end; lia. }
    destruct (Nat.le_gt_cases m k) as [Hk|Hk].
    - replace k with (k - m + m)%nat by lia. rewrite (dead_for_ever _ m _ _ Hdead Htwo). reflexivity.
    - destruct (snow (copies rows cols) k (Z.of_nat (Datatypes.S m)) 0) eqn:E; [|reflexivity]. pose proof (snow_grows _ k (m - k) _ _ E) as F. replace (m - k + k)%nat with m in F by lia. congruence.
  Qed.
End Demo.
Print Assumptions C121_runs. Print Assumptions C121_unrolled. Print Assumptions C121_script. Print Assumptions C121_stays. Print Assumptions C121_settles. Print Assumptions C121_meet.

(** the script's grid: 60 rows and 60 columns; its last state, the 31st, is the one in which the tips meet *)
Example C121_example : hex_grid 60 60 /\ 60 = 2 * Z.of_nat 30 /\ 2 * Z.of_nat 29 < 60 /\ place 60 60 (Z.of_nat 30) 0 = 30 * 60 /\ place 60 60 (-30) 0 = 30 * 60.
Proof. unfold hex_grid. repeat split; lia || (vm_compute; reflexivity). Qed.
